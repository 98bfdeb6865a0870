(** Shared infrastructure: results, fields, finite sums, dictionaries.
    Nothing in this file transcribes SEYFERT code; it fixes the mathematical
    vocabulary the models use. *)
From Coq Require Export String Ascii ZArith Bool Arith Lia List.
From Coq Require Import Permutation Field Qcanon.
Export ListNotations.
Set Implicit Arguments.

(** Python exceptions as values.  The constructors name the exception class;
    messages are not modelled. *)
Inductive exc :=
| EException | EKeyError | EValueError | ETypeError | EAttributeError
| EFileExists | EFileNotFound | EZeroDivision | EIndexError | EDomain (* any class private to the project *)
| ENotImplemented | EAssertion | ELinAlg | ERuntime | EOutOfFuel | EOSError.

Inductive res (A : Type) : Type :=
| Ok (a : A)
| Err (e : exc).
Arguments Ok {A} _.
Arguments Err {A} _.

Definition rbind {A B} (r : res A) (f : A -> res B) : res B :=
  match r with Ok a => f a | Err e => Err e end.
Definition rmap {A B} (f : A -> B) (r : res A) : res B :=
  match r with Ok a => Ok (f a) | Err e => Err e end.
Notation "x <- e ;; k" := (rbind e (fun x => k))
  (at level 61, e at next level, right associativity).

Fixpoint rmapM {A B} (f : A -> res B) (l : list A) : res (list B) :=
  match l with
  | [] => Ok []
  | x :: xs => y <- f x ;; ys <- rmapM f xs ;; Ok (y :: ys)
  end.

Definition is_ok {A} (r : res A) : bool := match r with Ok _ => true | Err _ => false end.

(** Exact arithmetic in place of IEEE doubles: any field with decidable
    equality. *)
Class Fld (F : Type) := {
  fz : F; fo : F;
  fadd : F -> F -> F; fmul : F -> F -> F; fsub : F -> F -> F; fopp : F -> F;
  fdiv : F -> F -> F; finv : F -> F;
  fdec : forall x y : F, {x = y} + {x <> y};
  fth : field_theory fz fo fadd fmul fsub fopp fdiv finv (@eq F)
}.

Declare Scope fld_scope.
Delimit Scope fld_scope with F.
Infix "+" := fadd : fld_scope.
Infix "*" := fmul : fld_scope.
Infix "-" := fsub : fld_scope.
Infix "/" := fdiv : fld_scope.
Notation "- x" := (fopp x) : fld_scope.
Notation "0" := fz : fld_scope.
Notation "1" := fo : fld_scope.

(** Ordered fields, for statements with inequalities. *)
Class OFld (F : Type) `{K : Fld F} := {
  fle : F -> F -> Prop;
  fle_dec : forall x y, {fle x y} + {~ fle x y};
  fle_refl : forall x, fle x x;
  fle_trans : forall x y z, fle x y -> fle y z -> fle x z;
  fle_antisym : forall x y, fle x y -> fle y x -> x = y;
  fle_total : forall x y, fle x y \/ fle y x;
  fle_add : forall x y z, fle x y -> fle (fadd x z) (fadd y z);
  fle_mul : forall x y, fle fz x -> fle fz y -> fle fz (fmul x y)
}.
Definition flt {F} `{OFld F} (x y : F) : Prop := fle x y /\ x <> y.

#[export] Instance Qc_Fld : Fld Qc := {
  fz := 0%Qc; fo := 1%Qc; fadd := Qcplus; fmul := Qcmult; fsub := Qcminus;
  fopp := Qcopp; fdiv := Qcdiv; finv := Qcinv; fdec := Qc_eq_dec; fth := Qcft }.

#[export] Instance Qc_OFld : OFld (F := Qc).
Proof.
  refine {| fle := Qcle |}.
  - intros x y. destruct (Qclt_le_dec y x) as [H|H].
    + right. intro C. exact (Qclt_not_le _ _ H C).
    + left. exact H.
  - apply Qcle_refl.
  - apply Qcle_trans.
  - apply Qcle_antisym.
  - intros x y. destruct (Qclt_le_dec x y) as [H|H].
    + left. apply Qclt_le_weak. exact H.
    + right. exact H.
  - intros x y z H. cbn. apply Qcplus_le_compat; [exact H|apply Qcle_refl].
  - intros x y Hx Hy. cbn in *.
    replace 0%Qc with (0 * y)%Qc by ring.
    apply Qcmult_le_compat_r; assumption.
Defined.

(** Finite sums over a list. *)
Section Sums.
  Context {F : Type} {K : Fld F}.
  Add Field FldBase : (fth (F := F)).
  Open Scope fld_scope.

  Fixpoint Fsum {A} (f : A -> F) (l : list A) : F :=
    match l with [] => 0 | x :: xs => f x + Fsum f xs end.

  Lemma Fsum_ext {A} (f g : A -> F) l :
    (forall x, In x l -> f x = g x) -> Fsum f l = Fsum g l.
  Proof.
    induction l as [|a l IH]; intros H; cbn [Fsum]; [reflexivity|].
    rewrite (H a) by (left; reflexivity).
    rewrite IH; [reflexivity|]. intros x Hx; apply H; right; exact Hx.
  Qed.

  Lemma Fsum_app {A} (f : A -> F) l1 l2 : Fsum f (l1 ++ l2) = Fsum f l1 + Fsum f l2.
  Proof. induction l1 as [|a l IH]; cbn [Fsum app]; [ring|rewrite IH; ring]. Qed.

  Lemma Fsum_zero {A} (f : A -> F) l : (forall x, In x l -> f x = 0) -> Fsum f l = 0.
  Proof.
    induction l as [|a l IH]; intros H; cbn [Fsum]; [reflexivity|].
    rewrite (H a) by (left; reflexivity).
    rewrite IH; [ring|]. intros x Hx; apply H; right; exact Hx.
  Qed.

  Lemma Fsum_plus {A} (f g : A -> F) l : Fsum (fun x => f x + g x) l = Fsum f l + Fsum g l.
  Proof. induction l as [|a l IH]; cbn [Fsum]; [ring|rewrite IH; ring]. Qed.

  Lemma Fsum_minus {A} (f g : A -> F) l : Fsum (fun x => f x - g x) l = Fsum f l - Fsum g l.
  Proof. induction l as [|a l IH]; cbn [Fsum]; [ring|rewrite IH; ring]. Qed.

  Lemma Fsum_scale {A} (c : F) (f : A -> F) l : Fsum (fun x => c * f x) l = c * Fsum f l.
  Proof. induction l as [|a l IH]; cbn [Fsum]; [ring|rewrite IH; ring]. Qed.

  Lemma Fsum_scale_r {A} (c : F) (f : A -> F) l : Fsum (fun x => f x * c) l = Fsum f l * c.
  Proof. induction l as [|a l IH]; cbn [Fsum]; [ring|rewrite IH; ring]. Qed.

  Lemma Fsum_perm {A} (f : A -> F) l1 l2 : Permutation l1 l2 -> Fsum f l1 = Fsum f l2.
  Proof.
    induction 1 as [| x l l' _ IH | x y l | l l' l'' _ IH1 _ IH2]; cbn [Fsum].
    - reflexivity.
    - rewrite IH; reflexivity.
    - ring.
    - rewrite IH1; exact IH2.
  Qed.

  Lemma Fsum_map {A B} (g : A -> B) (f : B -> F) l : Fsum f (map g l) = Fsum (fun x => f (g x)) l.
  Proof. induction l as [|a l IH]; cbn [Fsum map]; [reflexivity|rewrite IH; reflexivity]. Qed.

  Lemma Fsum_flat_map {A B} (g : A -> list B) (f : B -> F) l :
    Fsum f (flat_map g l) = Fsum (fun x => Fsum f (g x)) l.
  Proof. induction l as [|a l IH]; cbn [Fsum flat_map]; [reflexivity|rewrite Fsum_app, IH; reflexivity]. Qed.

  Lemma Fsum_comm {A B} (f : A -> B -> F) l1 l2 :
    Fsum (fun a => Fsum (fun b => f a b) l2) l1 = Fsum (fun b => Fsum (fun a => f a b) l1) l2.
  Proof.
    induction l1 as [|a l IH]; cbn [Fsum].
    - symmetry; apply Fsum_zero; reflexivity.
    - rewrite IH, Fsum_plus; reflexivity.
  Qed.

  (** A sum with a single non-zero term. *)
  Lemma Fsum_single {A} (f : A -> F) l a :
    NoDup l -> In a l -> (forall x, In x l -> x <> a -> f x = 0) -> Fsum f l = f a.
  Proof.
    induction l as [|b l IH]; intros Hnd Hin Hz; [destruct Hin|].
    inversion Hnd as [|? ? Hnb Hnd']; subst. cbn [Fsum].
    destruct Hin as [->|Hin].
    - rewrite (@Fsum_zero _ f l); [ring|].
      intros x Hx; apply Hz; [right; exact Hx|intros ->; exact (Hnb Hx)].
    - rewrite (Hz b); [|left; reflexivity|intros ->; exact (Hnb Hin)].
      rewrite IH; [ring|exact Hnd'|exact Hin|].
      intros x Hx; apply Hz; right; exact Hx.
  Qed.

  Lemma Fsum_filter {A} (p : A -> bool) (f : A -> F) l :
    Fsum f (filter p l) = Fsum (fun x => if p x then f x else 0) l.
  Proof.
    induction l as [|a l IH]; cbn [Fsum filter]; [reflexivity|].
    destruct (p a); cbn [Fsum]; rewrite IH; ring.
  Qed.

  Lemma Fsum_split {A} (p : A -> bool) (f : A -> F) l :
    Fsum f l = Fsum f (filter p l) + Fsum f (filter (fun x => negb (p x)) l).
  Proof.
    induction l as [|a l IH]; cbn [Fsum filter]; [ring|].
    destruct (p a); cbn [negb Fsum]; rewrite IH; ring.
  Qed.
End Sums.

Section OSums.
  Context {F : Type} {K : Fld F} {O : OFld (F := F)}.
  Add Field FldBaseO : (fth (F := F)).
  Open Scope fld_scope.

  Lemma fle_add2 (a b c d : F) : fle a b -> fle c d -> fle (a + c) (b + d).
  Proof.
    intros H1 H2. apply fle_trans with (b + c).
    - apply fle_add; exact H1.
    - replace (b + c) with (c + b) by ring. replace (b + d) with (d + b) by ring.
      apply fle_add; exact H2.
  Qed.

  Lemma fle_sub_iff (a b : F) : fle a b <-> fle 0 (b - a).
  Proof.
    split; intros H.
    - apply fle_add with (z := - a) in H. replace (a + - a) with (0:F) in H by ring.
      replace (b - a) with (b + - a) by ring. exact H.
    - apply fle_add with (z := a) in H. replace (0 + a) with a in H by ring.
      replace (b - a + a) with b in H by ring. exact H.
  Qed.

  Lemma fle_sq (x : F) : fle 0 (x * x).
  Proof.
    destruct (fle_total 0 x) as [H|H].
    - apply fle_mul; exact H.
    - apply fle_add with (z := - x) in H. replace (x + - x) with (0:F) in H by ring.
      replace (0 + - x) with (- x) in H by ring.
      replace (x * x) with ((- x) * (- x)) by ring. apply fle_mul; exact H.
  Qed.

  Lemma Fsum_nonneg {A} (f : A -> F) l : (forall x, In x l -> fle 0 (f x)) -> fle 0 (Fsum f l).
  Proof.
    induction l as [|a l IH]; intros H; cbn [Fsum]; [apply fle_refl|].
    replace (0:F) with (0 + 0) by ring. apply fle_add2.
    - apply H; left; reflexivity.
    - apply IH. intros x Hx; apply H; right; exact Hx.
  Qed.

  Lemma fle_0_1 : fle 0 (1:F).
  Proof. replace (1:F) with (1 * 1) by ring. apply fle_sq. Qed.
End OSums.

(** Python dictionaries: association lists, first binding wins, insertion
    order kept; assignment to an existing key keeps its place. *)
Section Dict.
  Context {K V : Type} (eqb : K -> K -> bool).
  Definition dict := list (K * V).
  Fixpoint dget (d : dict) (k : K) : option V :=
    match d with
    | [] => None
    | (k', v) :: d' => if eqb k' k then Some v else dget d' k
    end.
  Fixpoint dset (d : dict) (k : K) (v : V) : dict :=
    match d with
    | [] => [(k, v)]
    | (k', v') :: d' => if eqb k' k then (k', v) :: d' else (k', v') :: dset d' k v
    end.
  Definition dkeys (d : dict) : list K := map fst d.
  Definition dmem (d : dict) (k : K) : bool := match dget d k with Some _ => true | None => false end.
  Definition dupdate (d e : dict) : dict := fold_left (fun acc kv => dset acc (fst kv) (snd kv)) e d.
End Dict.
Arguments dict : clear implicits.

Section DictLemmas.
  Context {K V : Type} (eqb : K -> K -> bool)
          (eqb_spec : forall a b, reflect (a = b) (eqb a b)).
  Implicit Types d : dict K V.

  Lemma eqb_refl' a : eqb a a = true.
  Proof. destruct (eqb_spec a a) as [_|n]; [reflexivity|destruct n; reflexivity]. Qed.

  Lemma dget_dset_same d k v : dget eqb (dset eqb d k v) k = Some v.
  Proof.
    induction d as [|[k' v'] d IH]; cbn.
    - rewrite eqb_refl'. reflexivity.
    - destruct (eqb k' k) eqn:E; cbn; rewrite E; [reflexivity|exact IH].
  Qed.

  Lemma dget_dset_other d k k2 v : k <> k2 -> dget eqb (dset eqb d k v) k2 = dget eqb d k2.
  Proof.
    intros Hne. induction d as [|[k' v'] d IH]; cbn.
    - destruct (eqb_spec k k2) as [e|_]; [contradiction|reflexivity].
    - destruct (eqb_spec k' k) as [->|n]; cbn.
      + destruct (eqb_spec k k2) as [e|_]; [contradiction|reflexivity].
      + destruct (eqb k' k2); [reflexivity|exact IH].
  Qed.

  Lemma dget_In d k v : dget eqb d k = Some v -> In (k, v) d.
  Proof.
    induction d as [|[k' v'] d IH]; cbn; [discriminate|].
    destruct (eqb_spec k' k) as [->|n]; intros H.
    - injection H as ->. left; reflexivity.
    - right; apply IH; exact H.
  Qed.

  Lemma dget_None d k : dget eqb d k = None <-> ~ In k (dkeys d).
  Proof.
    induction d as [|[k' v'] d IH]; cbn; [tauto|].
    destruct (eqb_spec k' k) as [->|n].
    - split; [discriminate|intros H; exfalso; apply H; left; reflexivity].
    - rewrite IH. unfold dkeys. tauto.
  Qed.

  Lemma dget_NoDup_In d k v : NoDup (dkeys d) -> In (k, v) d -> dget eqb d k = Some v.
  Proof.
    induction d as [|[k' v'] d IH]; cbn; intros Hnd Hin; [destruct Hin|].
    inversion Hnd as [|? ? Hn Hnd']; subst.
    destruct Hin as [E|Hin].
    - injection E as -> ->. rewrite eqb_refl'. reflexivity.
    - destruct (eqb_spec k' k) as [->|n].
      + exfalso. apply Hn. apply (in_map fst) in Hin. exact Hin.
      + apply IH; assumption.
  Qed.

  Lemma dkeys_dset d k v :
    dkeys (dset eqb d k v) = if dmem eqb d k then dkeys d else dkeys d ++ [k].
  Proof.
    unfold dmem. induction d as [|[k' v'] d IH]; cbn; [reflexivity|].
    destruct (eqb_spec k' k) as [->|n]; cbn.
    - reflexivity.
    - unfold dkeys in *. rewrite IH. destruct (dget eqb d k); reflexivity.
  Qed.

  Lemma NoDup_dset d k v : NoDup (dkeys d) -> NoDup (dkeys (dset eqb d k v)).
  Proof.
    intros H. rewrite dkeys_dset. unfold dmem.
    destruct (dget eqb d k) eqn:E; [exact H|].
    apply dget_None in E.
    apply Permutation_NoDup with (k :: dkeys d).
    - rewrite <- (app_nil_r (k :: dkeys d)). cbn.
      rewrite app_nil_r. apply Permutation_cons_append.
    - constructor; assumption.
  Qed.
End DictLemmas.

(** Rational literals for the examples: [qq n d] is n/d, [qz n] is n. *)
Definition qq (n : Z) (d : positive) : Qc := Q2Qc (QArith_base.Qmake n d).
Definition qz (n : Z) : Qc := qq n 1.
