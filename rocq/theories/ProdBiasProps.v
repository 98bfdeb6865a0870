(** C122: Fisher matrices of galaxy biases and sigma8 in the products of the two. *)
From Coq Require Import Field Qcanon.
From Verif Require Import Base SortLib StrLib NameModel KeyModel TexModel FrameModel FrameLemmas MatInv ProdBiasModel.
Open Scope nat_scope.
Open Scope string_scope.
Open Scope list_scope.

Lemma bias_iff n : is_bias n = true <-> exists r, n = ("bg" ++ r)%string.
Proof. apply starts_iff. Qed.
Lemma sapp_cancel_r c : forall a b : string, (a ++ c)%string = (b ++ c)%string -> a = b.
Proof.
  assert (L : forall a b : string, String.length (a ++ b) = String.length a + String.length b) by (induction a; cbn; congruence).
  induction a as [|x a IH]; intros [|y b] E; cbn in E.
  - reflexivity.
  - exfalso. apply (f_equal String.length) in E. cbn in E. rewrite L in E. lia.
  - exfalso. apply (f_equal String.length) in E. cbn in E. rewrite L in E. lia.
  - injection E as -> E. f_equal. apply IH. exact E.
Qed.
Lemma key_bias n : is_bias (key n) = is_bias n.
Proof. unfold key. destruct (is_bias n) eqn:E; [|exact E]. apply bias_iff in E. destruct E as (r & ->). apply bias_iff. exists (r ++ "_sigma8")%string. reflexivity. Qed.
Lemma key_inj n m : key n = key m -> n = m.
Proof.
  intros E. pose proof (key_bias n) as A. rewrite E, key_bias in A. unfold key in E. rewrite <- A in E. destruct (is_bias m); [|exact E]. exact (sapp_cancel_r _ _ _ E).
Qed.
Lemma key_8 n : key n = "sigma8" <-> n = "sigma8".
Proof. split; [|intros ->; reflexivity]. intros E. apply key_inj. rewrite E. reflexivity. Qed.
Lemma unkey_key l n : In n l -> unkey l (key n) = n.
Proof.
  intros H. unfold unkey. destruct (find (fun m => String.eqb (key m) (key n)) l) as [m|] eqn:E.
  - apply find_some in E. destruct E as [_ E]. apply String.eqb_eq in E. apply key_inj. exact E.
  - pose proof (find_none _ _ E n H) as X. cbn in X. rewrite String.eqb_refl in X. discriminate.
Qed.

Section Props.
  Context {F : Type} {K : Fld F}.
  Add Field FldBP : (fth (F := F)).
  Open Scope fld_scope.

  (** The form of a Fisher matrix on two displacements of its parameters. *)
  Definition form (f : sq F) (v w : string -> F) : F :=
    Fsum (fun a => Fsum (fun b => v a * entry f a b * w b) (labels f)) (labels f).

  Lemma pull {A B} (X : list A) (L : list B) (G : B -> A -> F) (e : B -> B -> F) (v w : A -> F) :
    Fsum (fun x => Fsum (fun y => v x * Fsum (fun c => Fsum (fun d => G c x * e c d * G d y) L) L * w y) X) X =
    Fsum (fun c => Fsum (fun d => Fsum (fun x => G c x * v x) X * e c d * Fsum (fun y => G d y * w y) X) L) L.
  Proof.
    transitivity (Fsum (fun x => Fsum (fun y => Fsum (fun c => Fsum (fun d => (G c x * v x) * e c d * (G d y * w y)) L) L) X) X).
    { apply Fsum_ext. intros x _. apply Fsum_ext. intros y _. rewrite <- Fsum_scale, <- Fsum_scale_r. apply Fsum_ext. intros c _. rewrite <- Fsum_scale, <- Fsum_scale_r. apply Fsum_ext. intros d _. ring. }
    transitivity (Fsum (fun x => Fsum (fun c => Fsum (fun y => Fsum (fun d => (G c x * v x) * e c d * (G d y * w y)) L) X) L) X).
    { apply Fsum_ext. intros x _. apply (Fsum_comm (fun y c => Fsum (fun d => (G c x * v x) * e c d * (G d y * w y)) L)). }
    rewrite (Fsum_comm (fun x c => Fsum (fun y => Fsum (fun d => (G c x * v x) * e c d * (G d y * w y)) L) X)).
    apply Fsum_ext. intros c _.
    transitivity (Fsum (fun x => Fsum (fun d => (G c x * v x) * (e c d * Fsum (fun y => G d y * w y) X)) L) X).
    { apply Fsum_ext. intros x _. rewrite (Fsum_comm (fun y d => (G c x * v x) * e c d * (G d y * w y))). apply Fsum_ext. intros d _. rewrite <- !Fsum_scale. apply Fsum_ext. intros y _. ring. }
    rewrite (Fsum_comm (fun x d => (G c x * v x) * (e c d * Fsum (fun y => G d y * w y) X))). apply Fsum_ext. intros d _. rewrite Fsum_scale_r. ring.
  Qed.

  (** What the two bases are. *)
  Lemma bases_spec (f : sq F) fid theta thetap fd : bases f fid = Ok (theta, thetap, fd) ->
    In "sigma8" (labels f) /\ exists s8, symbol "sigma8" = Ok s8 /\
    dkeys theta = labels f /\ (forall n, In n (labels f) -> exists s, symbol n = Ok s) /\
    theta = map (fun n => (n, match symbol n with Ok s => s | Err _ => "" end)) (labels f) /\
    thetap = map (fun n => (n, let s := match symbol n with Ok s => s | Err _ => "" end in if is_bias n then Mul s s8 else Sym s)) (labels f) /\
    (forall n, In n (labels f) -> exists x, dget String.eqb fid n = Some x) /\
    fd = rev (map (fun n => (match symbol n with Ok s => s | Err _ => "" end, match dget String.eqb fid n with Some x => x | None => 0 end)) (labels f)).
  Proof.
    unfold bases. destruct (theta_of (labels f)) as [th|] eqn:T; cbn [rbind]; [|discriminate]. destruct (fid_of th fid) as [fd'|] eqn:Fd; cbn [rbind]; [|discriminate]. destruct (thetap_of th) as [tp|] eqn:Tp; cbn [rbind]; [|discriminate]. destruct (dmem String.eqb th "sigma8") eqn:M; [|discriminate]. intros H. injection H as -> -> ->.
    set (sy := fun n => match symbol n with Ok s => s | Err _ => "" end).
    assert (A : (forall n, In n (labels f) -> exists s, symbol n = Ok s) /\ theta = map (fun n => (n, sy n)) (labels f)).
    { clear -T. revert theta T. unfold theta_of, sy. induction (labels f) as [|n l IH]; intros th T; cbn [rmapM] in T; [injection T as <-; split; [intros n []|reflexivity]|].
      destruct (symbol n) as [s|] eqn:S; cbn [rbind] in T; [|discriminate]. destruct (rmapM _ l) as [t|]; cbn [rbind] in T; [|discriminate]. injection T as <-. destruct (IH t eq_refl) as [I1 I2]. split; [intros m [<-|Hm]; [exists s; exact S|exact (I1 m Hm)]|]. cbn [map]. rewrite S, I2. reflexivity. }
    destruct A as [A1 A2].
    assert (G : forall k, dget String.eqb theta k = if smem k (labels f) then Some (sy k) else None).
    { intros k. rewrite A2. clear. induction (labels f) as [|n l IH]; [reflexivity|]. cbn [map dget]. unfold smem. cbn [existsb]. rewrite (String.eqb_sym k n). destruct (String.eqb_spec n k) as [->|]; [reflexivity|exact IH]. }
    assert (I8 : In "sigma8" (labels f)) by (unfold dmem in M; rewrite G in M; destruct (smem "sigma8" (labels f)) eqn:E; [apply smem_In; exact E|discriminate]).
    split; [exact I8|]. destruct (A1 _ I8) as (s8 & E8). exists s8. split; [exact E8|]. split; [rewrite A2; unfold dkeys; rewrite map_map; cbn; apply map_id|]. split; [exact A1|]. split; [exact A2|]. split.
    - unfold thetap_of in Tp. assert (N8 : need theta "sigma8" = Ok s8) by (unfold need; rewrite G, (proj2 (smem_In _ _) I8); unfold sy; rewrite E8; reflexivity). rewrite N8 in Tp. clear -Tp A2. rewrite A2 in Tp. clear A2 theta. fold sy. revert thetap Tp. induction (labels f) as [|n l IH]; intros tp Tp; cbn [rmapM map fst snd] in Tp; [injection Tp as <-; reflexivity|].
      cbn [map]. destruct (is_bias n); cbn [rbind] in Tp; (destruct (rmapM _ _) as [t|]; cbn [rbind] in Tp; [|discriminate]); injection Tp as <-; rewrite <- (IH t eq_refl); reflexivity.
    - unfold fid_of in Fd. destruct (rmapM _ theta) as [q|] eqn:Q; cbn [rbind] in Fd; [|discriminate]. injection Fd as <-.
      assert (X : (forall n, In n (labels f) -> exists x, dget String.eqb fid n = Some x) /\ q = map (fun n => (sy n, match dget String.eqb fid n with Some x => x | None => 0 end)) (labels f)).
      { rewrite A2 in Q. clear -Q. revert q Q. induction (labels f) as [|n l IH]; intros q Q; cbn [rmapM map fst snd] in Q; [injection Q as <-; split; [intros n []|reflexivity]|]. unfold need in Q at 1. destruct (dget String.eqb fid n) as [x|] eqn:E; cbn [rbind] in Q; [|discriminate]. destruct (rmapM _ _) as [t|]; cbn [rbind] in Q; [|discriminate]. injection Q as <-. destruct (IH t eq_refl) as [I1 I2]. split; [intros m [<-|Hm]; [exists x; exact E|exact (I1 m Hm)]|]. cbn [map]. rewrite E, I2. reflexivity. }
      destruct X as [X1 X2]. split; [exact X1|]. rewrite X2. reflexivity.
  Qed.

  Section Given.
    Context (f : sq F) (fid : dict string F) (ND : NoDup (labels f)).
    Notation l := (labels f).
    Notation sy := (fun n => match symbol n with Ok s => s | Err _ => "" end).
    Notation fv n := (match dget String.eqb fid n with Some x => x | None => 0 end).
    Context (theta : dict string string) (thetap : dict string expr) (fd : dict string F) (HB : bases f fid = Ok (theta, thetap, fd)).
    (** Distinct symbols. *)
    Context (HS : forall n m s, In n l -> In m l -> symbol n = Ok s -> symbol m = Ok s -> n = m).

    Lemma sym_inj n m : In n l -> In m l -> sy n = sy m -> n = m.
    Proof. destruct (bases_spec _ _ _ _ _ HB) as (_ & s8 & _ & _ & A & _). intros Hn Hm E. destruct (A n Hn) as (s & Es), (A m Hm) as (t & Et). rewrite Es, Et in E. subst t. exact (HS n m s Hn Hm Es Et). Qed.
    Lemma value_sym n : In n l -> value_of fd (sy n) = fv n.
    Proof.
      intros Hn. destruct (bases_spec _ _ _ _ _ HB) as (_ & s8 & _ & _ & A & _ & _ & X & Efd). unfold value_of. rewrite Efd.
      assert (I : forall n m, In n l -> In m l -> sy n = sy m -> n = m) by (intros; apply sym_inj; assumption).
      assert (N : NoDup (dkeys (rev (map (fun n => (sy n, fv n)) l)))).
      { unfold dkeys. rewrite map_rev, map_map. cbn [fst]. apply NoDup_rev. clear -ND I. revert ND I. generalize l as L. induction L as [|a L IH]; intros ND I; cbn; [constructor|]. inversion ND as [|? ? N1 N2]; subst. constructor; [|apply IH; [exact N2|intros; apply I; (right; assumption) || assumption]].
        intros Q. apply in_map_iff in Q. destruct Q as (b & Eb & Hb). assert (b = a) by (apply I; [right; exact Hb|left; reflexivity|exact Eb]). subst b. contradiction. }
      rewrite (dget_NoDup_In _ String.eqb_spec _ (sy n) (fv n) N); [reflexivity|]. apply in_rev. rewrite rev_involutive. apply in_map_iff. exists n. auto.
    Qed.
    Lemma In8 : In "sigma8" l.
    Proof. destruct (bases_spec _ _ _ _ _ HB) as (H & _). exact H. Qed.
    Definition el (n : string) : expr := if is_bias n then Mul (sy n) (sy "sigma8") else Sym (sy n).
    Lemma thetap_el : thetap = map (fun n => (n, el n)) l.
    Proof. destruct (bases_spec _ _ _ _ _ HB) as (_ & s8 & E8 & _ & _ & _ & H & _). rewrite H. apply map_ext. intros n. unfold el. rewrite E8. reflexivity. Qed.
    Lemma not_bias8 n : is_bias n = true -> n <> "sigma8".
    Proof. intros H ->. discriminate H. Qed.
    (** An entry of the Jacobian. *)
    Lemma diff_el n m : In n l -> In m l ->
      diff (el n) (sy m) (value_of fd) =
      if is_bias n then (if String.eqb n m then fv "sigma8" else 0) + (if String.eqb "sigma8" m then fv n else 0) else if String.eqb n m then 1 else 0.
    Proof.
      intros Hn Hm. assert (E : forall a, In a l -> String.eqb (sy a) (sy m) = String.eqb a m).
      { intros a Ha. destruct (String.eqb_spec a m) as [->|N]; [apply String.eqb_refl|]. destruct (String.eqb_spec (sy a) (sy m)) as [Q|]; [|reflexivity]. exfalso. apply N. apply sym_inj; assumption. }
      unfold el. destruct (is_bias n); cbn [diff]; rewrite !E by (assumption || apply In8); rewrite ?value_sym by (assumption || apply In8); reflexivity.
    Qed.
    (** The Jacobian on a displacement. *)
    Lemma row_el n (u : string -> F) : In n l ->
      Fsum (fun m => diff (el n) (sy m) (value_of fd) * u m) l = if is_bias n then fv "sigma8" * u n + fv n * u "sigma8" else u n.
    Proof.
      intros Hn. assert (P : forall a (c : F), In a l -> Fsum (fun m => (if String.eqb a m then c else 0) * u m) l = c * u a).
      { intros a c Ha. rewrite (@Fsum_single _ _ _ (fun m => (if String.eqb a m then c else 0) * u m) l a ND Ha); [rewrite String.eqb_refl; reflexivity|]. intros x _ Nx. destruct (String.eqb_spec a x); [congruence|ring]. }
      destruct (is_bias n) eqn:Bn.
      - transitivity (Fsum (fun m => (if String.eqb n m then fv "sigma8" else 0) * u m + (if String.eqb "sigma8" m then fv n else 0) * u m) l).
        + apply Fsum_ext. intros m Hm. rewrite diff_el by assumption. rewrite Bn. ring.
        + rewrite Fsum_plus, !P by (assumption || apply In8). reflexivity.
      - transitivity (Fsum (fun m => (if String.eqb n m then 1 else 0) * u m) l).
        + apply Fsum_ext. intros m Hm. rewrite diff_el by assumption. rewrite Bn. reflexivity.
        + rewrite P by assumption. ring.
    Qed.
    Definition Jpos (i j : nat) : F := match nth_error thetap i, nth_error theta j with Some (_, e), Some (_, s) => diff e s (value_of fd) | _, _ => 0 end.
    Lemma Jpos_el i j : i < length l -> j < length l -> Jpos i j = diff (el (nth i l "")) (sy (nth j l "")) (value_of fd).
    Proof.
      intros Hi Hj. unfold Jpos. destruct (bases_spec _ _ _ _ _ HB) as (_ & s8 & _ & _ & _ & Ht & _). rewrite thetap_el, Ht. rewrite !nth_error_map.
      rewrite (nth_error_nth' l "" Hi), (nth_error_nth' l "" Hj). reflexivity.
    Qed.
    Definition undo (w : string -> F) (n : string) : F := if is_bias n then (w n - fv n * w "sigma8") / fv "sigma8" else w n.
    Lemma inv_some : fv "sigma8" <> 0 -> exists B, mat_inv (length l) Jpos = Some B.
    Proof.
      intros N8. destruct (mat_inv (length l) Jpos) as [B|] eqn:E; [exists B; reflexivity|]. exfalso. apply mat_inv_none in E. destruct E as (x & (i & Hi & Nx) & H).
      assert (R : forall n, In n l -> Fsum (fun m => diff (el n) (sy m) (value_of fd) * x (pos m l)) l = 0).
      { intros n Hn. rewrite <- (H (pos n l)) by (apply pos_lt; exact Hn). rewrite <- (Fsum_seq_nth l (fun m => diff (el n) (sy m) (value_of fd) * x (pos m l)) ""). apply Fsum_ext. intros j Hj. apply in_seq in Hj. rewrite Jpos_el by (try apply pos_lt; assumption || lia). rewrite pos_nth by (assumption || lia). rewrite nth_pos by exact Hn. reflexivity. }
      assert (Z : forall n, In n l -> x (pos n l) = 0).
      { assert (Z8 : x (pos "sigma8" l) = 0) by (pose proof (R _ In8) as Q; rewrite row_el in Q by apply In8; exact Q).
        intros n Hn. pose proof (R n Hn) as Q. rewrite row_el in Q by exact Hn. destruct (is_bias n); [|exact Q]. rewrite Z8 in Q. assert (Q' : fv "sigma8" * x (pos n l) = 0) by (transitivity (fv "sigma8" * x (pos n l) + fv n * 0); [ring|exact Q]). destruct (fdec (x (pos n l)) 0) as [E0|E0]; [exact E0|]. exfalso. apply N8. replace (fv "sigma8") with (fv "sigma8" * x (pos n l) / x (pos n l)) by (field; exact E0). rewrite Q'. field. exact E0. }
      apply Nx. rewrite <- (Z (nth i l "")) by (apply nth_In; exact Hi). rewrite pos_nth by assumption. reflexivity.
    Qed.
    Lemma inv_apply B w n : fv "sigma8" <> 0 -> mat_inv (length l) Jpos = Some B -> In n l -> Fsum (fun a => B (pos n l) (pos a l) * w a) l = undo w n.
    Proof.
      intros N8 E Hn. destruct (mat_inv_some _ _ _ E) as [Hr _]. set (u := fun c => Fsum (fun a => B (pos c l) (pos a l) * w a) l).
      assert (R : forall m, In m l -> Fsum (fun c => diff (el m) (sy c) (value_of fd) * u c) l = w m).
      { intros m Hm. unfold u. transitivity (Fsum (fun c => Fsum (fun a => (diff (el m) (sy c) (value_of fd) * B (pos c l) (pos a l)) * w a) l) l).
        { apply Fsum_ext. intros c _. rewrite <- Fsum_scale. apply Fsum_ext. intros a _. ring. }
        rewrite (Fsum_comm (fun c a => (diff (el m) (sy c) (value_of fd) * B (pos c l) (pos a l)) * w a)).
        transitivity (Fsum (fun a => (if String.eqb m a then 1 else 0) * w a) l).
        { apply Fsum_ext. intros a Ha. rewrite Fsum_scale_r. f_equal.
          pose proof (Hr (pos m l) (pos a l) (pos_lt _ _ Hm) (pos_lt _ _ Ha)) as Q. unfold mul in Q.
          transitivity (Fsum (fun k => Jpos (pos m l) k * B k (pos a l)) (seq 0 (length l))).
          - rewrite <- (Fsum_seq_nth l (fun c => diff (el m) (sy c) (value_of fd) * B (pos c l) (pos a l)) ""). apply Fsum_ext. intros k Hk. apply in_seq in Hk. rewrite Jpos_el by (try apply pos_lt; assumption || lia). rewrite nth_pos by exact Hm. rewrite pos_nth by (assumption || lia). reflexivity.
          - rewrite Q. unfold delta. destruct (String.eqb_spec m a) as [->|Nma]; [rewrite Nat.eqb_refl; reflexivity|]. destruct (Nat.eqb_spec (pos m l) (pos a l)) as [Ep|]; [|reflexivity]. exfalso. apply Nma. rewrite <- (nth_pos m l "" Hm), <- (nth_pos a l "" Ha), Ep. reflexivity. }
        rewrite (@Fsum_single _ _ _ (fun a => (if String.eqb m a then 1 else 0) * w a) l m ND Hm); [rewrite String.eqb_refl; ring|]. intros x _ Nx. destruct (String.eqb_spec m x); [congruence|ring]. }
      fold (u n). assert (U8 : u "sigma8" = w "sigma8") by (pose proof (R _ In8) as Q; rewrite row_el in Q by apply In8; exact Q).
      pose proof (R n Hn) as Q. rewrite row_el in Q by exact Hn. unfold undo. destruct (is_bias n); [|exact Q]. rewrite U8 in Q. rewrite <- Q. field. exact N8.
    Qed.
  End Given.

  Definition distinct_symbols (l : list string) : Prop := forall n m s, In n l -> In m l -> symbol n = Ok s -> symbol m = Ok s -> n = m.
  Notation fv fid n := (match dget String.eqb fid n with Some x => x | None => 0 end).
  (** The displacement of the parameters at fixed sigma8 that changes the product of
      each bias with it as given. *)
  Definition from_products (fid : dict string F) (v : string -> F) (n : string) : F :=
    if String.eqb n "sigma8" then 0 else if is_bias n then v (n ++ "_sigma8")%string / fv fid "sigma8" else v n.
  (** The displacement in which a change of sigma8 changes all biases by the same
      fraction, at fixed sigma8. *)
  Definition from_sigma8 (fid : dict string F) (v : string -> F) (n : string) : F :=
    if String.eqb n "sigma8" then 0 else if is_bias n then fv fid n * v "sigma8" / fv fid "sigma8" else v n.

  Lemma keys_filter l : filter (fun x => negb (String.eqb x "sigma8")) (map key l) = map key (filter (fun x => negb (String.eqb x "sigma8")) l).
  Proof.
    induction l as [|n l IH]; [reflexivity|]. cbn [map filter]. assert (E : String.eqb (key n) "sigma8" = String.eqb n "sigma8").
    { destruct (String.eqb_spec n "sigma8") as [->|N]; [reflexivity|]. destruct (String.eqb_spec (key n) "sigma8") as [Q|]; [|reflexivity]. apply (proj1 (key_8 n)) in Q. contradiction. }
    rewrite E. destruct (negb (String.eqb n "sigma8")); cbn [map]; rewrite IH; reflexivity.
  Qed.
  (** The form after the first step, on displacements of the second basis. *)
  Lemma T1_form (f : sq F) fid theta thetap fd f1 f2 : NoDup (labels f) -> distinct_symbols (labels f) -> fv fid "sigma8" <> 0 ->
    bases f fid = Ok (theta, thetap, fd) -> T1 f theta thetap fd = Ok f1 -> drop8 f1 = Ok f2 ->
    labels f2 = map key (filter (fun n => negb (String.eqb n "sigma8")) (labels f)) /\
    forall v w, form f2 v w = form f (from_products fid v) (from_products fid w).
  Proof.
    intros ND HS N8 HB HT HD. unfold T1 in HT. change (fun i j => match nth_error thetap i with Some (_, e) => match nth_error theta j with Some (_, s) => diff e s (value_of fd) | None => 0 end | None => 0 end) with (Jpos theta thetap fd) in HT.
    destruct (mat_inv (length (labels f)) (Jpos theta thetap fd)) as [B|] eqn:E; [|discriminate]. injection HT as <-. unfold drop8 in HD. cbn [labels entry] in HD. destruct (smem "sigma8" (map key (labels f))); [|discriminate]. injection HD as <-.
    split; [apply keys_filter|]. intros v w. unfold form. cbn [labels entry]. rewrite keys_filter. set (l := labels f) in *. set (l8 := filter (fun x => negb (String.eqb x "sigma8")) l).
    assert (I8 : forall a, In a l8 -> In a l) by (intros a Ha; apply filter_In in Ha; apply Ha).
    transitivity (Fsum (fun x => Fsum (fun y => v (key x) * Fsum (fun c => Fsum (fun d => B (pos c l) (pos x l) * entry f c d * B (pos d l) (pos y l)) l) l * w (key y)) l8) l8).
    { rewrite Fsum_map. apply Fsum_ext. intros x Hx. rewrite Fsum_map. apply Fsum_ext. intros y Hy. rewrite !unkey_key by (apply I8; assumption). reflexivity. }
    rewrite (pull l8 l (fun c x => B (pos c l) (pos x l)) (entry f) (fun x => v (key x)) (fun y => w (key y))).
    assert (U : forall v c, In c l -> Fsum (fun x => B (pos c l) (pos x l) * v (key x)) l8 = from_products fid v c).
    { clear v w. intros v c Hc. transitivity (Fsum (fun a => B (pos c l) (pos a l) * (if String.eqb a "sigma8" then 0 else v (key a))) l).
      - unfold l8. rewrite Fsum_filter. apply Fsum_ext. intros a _. destruct (String.eqb a "sigma8"); cbn [negb]; ring.
      - rewrite (inv_apply f fid ND theta thetap fd HB HS B (fun a => if String.eqb a "sigma8" then 0 else v (key a)) c N8 E Hc). unfold undo, from_products, key. change (String.eqb "sigma8" "sigma8") with true. cbv iota.
        destruct (is_bias c) eqn:Bc.
        + destruct (String.eqb_spec c "sigma8") as [->|]; [discriminate Bc|]. field. exact N8.
        + reflexivity. }
    apply Fsum_ext. intros c Hc. apply Fsum_ext. intros d Hd. rewrite !U by assumption. reflexivity.
  Qed.

  (** ** The two transformations *)
  Theorem C122_products (f : sq F) fid g : NoDup (labels f) -> distinct_symbols (labels f) -> fv fid "sigma8" <> 0 -> apply_T1 f fid = Ok g ->
    labels g = map key (filter (fun n => negb (String.eqb n "sigma8")) (labels f)) /\
    forall v w, form g v w = form f (from_products fid v) (from_products fid w).
  Proof.
    intros ND HS N8 H. unfold apply_T1 in H. destruct (bases f fid) as [[[theta thetap] fd]|] eqn:HB; cbn [rbind] in H; [|discriminate]. destruct (T1 f theta thetap fd) as [f1|] eqn:HT; cbn [rbind] in H; [|discriminate]. exact (T1_form f fid theta thetap fd f1 g ND HS N8 HB HT H).
  Qed.
  Theorem C122_sigma8 (f : sq F) fid g : NoDup (labels f) -> distinct_symbols (labels f) -> fv fid "sigma8" <> 0 -> apply_T1_T2 f fid = Ok g ->
    labels g = filter (fun n => negb (is_bias n)) (labels f) /\
    forall v w, form g v w = form f (from_sigma8 fid v) (from_sigma8 fid w).
  Proof.
    intros ND HS N8 H. unfold apply_T1_T2 in H. destruct (bases f fid) as [[[theta thetap] fd]|] eqn:HB; cbn [rbind] in H; [|discriminate]. destruct (T1 f theta thetap fd) as [f1|] eqn:HT; cbn [rbind] in H; [|discriminate]. destruct (drop8 f1) as [f2|] eqn:HD; cbn [rbind] in H; [|discriminate]. injection H as <-.
    destruct (T1_form f fid theta thetap fd f1 f2 ND HS N8 HB HT HD) as [L2 F2]. destruct (bases_spec f fid theta thetap fd HB) as (I8 & s8 & E8 & Kt & As & Et & _).
    unfold T2. cbn [labels]. rewrite Kt. split; [reflexivity|]. intros v w.
    set (thetapp := filter _ thetap). set (lb := filter (fun n => negb (is_bias n)) (labels f)). set (l8 := filter (fun n => negb (String.eqb n "sigma8")) (labels f)) in *.
    set (j := fun x c => match find (fun ne => String.eqb (key (fst ne)) x) thetapp with Some (_, e) => match dget String.eqb theta c with Some s => diff e s (value_of fd) | None => 0 end | None => 0 end).
    transitivity (form f2 (fun x => Fsum (fun c => j x c * v c) lb) (fun x => Fsum (fun c => j x c * w c) lb)); [exact (pull lb (labels f2) j (entry f2) v w)|]. change (form f2 (fun x => Fsum (fun c => j x c * v c) lb) (fun x => Fsum (fun c => j x c * w c) lb) = form f (from_sigma8 fid v) (from_sigma8 fid w)). rewrite F2.
    assert (J : forall n c, In n l8 -> In c (labels f) -> j (key n) c = diff (el n) (match symbol c with Ok s => s | Err _ => "" end) (value_of fd)).
    { intros n c Hn Hc. unfold j. assert (Fn : find (fun ne => String.eqb (key (fst ne)) (key n)) thetapp = Some (n, el n)).
      { assert (In (n, el n) thetapp) as Hin. { apply filter_In in Hn. destruct Hn as [Hn N8n]. apply filter_In. split; [|exact N8n]. rewrite (thetap_el f fid theta thetap fd HB). apply in_map_iff. exists n. auto. }
        destruct (find _ thetapp) as [[m e]|] eqn:Fd; [|pose proof (find_none _ _ Fd _ Hin) as X; cbn in X; rewrite String.eqb_refl in X; discriminate].
        apply find_some in Fd. destruct Fd as [Fi Fe]. cbn in Fe. apply String.eqb_eq, key_inj in Fe. subst m. apply filter_In in Fi. destruct Fi as [Fi _]. rewrite (thetap_el f fid theta thetap fd HB) in Fi. apply in_map_iff in Fi. destruct Fi as (q & Eq & _). injection Eq as -> <-. reflexivity. }
      rewrite Fn. assert (G : dget String.eqb theta c = Some (match symbol c with Ok s => s | Err _ => "" end)).
      { apply (dget_NoDup_In _ String.eqb_spec); [rewrite Kt; exact ND|]. rewrite Et. apply in_map_iff. exists c. auto. }
      rewrite G. reflexivity. }
    assert (R : forall v n, In n l8 -> Fsum (fun c => j (key n) c * v c) lb = if is_bias n then fv fid n * v "sigma8" else v n).
    { clear v w F2. intros v n Hn. assert (Hnl : In n (labels f)) by (apply filter_In in Hn; apply Hn). transitivity (Fsum (fun c => diff (el n) (match symbol c with Ok s => s | Err _ => "" end) (value_of fd) * (if is_bias c then 0 else v c)) (labels f)).
      - unfold lb. rewrite Fsum_filter. apply Fsum_ext. intros c Hc. rewrite J by assumption. destruct (is_bias c); cbn [negb]; ring.
      - rewrite (row_el f fid ND theta thetap fd HB HS n (fun c => if is_bias c then 0 else v c) Hnl). change (is_bias "sigma8") with false. cbv iota. destruct (is_bias n); [ring|reflexivity]. }
    assert (Q : forall v n, In n (labels f) -> from_products fid (fun x => Fsum (fun c => j x c * v c) lb) n = from_sigma8 fid v n).
    { clear v w F2. intros v n Hn. unfold from_products, from_sigma8. destruct (String.eqb_spec n "sigma8") as [|Nn]; [reflexivity|]. assert (Hn8 : In n l8) by (apply filter_In; split; [exact Hn|]; destruct (String.eqb_spec n "sigma8"); [contradiction|reflexivity]).
      pose proof (R v n Hn8) as X. unfold key in X. destruct (is_bias n); rewrite X; [field; exact N8|reflexivity]. }
    unfold form. apply Fsum_ext. intros a Ha. apply Fsum_ext. intros b Hb. rewrite !Q by assumption. reflexivity.
  Qed.
  (** Both succeed. *)
  Lemma bases_total (f : sq F) fid : In "sigma8" (labels f) -> (forall n, In n (labels f) -> exists s, symbol n = Ok s) -> (forall n, In n (labels f) -> exists x, dget String.eqb fid n = Some x) -> exists b, bases f fid = Ok b.
  Proof.
    intros I8 Hs Hf. unfold bases.
    assert (T : theta_of (labels f) = Ok (map (fun n => (n, match symbol n with Ok s => s | Err _ => "" end)) (labels f))).
    { clear -Hs. unfold theta_of. induction (labels f) as [|n l IH]; [reflexivity|]. cbn [rmapM map]. destruct (Hs n (or_introl eq_refl)) as (s & ->). cbn [rbind]. rewrite IH by (intros m Hm; apply Hs; right; exact Hm). reflexivity. }
    rewrite T. cbn [rbind]. set (th := map _ (labels f)).
    assert (A : exists q, fid_of th fid = Ok q).
    { unfold fid_of. assert (X : exists q, rmapM (fun ns => x <- need fid (fst ns) ;; Ok (snd ns, x)) th = Ok q); [|destruct X as (q & ->); eexists; reflexivity]. unfold th. clear -Hf. induction (labels f) as [|n l IH]; [eexists; reflexivity|]. cbn [rmapM map fst]. unfold need at 1. destruct (Hf n (or_introl eq_refl)) as (x & ->). cbn [rbind]. destruct IH as (q & ->); [intros m Hm; apply Hf; right; exact Hm|]. eexists. reflexivity. }
    destruct A as (q & ->). cbn [rbind].
    assert (G : exists s, dget String.eqb th "sigma8" = Some s).
    { unfold th. clear -I8. induction (labels f) as [|n l IH]; [destruct I8|]. cbn [map dget]. destruct (String.eqb_spec n "sigma8"); [eexists; reflexivity|]. destruct I8 as [|I8]; [congruence|]. exact (IH I8). }
    destruct G as (s8 & G).
    assert (A : exists q, thetap_of th = Ok q).
    { unfold thetap_of. assert (N : need th "sigma8" = Ok s8) by (unfold need; rewrite G; reflexivity). rewrite N. cbn [rbind]. clear. induction th as [|[n s] l IH]; [eexists; reflexivity|]. cbn [rmapM fst snd]. destruct IH as (q & IH). destruct (is_bias n); cbn [rbind]; rewrite IH; eexists; reflexivity. }
    destruct A as (q' & ->). cbn [rbind]. unfold dmem. rewrite G. eexists. reflexivity.
  Qed.
  Theorem C122_total (f : sq F) fid : NoDup (labels f) -> distinct_symbols (labels f) -> In "sigma8" (labels f) -> (forall n, In n (labels f) -> exists s, symbol n = Ok s) ->
    (forall n, In n (labels f) -> exists x, dget String.eqb fid n = Some x) -> dget String.eqb fid "sigma8" <> Some 0 ->
    (exists g, apply_T1 f fid = Ok g) /\ exists g, apply_T1_T2 f fid = Ok g.
  Proof.
    intros ND HS I8 Hs Hf N0. destruct (bases_total f fid I8 Hs Hf) as ([[theta thetap] fd] & HB). assert (N8 : fv fid "sigma8" <> 0) by (destruct (Hf _ I8) as (x & E); rewrite E in *; congruence).
    destruct (inv_some f fid ND theta thetap fd HB HS N8) as (B & E).
    assert (T : exists f1, T1 f theta thetap fd = Ok f1 /\ labels f1 = map key (labels f)).
    { unfold T1. change (fun i j => match nth_error thetap i with Some (_, e) => match nth_error theta j with Some (_, s) => diff e s (value_of fd) | None => 0 end | None => 0 end) with (Jpos theta thetap fd). rewrite E. eexists. split; reflexivity. }
    destruct T as (f1 & T & L1). assert (D : exists f2, drop8 f1 = Ok f2).
    { unfold drop8. replace (smem "sigma8" (labels f1)) with true; [eexists; reflexivity|]. symmetry. apply smem_In. rewrite L1. apply in_map_iff. exists "sigma8". split; [reflexivity|exact I8]. }
    destruct D as (f2 & D). unfold apply_T1, apply_T1_T2. rewrite HB. cbn [rbind]. rewrite T. cbn [rbind]. rewrite D. split; eexists; reflexivity.
  Qed.
  Theorem C122_no_sigma8 (f : sq F) fid g : ~ In "sigma8" (labels f) -> apply_T1 f fid <> Ok g /\ apply_T1_T2 f fid <> Ok g.
  Proof.
    intros N. unfold apply_T1, apply_T1_T2. destruct (bases f fid) as [[[theta thetap] fd]|] eqn:HB; cbn [rbind]; [|split; discriminate]. destruct (bases_spec f fid theta thetap fd HB) as (I8 & _). contradiction.
  Qed.
  (** Two parameters with one symbol make the Jacobian singular. *)
  Theorem C122_same_symbol_refuted (f : sq F) fid g n m s : NoDup (labels f) -> In n (labels f) -> In m (labels f) -> n <> m -> symbol n = Ok s -> symbol m = Ok s ->
    apply_T1 f fid <> Ok g /\ apply_T1_T2 f fid <> Ok g.
  Proof.
    intros ND Hn Hm N Sn Sm. assert (X : forall theta thetap fd f1, bases f fid = Ok (theta, thetap, fd) -> T1 f theta thetap fd <> Ok f1).
    { intros theta thetap fd f1 HB HT. unfold T1 in HT. change (fun i j => match nth_error thetap i with Some (_, e) => match nth_error theta j with Some (_, s) => diff e s (value_of fd) | None => 0 end | None => 0 end) with (Jpos theta thetap fd) in HT.
      destruct (mat_inv (length (labels f)) (Jpos theta thetap fd)) as [B|] eqn:E; [|discriminate]. destruct (mat_inv_some _ _ _ E) as [_ Hl].
      pose proof (pos_lt _ _ Hn) as Pn. pose proof (pos_lt _ _ Hm) as Pm. pose proof (Hl (pos n (labels f)) (pos n (labels f)) Pn Pn) as Q1. pose proof (Hl (pos n (labels f)) (pos m (labels f)) Pn Pm) as Q2.
      assert (Q : mul (length (labels f)) B (Jpos theta thetap fd) (pos n (labels f)) (pos n (labels f)) = mul (length (labels f)) B (Jpos theta thetap fd) (pos n (labels f)) (pos m (labels f))).
      { unfold mul. apply Fsum_ext. intros k Hk. apply in_seq in Hk. f_equal. rewrite !(Jpos_el f fid theta thetap fd HB) by (assumption || lia). rewrite !nth_pos by assumption. rewrite Sn, Sm. reflexivity. }
      rewrite Q1, Q2 in Q. unfold delta in Q. rewrite Nat.eqb_refl in Q. destruct (Nat.eqb_spec (pos n (labels f)) (pos m (labels f))) as [Ep|].
      - apply N. rewrite <- (nth_pos n (labels f) "" Hn), <- (nth_pos m (labels f) "" Hm), Ep. reflexivity.
      - exact (F_1_neq_0 (fth (F := F)) Q). }
    unfold apply_T1, apply_T1_T2. destruct (bases f fid) as [[[theta thetap] fd]|] eqn:HB; cbn [rbind]; [|split; discriminate]. pose proof (X theta thetap fd) as X'. destruct (T1 f theta thetap fd) as [f1|]; cbn [rbind]; [exfalso; exact (X' f1 eq_refl eq_refl)|split; discriminate].
  Qed.
End Props.

(** The parameters of the comparison: the cosmological ones and ten biases. *)
Definition known : list string :=
  ["Omb"; "Omm"; "OmDE"; "h"; "ns"; "sigma8"; "w0"; "wa"; "gamma"; "bgph0"; "bgph1"; "bgph2"; "bgph3"; "bgph4"; "bgph5"; "bgph6"; "bgph7"; "bgph8"; "bgph9"].
Theorem C122_known l : incl l known -> distinct_symbols l /\ forall n, In n l -> exists s, symbol n = Ok s.
Proof.
  intros I. split.
  - intros n m s Hn Hm Sn Sm.
    assert (X : forallb (fun n => forallb (fun m => match symbol n, symbol m with Ok s, Ok t => negb (String.eqb s t) || String.eqb n m | _, _ => true end) known) known = true) by (vm_compute; reflexivity).
    rewrite forallb_forall in X. specialize (X n (I n Hn)). rewrite forallb_forall in X. specialize (X m (I m Hm)). rewrite Sn, Sm, String.eqb_refl in X. apply String.eqb_eq. exact X.
  - intros n Hn. assert (X : forallb (fun n => match symbol n with Ok _ => true | Err _ => false end) known = true) by (vm_compute; reflexivity). rewrite forallb_forall in X. specialize (X n (I n Hn)). destruct (symbol n) as [s|]; [exists s; reflexivity|discriminate].
Qed.
(** With eleven bins two biases share a symbol, and intrinsic alignments have none. *)
Theorem C122_eleven_bins_refuted {F} {K : Fld F} (f : sq F) fid g : NoDup (labels f) -> In "bgph1" (labels f) -> In "bgph10" (labels f) -> apply_T1 f fid <> Ok g /\ apply_T1_T2 f fid <> Ok g.
Proof. intros ND H1 H2. apply (C122_same_symbol_refuted f fid g "bgph1" "bgph10" "b^{\mathrm{ph}}_{1}" ND H1 H2); [discriminate|vm_compute; reflexivity|vm_compute; reflexivity]. Qed.
Theorem C122_alignment_refuted {F} {K : Fld F} (f : sq F) fid g n : In n ["aIA"; "etaIA"; "betaIA"] -> In n (labels f) -> apply_T1 f fid <> Ok g /\ apply_T1_T2 f fid <> Ok g.
Proof.
  intros Hn Hl. unfold apply_T1, apply_T1_T2. destruct (bases f fid) as [[[theta thetap] fd]|] eqn:HB; cbn [rbind]; [|split; discriminate]. destruct (bases_spec f fid theta thetap fd HB) as (_ & s8 & _ & _ & A & _). destruct (A n Hl) as (s & Es). exfalso. cbn [In] in Hn. destruct Hn as [<-|[<-|[<-|[]]]]; vm_compute in Es; discriminate.
Qed.

(** ** An instance: one bias, sigma8 and h *)
Definition exF : sq Qc := mkSq ["bgph0"; "h"; "sigma8"] (fun a b => if String.eqb a b then qz 4 else qz 1).
Definition exFid : dict string Qc := [("sigma8", qz 2); ("h", qz 3); ("bgph0", qz 6)].
Example C122_instance :
  (match apply_T1 exF exFid with Ok g => labels g = ["bgph0_sigma8"; "h"] /\ map (fun a => map (entry g a) (labels g)) (labels g) = [[qz 1; qq 1 2]; [qq 1 2; qz 4]] | Err _ => False end) /\
  (match apply_T1_T2 exF exFid with Ok g => labels g = ["h"; "sigma8"] /\ map (fun a => map (entry g a) (labels g)) (labels g) = [[qz 4; qz 3]; [qz 3; qz 36]] | Err _ => False end) /\
  incl (labels exF) known.
Proof. split; [vm_compute; split; reflexivity|]. split; [vm_compute; split; reflexivity|]. intros n H. cbn in H. cbn. tauto. Qed.

Print Assumptions C122_products.
Print Assumptions C122_sigma8.
Print Assumptions C122_total.
Print Assumptions C122_no_sigma8.
Print Assumptions C122_same_symbol_refuted.
Print Assumptions C122_known.
Print Assumptions C122_eleven_bins_refuted.
Print Assumptions C122_alignment_refuted.
