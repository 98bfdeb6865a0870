(** Linear algebra with matrices indexed by labels: products, inverses,
    block inversion (Schur complement), definiteness.  Pure mathematics. *)
From Verif Require Import Base.
From Coq Require Import Permutation Field.

Section Lab.
  Context {F : Type} {K : Fld F} {T : Type} (eqd : forall x y : T, {x = y} + {x <> y}).
  Add Field FldLab : (fth (F := F)).
  Open Scope fld_scope.
  Implicit Types (A B C D G M : T -> T -> F) (l m : list T).

  Definition mm l A B : T -> T -> F := fun a b => Fsum (fun k => A a k * B k b) l.
  Definition dl : T -> T -> F := fun a b => if eqd a b then 1 else 0.
  Definition isinv l A B : Prop :=
    forall a b, In a l -> In b l -> mm l A B a b = dl a b /\ mm l B A a b = dl a b.
  Definition symm l A : Prop := forall a b, In a l -> In b l -> A a b = A b a.

  Lemma mm_ext l A A' B B' a b :
    (forall k, In k l -> A a k = A' a k) -> (forall k, In k l -> B k b = B' k b) ->
    mm l A B a b = mm l A' B' a b.
  Proof. intros H1 H2. apply Fsum_ext. intros k Hk. rewrite H1, H2 by exact Hk. reflexivity. Qed.

  Lemma mm_assoc l m A B C a b : mm l (mm m A B) C a b = mm m A (mm l B C) a b.
  Proof.
    unfold mm.
    rewrite (Fsum_ext _ (fun k => Fsum (fun j => A a j * B j k * C k b) m))
      by (intros; symmetry; apply Fsum_scale_r).
    rewrite Fsum_comm. apply Fsum_ext. intros j _. rewrite <- Fsum_scale.
    apply Fsum_ext. intros k _. ring.
  Qed.

  Lemma mm_plus_l l A A' B a b : mm l (fun a k => A a k + A' a k) B a b = mm l A B a b + mm l A' B a b.
  Proof. unfold mm. rewrite <- Fsum_plus. apply Fsum_ext. intros; ring. Qed.
  Lemma mm_plus_r l A B B' a b : mm l A (fun a k => B a k + B' a k) a b = mm l A B a b + mm l A B' a b.
  Proof. unfold mm. rewrite <- Fsum_plus. apply Fsum_ext. intros; ring. Qed.
  Lemma mm_minus_l l A A' B a b : mm l (fun a k => A a k - A' a k) B a b = mm l A B a b - mm l A' B a b.
  Proof. unfold mm. rewrite <- Fsum_minus. apply Fsum_ext. intros; ring. Qed.
  Lemma mm_minus_r l A B B' a b : mm l A (fun a k => B a k - B' a k) a b = mm l A B a b - mm l A B' a b.
  Proof. unfold mm. rewrite <- Fsum_minus. apply Fsum_ext. intros; ring. Qed.
  Lemma mm_opp_l l A B a b : mm l (fun a k => - A a k) B a b = - mm l A B a b.
  Proof. unfold mm. rewrite (Fsum_ext _ (fun k => (0 - 1) * (A a k * B k b))) by (intros; ring).
    rewrite Fsum_scale. ring. Qed.
  Lemma mm_app l m A B a b : mm (l ++ m) A B a b = mm l A B a b + mm m A B a b.
  Proof. apply Fsum_app. Qed.
  Lemma mm_perm l m A B a b : Permutation l m -> mm l A B a b = mm m A B a b.
  Proof. apply Fsum_perm. Qed.
  Lemma mm_transp l A B a b : mm l A B a b = mm l (fun x y => B y x) (fun x y => A y x) b a.
  Proof. apply Fsum_ext. intros; ring. Qed.

  Lemma dl_refl a : dl a a = 1.
  Proof. unfold dl. destruct (eqd a a) as [_|n]; [reflexivity|destruct n; reflexivity]. Qed.
  Lemma dl_neq a b : a <> b -> dl a b = 0.
  Proof. intros H. unfold dl. destruct (eqd a b) as [e|_]; [contradiction|reflexivity]. Qed.
  Lemma dl_sym a b : dl a b = dl b a.
  Proof. unfold dl. destruct (eqd a b) as [e|n], (eqd b a) as [e'|n']; congruence. Qed.

  Lemma mm_dl_l l B a b : NoDup l -> In a l -> mm l dl B a b = B a b.
  Proof.
    intros Hnd Ha. unfold mm. rewrite (@Fsum_single _ _ _ _ l a Hnd Ha).
    - rewrite dl_refl. ring.
    - intros x _ Hne. rewrite dl_neq by congruence. ring.
  Qed.
  Lemma mm_dl_r l A a b : NoDup l -> In b l -> mm l A dl a b = A a b.
  Proof.
    intros Hnd Hb. unfold mm. rewrite (@Fsum_single _ _ _ _ l b Hnd Hb).
    - rewrite dl_refl. ring.
    - intros x _ Hne. rewrite dl_neq by congruence. ring.
  Qed.

  Lemma isinv_swap l A B : isinv l A B -> isinv l B A.
  Proof. intros H a b Ha Hb. destruct (H a b Ha Hb). split; assumption. Qed.

  Lemma isinv_perm l m A B : Permutation l m -> isinv l A B -> isinv m A B.
  Proof.
    intros P H a b Ha Hb. rewrite <- !(mm_perm l m) by exact P.
    apply H; (eapply Permutation_in; [apply Permutation_sym; exact P|assumption]).
  Qed.

  Lemma isinv_ext l A A' B B' :
    (forall a b, In a l -> In b l -> A a b = A' a b) ->
    (forall a b, In a l -> In b l -> B a b = B' a b) -> isinv l A B -> isinv l A' B'.
  Proof.
    intros HA HB H a b Ha Hb. destruct (H a b Ha Hb) as [H1 H2]. rewrite <- H1 at 1. rewrite <- H2.
    split; apply mm_ext; intros k Hk; symmetry; auto.
  Qed.

  (** A left and a right inverse coincide. *)
  Lemma left_right_inv l A B C : NoDup l ->
    (forall a b, In a l -> In b l -> mm l B A a b = dl a b) ->
    (forall a b, In a l -> In b l -> mm l A C a b = dl a b) ->
    forall a b, In a l -> In b l -> B a b = C a b.
  Proof.
    intros Hnd HB HC a b Ha Hb.
    rewrite <- (mm_dl_r l B a b Hnd Hb).
    rewrite (mm_ext l B B dl (mm l A C)); [|reflexivity|intros k Hk; symmetry; apply HC; assumption].
    rewrite <- mm_assoc.
    rewrite (mm_ext l (mm l B A) dl C C); [|intros k Hk; apply HB; assumption|reflexivity].
    apply mm_dl_l; assumption.
  Qed.

  Lemma inv_unique l A B C : NoDup l -> isinv l A B -> isinv l A C ->
    forall a b, In a l -> In b l -> B a b = C a b.
  Proof.
    intros Hnd HB HC. apply (left_right_inv l A); [exact Hnd| |]; intros a b Ha Hb.
    - apply HB; assumption.
    - apply HC; assumption.
  Qed.

  Lemma isinv_symm l A B : NoDup l -> isinv l A B -> symm l A -> symm l B.
  Proof.
    intros Hnd H Hs a b Ha Hb.
    assert (H' : isinv l A (fun x y => B y x)).
    { intros x y Hx Hy. destruct (H y x Hy Hx) as [H1 H2]. rewrite (dl_sym x y). split.
      - rewrite <- H2. rewrite (mm_transp l B A). apply mm_ext; intros k Hk; [apply Hs; assumption|reflexivity].
      - rewrite <- H1. rewrite (mm_transp l A B). apply mm_ext; intros k Hk; [reflexivity|apply Hs; assumption]. }
    exact (inv_unique l A B _ Hnd H H' a b Ha Hb).
  Qed.

  (** ** Block inversion. *)
  Section Blocks.
    Context (k s : list T) (Hnd : NoDup (k ++ s)) (A C M : T -> T -> F)
            (HI : isinv (k ++ s) A C) (HM : isinv k C M).

    Let nk : NoDup k.
    Proof. clear HI HM. induction k as [|x k' IH]; [constructor|]. inversion Hnd as [|? ? H1 H2]; subst.
      constructor; [intros C0; apply H1, in_or_app; left; exact C0|apply IH; exact H2]. Qed.
    Let ns : NoDup s.
    Proof. clear HI HM nk. induction k as [|x k' IH]; [exact Hnd|]. inversion Hnd; subst. auto. Qed.
    Let disj x : In x k -> In x s -> False.
    Proof. clear HI HM nk ns. intros Hx Hs. induction k as [|y k' IH]; [destruct Hx|].
      inversion Hnd as [|? ? H1 H2]; subst. destruct Hx as [->|Hx]; [apply H1, in_or_app; right; exact Hs|auto]. Qed.
    Let ik x : In x k -> In x (k ++ s).
    Proof. intros; apply in_or_app; left; assumption. Qed.
    Let is_ x : In x s -> In x (k ++ s).
    Proof. intros; apply in_or_app; right; assumption. Qed.

    Let EAC a b : In a (k ++ s) -> In b (k ++ s) -> mm k A C a b + mm s A C a b = dl a b.
    Proof. intros Ha Hb. rewrite <- mm_app. apply HI; assumption. Qed.
    Let ECA a b : In a (k ++ s) -> In b (k ++ s) -> mm k C A a b + mm s C A a b = dl a b.
    Proof. intros Ha Hb. rewrite <- mm_app. apply HI; assumption. Qed.

    Let CM a b : In a k -> In b k -> mm k C M a b = dl a b.
    Proof. intros; apply HM; assumption. Qed.
    Let MC a b : In a k -> In b k -> mm k M C a b = dl a b.
    Proof. intros; apply HM; assumption. Qed.

    Definition schurG : T -> T -> F := fun a b => C a b - mm k C (mm k M C) a b.

    Let addsub (x y z : F) : x + y = z -> y = z - x.
    Proof. intros <-. ring. Qed.
    Let addsub' (x y z : F) : x + y = z -> x = z - y.
    Proof. intros <-. ring. Qed.

    (* mm s A (mm k C (mm k M C)) a b, for any row a *)
    Let key1 a b : In a (k ++ s) -> In b s ->
      mm s A (mm k C (mm k M C)) a b = mm k dl (mm k M C) a b - mm k A C a b.
    Proof.
      intros Ha Hb. rewrite <- mm_assoc.
      rewrite (mm_ext k (mm s A C) (fun a b => dl a b - mm k A C a b) (mm k M C) (mm k M C));
        [|intros j Hj; apply addsub, EAC; auto|reflexivity].
      rewrite mm_minus_l. f_equal.
      rewrite mm_assoc. apply mm_ext; [reflexivity|]. intros j Hj.
      rewrite <- mm_assoc.
      rewrite (mm_ext k (mm k C M) dl C C); [|intros i Hi; apply CM; auto|reflexivity].
      apply mm_dl_l; assumption.
    Qed.
    Let key2 a b : In a s -> In b (k ++ s) ->
      mm s (mm k C (mm k M C)) A a b = mm k (mm k C M) dl a b - mm k C A a b.
    Proof.
      intros Ha Hb.
      rewrite (mm_ext s _ (mm k (mm k C M) C) A A); [|intros; symmetry; apply mm_assoc|reflexivity].
      rewrite mm_assoc.
      rewrite (mm_ext k (mm k C M) (mm k C M) (mm s C A) (fun a b => dl a b - mm k C A a b));
        [|reflexivity|intros j Hj; apply addsub, ECA; auto].
      rewrite mm_minus_r. f_equal.
      rewrite mm_assoc. apply mm_ext; [reflexivity|]. intros j Hj.
      rewrite <- mm_assoc.
      rewrite (mm_ext k (mm k M C) dl A A); [|intros i Hi; apply MC; auto|reflexivity].
      apply mm_dl_l; assumption.
    Qed.

    Lemma schurG_inv : isinv s A schurG.
    Proof.
      intros a b Ha Hb. unfold schurG. split.
      - rewrite mm_minus_r, key1 by auto.
        assert (Z : mm k dl (mm k M C) a b = 0).
        { apply Fsum_zero. intros j Hj. rewrite dl_neq; [ring|]. intros ->. exact (disj j Hj Ha). }
        rewrite Z, <- (EAC a b (is_ a Ha) (is_ b Hb)). ring.
      - rewrite mm_minus_l, key2 by auto.
        assert (Z : mm k (mm k C M) dl a b = 0).
        { apply Fsum_zero. intros j Hj. rewrite dl_neq; [ring|]. intros ->. exact (disj b Hj Hb). }
        rewrite Z, <- (ECA a b (is_ a Ha) (is_ b Hb)). ring.
    Qed.

    Lemma schur_formula G : isinv s A G ->
      forall a b, In a k -> In b k -> M a b = A a b - mm s A (mm s G A) a b.
    Proof.
      intros HG a b Ha Hb.
      assert (EG : forall x y, In x s -> In y s -> G x y = schurG x y)
        by (apply (inv_unique s A); [exact ns|exact HG|exact schurG_inv]).
      (* mm s A G a j = - mm k M C a j for j in s *)
      assert (AG : forall j, In j s -> mm s A G a j = - mm k M C a j).
      { intros j Hj. rewrite (mm_ext s A A G schurG); [|reflexivity|intros; apply EG; auto].
        unfold schurG. rewrite mm_minus_r, key1 by auto.
        rewrite mm_dl_l by auto.
        pose proof (EAC a j (ik a Ha) (is_ j Hj)) as E.
        rewrite dl_neq in E by (intros ->; exact (disj j Ha Hj)).
        replace (mm s A C a j) with (0 - mm k A C a j) by (rewrite <- E; ring). ring. }
      rewrite <- mm_assoc.
      rewrite (mm_ext s (mm s A G) (fun a j => - mm k M C a j) A A); [|exact AG|reflexivity].
      rewrite mm_opp_l, mm_assoc.
      rewrite (mm_ext k M M (mm s C A) (fun a b => dl a b - mm k C A a b));
        [|reflexivity|intros j Hj; apply addsub, ECA; auto].
      rewrite mm_minus_r, mm_dl_r by auto.
      rewrite <- mm_assoc.
      rewrite (mm_ext k (mm k M C) dl A A); [|intros i Hi; apply MC; auto|reflexivity].
      rewrite mm_dl_l by auto. ring.
    Qed.
  End Blocks.

  (** The converse: if A and its S-block are invertible, so is the K-block of
      the inverse. *)
  Lemma schur_inv k s A C G : NoDup (k ++ s) -> isinv (k ++ s) A C -> isinv s A G ->
    isinv k C (fun a b => A a b - mm s A (mm s G A) a b).
  Proof.
    intros Hnd HI HG.
    apply (schurG_inv s k) with (A := C) (C := A) (M := G).
    - eapply Permutation_NoDup; [apply Permutation_app_comm|exact Hnd].
    - apply isinv_swap. eapply isinv_perm; [apply Permutation_app_comm|exact HI].
    - exact HG.
  Qed.
End Lab.

Section LabOrd.
  Context {F : Type} {K : Fld F} {O : OFld (F := F)} {T : Type} (eqd : forall x y : T, {x = y} + {x <> y}).
  Add Field FldLabO : (fth (F := F)).
  Open Scope fld_scope.
  Implicit Types (A B C D G M : T -> T -> F) (l m : list T).

  Definition bil l A (x y : T -> F) : F := Fsum (fun a => Fsum (fun b => x a * A a b * y b) l) l.
  Definition psd l A : Prop := forall x, fle 0 (bil l A x x).
  Definition pd l A : Prop := symm l A /\ forall x, (exists a, In a l /\ x a <> 0) -> flt 0 (bil l A x x).

  Lemma pd_psd l A : pd l A -> psd l A.
  Proof.
    intros [_ H] x. destruct (existsb (fun a => if fdec (x a) 0 then false else true) l) eqn:E.
    - apply existsb_exists in E. destruct E as (a & Ha & Hx). destruct (fdec (x a) 0) as [|n]; [discriminate|].
      apply H. exists a; auto.
    - replace (bil l A x x) with (0:F); [apply fle_refl|]. symmetry. apply Fsum_zero. intros a Ha.
      assert (Hx : x a = 0).
      { destruct (fdec (x a) 0) as [e|n]; [exact e|]. exfalso.
        assert (existsb (fun a => if fdec (x a) 0 then false else true) l = true); [|congruence].
        apply existsb_exists. exists a. split; [exact Ha|]. destruct (fdec (x a) 0); [contradiction|reflexivity]. }
      apply Fsum_zero. intros b _. rewrite Hx. ring.
  Qed.

  Lemma bil_mv l A x y : bil l A x y = Fsum (fun a => x a * Fsum (fun b => A a b * y b) l) l.
  Proof.
    apply Fsum_ext. intros a _. rewrite <- Fsum_scale. apply Fsum_ext. intros; ring.
  Qed.
  Lemma bil_symm l A x y : symm l A -> bil l A x y = bil l A y x.
  Proof.
    intros Hs. unfold bil. rewrite Fsum_comm. apply Fsum_ext. intros a Ha. apply Fsum_ext. intros b Hb.
    rewrite (Hs b a Hb Ha). ring.
  Qed.
  Lemma bil_sub l A x y :
    bil l A (fun a => x a - y a) (fun a => x a - y a) = bil l A x x - bil l A x y - bil l A y x + bil l A y y.
  Proof.
    unfold bil. rewrite <- !Fsum_minus, <- Fsum_plus. apply Fsum_ext. intros a _.
    rewrite <- !Fsum_minus, <- Fsum_plus. apply Fsum_ext. intros b _. ring.
  Qed.
  Lemma bil_perm l m A x y : Permutation l m -> bil l A x y = bil m A x y.
  Proof.
    intros P. unfold bil. rewrite (Fsum_perm _ P). apply Fsum_ext. intros a _. apply Fsum_perm; exact P.
  Qed.
  Lemma bil_ext l A A' x y : (forall a b, In a l -> In b l -> A a b = A' a b) -> bil l A x y = bil l A' x y.
  Proof. intros H. apply Fsum_ext. intros a Ha. apply Fsum_ext. intros b Hb. rewrite H by assumption. reflexivity. Qed.

  Lemma pd_perm l m A : Permutation l m -> pd l A -> pd m A.
  Proof.
    intros P [Hs H]. split.
    - intros a b Ha Hb. apply Hs; (eapply Permutation_in; [apply Permutation_sym; exact P|assumption]).
    - intros x (a & Ha & Hx). rewrite <- (bil_perm l m A x x P). apply H. exists a. split; [|exact Hx].
      eapply Permutation_in; [apply Permutation_sym; exact P|assumption].
  Qed.

  Lemma pd_ext l A A' : (forall a b, In a l -> In b l -> A a b = A' a b) -> pd l A -> pd l A'.
  Proof.
    intros E [Hs H]. split.
    - intros a b Ha Hb. rewrite <- !E by assumption. apply Hs; assumption.
    - intros x Hx. rewrite <- (bil_ext l A A' x x E). apply H; exact Hx.
  Qed.

  (** Restriction to a sub-list (the fixed parameters are dropped). *)
  Lemma bil_restrict (k s : list T) A (x y : T -> F) :
    (forall a, In a s -> x a = 0) -> (forall a, In a s -> y a = 0) -> bil (k ++ s) A x y = bil k A x y.
  Proof.
    intros Hx Hy. unfold bil. rewrite Fsum_app.
    rewrite (Fsum_zero _ s) by (intros a Ha; apply Fsum_zero; intros b _; rewrite Hx by exact Ha; ring).
    rewrite (Fsum_ext _ (fun a => Fsum (fun b => x a * A a b * y b) k)).
    - ring.
    - intros a _. rewrite Fsum_app. rewrite (Fsum_zero _ s) by (intros b Hb; rewrite Hy by exact Hb; ring). ring.
  Qed.

  Lemma pd_restrict k s A : NoDup (k ++ s) -> pd (k ++ s) A -> pd k A.
  Proof.
    intros Hnd [Hs H]. split.
    - intros a b Ha Hb. apply Hs; apply in_or_app; left; assumption.
    - intros x (a & Ha & Hx).
      set (x' := fun t => if in_dec eqd t k then x t else 0).
      assert (E : bil k A x x = bil (k ++ s) A x' x').
      { rewrite bil_restrict.
        - apply Fsum_ext. intros b Hb. apply Fsum_ext. intros c Hc. unfold x'.
          destruct (in_dec eqd b k); [|contradiction]. destruct (in_dec eqd c k); [|contradiction]. reflexivity.
        - intros b Hb. unfold x'. destruct (in_dec eqd b k) as [Hk|]; [|reflexivity]. exfalso.
          clear - Hnd Hb Hk. induction k as [|y k' IH]; [destruct Hk|]. inversion Hnd; subst.
          destruct Hk as [->|Hk]; [apply H1, in_or_app; right; exact Hb|auto].
        - intros b Hb. unfold x'. destruct (in_dec eqd b k) as [Hk|]; [|reflexivity]. exfalso.
          clear - Hnd Hb Hk. induction k as [|y k' IH]; [destruct Hk|]. inversion Hnd; subst.
          destruct Hk as [->|Hk]; [apply H1, in_or_app; right; exact Hb|auto]. }
      rewrite E. apply H. exists a. split; [apply in_or_app; left; exact Ha|].
      unfold x'. destruct (in_dec eqd a k); [exact Hx|contradiction].
  Qed.

  (** The inverse of a positive definite matrix is positive definite. *)
  Lemma pd_inv l A C : NoDup l -> isinv eqd l A C -> pd l A -> pd l C.
  Proof.
    intros Hnd HI [Hs H]. split; [exact (isinv_symm eqd l A C Hnd HI Hs)|].
    intros x (a & Ha & Hx).
    assert (HsC := isinv_symm eqd l A C Hnd HI Hs).
    set (y := fun t => Fsum (fun b => C t b * x b) l).
    (* A y = x on l *)
    assert (Ay : forall t, In t l -> Fsum (fun b => A t b * y b) l = x t).
    { intros t Ht. unfold y.
      rewrite (Fsum_ext _ (fun b => Fsum (fun c => A t b * C b c * x c) l))
        by (intros b _; rewrite <- Fsum_scale; apply Fsum_ext; intros; ring).
      rewrite Fsum_comm.
      rewrite (Fsum_ext _ (fun c => dl eqd t c * x c)).
      - exact (mm_dl_l eqd l (fun c _ => x c) t t Hnd Ht).
      - intros c Hc. rewrite Fsum_scale_r. f_equal. apply HI; assumption. }
    assert (E : bil l C x x = bil l A y y).
    { rewrite (bil_mv l A y y), (bil_mv l C x x). apply Fsum_ext. intros t Ht. rewrite Ay by exact Ht.
      fold (y t). ring. }
    rewrite E. apply H.
    destruct (existsb (fun t => if fdec (y t) 0 then false else true) l) eqn:Ey.
    - apply existsb_exists in Ey. destruct Ey as (t & Ht & Hy). exists t. split; [exact Ht|].
      destruct (fdec (y t) 0); [discriminate|assumption].
    - exfalso. apply Hx. rewrite <- (Ay a Ha). apply Fsum_zero. intros b Hb.
      assert (Hy : y b = 0).
      { destruct (fdec (y b) 0) as [e|n]; [exact e|]. exfalso.
        assert (existsb (fun t => if fdec (y t) 0 then false else true) l = true); [|congruence].
        apply existsb_exists. exists b. split; [exact Hb|]. destruct (fdec (y b) 0); [contradiction|reflexivity]. }
      rewrite Hy. ring.
  Qed.

  Lemma bil_delta l A a : NoDup l -> In a l -> bil l A (dl eqd a) (dl eqd a) = A a a.
  Proof.
    intros Hnd Ha. rewrite bil_mv.
    transitivity (Fsum (fun b => A a b * dl eqd a b) l).
    - exact (mm_dl_l eqd l (fun t _ => Fsum (fun b => A t b * dl eqd a b) l) a a Hnd Ha).
    - rewrite (Fsum_ext _ (fun b => A a b * dl eqd b a)) by (intros; rewrite (dl_sym eqd a); reflexivity).
      exact (mm_dl_r eqd l A a a Hnd Ha).
  Qed.

  Lemma pd_diag_pos l A a : NoDup l -> pd l A -> In a l -> flt 0 (A a a).
  Proof.
    intros Hnd [_ H] Ha. rewrite <- (bil_delta l A a Hnd Ha). apply H. exists a. split; [exact Ha|].
    rewrite dl_refl. exact (F_1_neq_0 fth).
  Qed.

  (** Fixing parameters cannot increase a variance. *)
  Lemma restrict_var k s A C D a : NoDup (k ++ s) -> symm (k ++ s) A -> psd (k ++ s) A ->
    isinv eqd (k ++ s) A C -> isinv eqd k A D -> In a k -> fle (D a a) (C a a).
  Proof.
    intros Hnd Hs Hp HC HD Ha.
    assert (Hka : In a (k ++ s)) by (apply in_or_app; left; exact Ha).
    assert (nk : NoDup k).
    { clear - Hnd. induction k as [|x k' IH]; [constructor|]. inversion Hnd as [|? ? H1 H2]; subst.
      constructor; [intros C0; apply H1, in_or_app; left; exact C0|apply IH; exact H2]. }
    assert (disj : forall x, In x k -> In x s -> False).
    { clear - Hnd. intros x Hx Hxs. induction k as [|y k' IH]; [destruct Hx|].
      inversion Hnd as [|? ? H1 H2]; subst. destruct Hx as [->|Hx]; [apply H1, in_or_app; right; exact Hxs|auto]. }
    set (x := fun t => C t a). set (y := fun t => if in_dec eqd t k then D t a else 0).
    assert (Ax : forall t, In t (k ++ s) -> Fsum (fun b => A t b * x b) (k ++ s) = dl eqd t a)
      by (intros t Ht; apply HC; assumption).
    assert (ys : forall t, In t s -> y t = 0).
    { intros t Ht. unfold y. destruct (in_dec eqd t k) as [Hk|]; [destruct (disj t Hk Ht)|reflexivity]. }
    assert (yk : forall t, In t k -> y t = D t a).
    { intros t Ht. unfold y. destruct (in_dec eqd t k) as [_|n]; [reflexivity|contradiction]. }
    assert (Bxx : bil (k ++ s) A x x = C a a).
    { rewrite bil_mv. rewrite (Fsum_ext _ (fun t => x t * dl eqd t a)) by (intros t Ht; rewrite Ax by exact Ht; reflexivity).
      exact (mm_dl_r eqd (k ++ s) (fun _ t => x t) a a Hnd Hka). }
    assert (Byx : bil (k ++ s) A y x = D a a).
    { rewrite bil_mv. rewrite (Fsum_ext _ (fun t => y t * dl eqd t a)) by (intros t Ht; rewrite Ax by exact Ht; reflexivity).
      rewrite <- (yk a Ha).
      exact (mm_dl_r eqd (k ++ s) (fun _ t => y t) a a Hnd Hka). }
    assert (Byy : bil (k ++ s) A y y = D a a).
    { rewrite bil_restrict by exact ys. rewrite bil_mv.
      rewrite (Fsum_ext _ (fun t => y t * dl eqd t a)).
      - rewrite <- (yk a Ha). exact (mm_dl_r eqd k (fun _ t => y t) a a nk Ha).
      - intros t Ht. f_equal. rewrite (Fsum_ext _ (fun b => A t b * D b a)) by (intros b Hb; rewrite yk by exact Hb; reflexivity).
        apply HD; assumption. }
    pose proof (Hp (fun t => x t - y t)) as Q. rewrite bil_sub in Q.
    rewrite (bil_symm _ A x y Hs), Bxx, Byx, Byy in Q.
    apply fle_sub_iff. replace (C a a - D a a) with (C a a - D a a - D a a + D a a) by ring. exact Q.
  Qed.
End LabOrd.
