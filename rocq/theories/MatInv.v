(** [np.linalg.inv]: Gauss-Jordan elimination over a field, and its
    correctness.  numpy calls LAPACK's LU with partial pivoting; in exact
    arithmetic the inverse is unique, so any elimination order computes the
    same matrix, and LinAlgError (singular) is raised exactly when no inverse
    exists.  Nothing else of the routine is observable. *)
From Verif Require Import Base.
From Coq Require Import Field.

Section Inv.
  Context {F : Type} {K : Fld F}.
  Add Field FldMI : (fth (F := F)).
  Open Scope fld_scope.

  Definition mfun := nat -> nat -> F.
  (** Tabulate, so that evaluation shares entries. *)
  Definition freeze (n : nat) (A : mfun) : mfun :=
    let l := map (fun i => map (fun j => A i j) (seq 0 n)) (seq 0 n) in
    fun i j => nth j (nth i l []) 0.
  Definition swaprow (k r : nat) (A : mfun) : mfun :=
    fun i j => if Nat.eqb i k then A r j else if Nat.eqb i r then A k j else A i j.
  Definition isnz (x : F) : bool := if fdec x 0 then false else true.

  Definition gj_step (n k : nat) (AB : mfun * mfun) : option (mfun * mfun) :=
    let (A, B) := AB in
    match find (fun r => isnz (A r k)) (seq k (n - k)) with
    | None => None
    | Some r =>
        let A1 := swaprow k r A in
        let B1 := swaprow k r B in
        let p := A1 k k in
        Some (freeze n (fun i j => if Nat.eqb i k then A1 k j / p else A1 i j - A1 i k * (A1 k j / p)),
              freeze n (fun i j => if Nat.eqb i k then B1 k j / p else B1 i j - A1 i k * (B1 k j / p)))
    end.
  Fixpoint gj_loop (n : nat) (ks : list nat) (AB : mfun * mfun) : option (mfun * mfun) :=
    match ks with
    | [] => Some AB
    | k :: ks' => match gj_step n k AB with None => None | Some AB' => gj_loop n ks' AB' end
    end.
  Definition delta (i j : nat) : F := if Nat.eqb i j then 1 else 0.
  Definition mat_inv (n : nat) (M : mfun) : option mfun :=
    match gj_loop n (seq 0 n) (freeze n M, freeze n delta) with
    | None => None
    | Some (_, B) => Some B
    end.

  Lemma freeze_ok n A i j : i < n -> j < n -> freeze n A i j = A i j.
  Proof.
    intros Hi Hj. unfold freeze.
    rewrite (nth_indep _ [] ((fun i => map (fun j => A i j) (seq 0 n)) 0%nat))
      by (rewrite map_length, seq_length; exact Hi).
    rewrite (map_nth (fun i => map (fun j => A i j) (seq 0 n))), seq_nth by exact Hi.
    rewrite (nth_indep _ 0 (A (0 + i)%nat 0%nat)) by (rewrite map_length, seq_length; exact Hj).
    rewrite (map_nth (fun j => A (0 + i)%nat j)), seq_nth by exact Hj. reflexivity.
  Qed.

  (** Row [i] of the system A x = B y. *)
  Definition resid (n : nat) (A B : mfun) (x y : nat -> F) (i : nat) : F :=
    Fsum (fun j => A i j * x j) (seq 0 n) - Fsum (fun j => B i j * y j) (seq 0 n).
  Definition sys (n : nat) (A B : mfun) (x y : nat -> F) : Prop :=
    forall i, i < n -> resid n A B x y i = 0.

  Lemma resid_freeze n A B x y i : i < n -> resid n (freeze n A) (freeze n B) x y i = resid n A B x y i.
  Proof.
    intros Hi. unfold resid. f_equal; apply Fsum_ext; intros j Hj; apply in_seq in Hj;
      rewrite freeze_ok by lia; reflexivity.
  Qed.

  Lemma resid_swap n A B x y k r i :
    resid n (swaprow k r A) (swaprow k r B) x y i
    = if Nat.eqb i k then resid n A B x y r else if Nat.eqb i r then resid n A B x y k else resid n A B x y i.
  Proof.
    unfold resid, swaprow. destruct (Nat.eqb i k); [reflexivity|]. destruct (Nat.eqb i r); reflexivity.
  Qed.

  Lemma sys_swap n A B x y k r : k < n -> r < n ->
    sys n (swaprow k r A) (swaprow k r B) x y <-> sys n A B x y.
  Proof.
    intros Hk Hr. unfold sys. split; intros H i Hi.
    - destruct (Nat.eq_dec i k) as [->|nk].
      + specialize (H r Hr). rewrite resid_swap in H.
        destruct (Nat.eqb_spec r k) as [->|]; [exact H|]. rewrite Nat.eqb_refl in H. exact H.
      + destruct (Nat.eq_dec i r) as [->|nr].
        * specialize (H k Hk). rewrite resid_swap, Nat.eqb_refl in H. exact H.
        * specialize (H i Hi). rewrite resid_swap in H.
          rewrite (proj2 (Nat.eqb_neq i k) nk), (proj2 (Nat.eqb_neq i r) nr) in H. exact H.
    - rewrite resid_swap. destruct (Nat.eqb i k); [apply H; exact Hr|].
      destruct (Nat.eqb i r); apply H; assumption.
  Qed.

  (** Pivoting on (k,k). *)
  Definition piv (k : nat) (A B : mfun) : mfun :=
    fun i j => if Nat.eqb i k then B k j / A k k else B i j - A i k * (B k j / A k k).

  Lemma resid_piv n A B x y k i : A k k <> 0 ->
    resid n (piv k A A) (piv k A B) x y i
    = if Nat.eqb i k then resid n A B x y k / A k k
      else resid n A B x y i - A i k * (resid n A B x y k / A k k).
  Proof.
    intros Hp. unfold resid, piv. destruct (Nat.eqb i k).
    - rewrite (Fsum_ext _ (fun j => (A k j * x j) * (1 / A k k))) by (intros; field; exact Hp).
      rewrite (Fsum_ext (fun j => B k j / A k k * y j) (fun j => (B k j * y j) * (1 / A k k))) by (intros; field; exact Hp).
      rewrite !Fsum_scale_r. field. exact Hp.
    - rewrite (Fsum_ext _ (fun j => A i j * x j - (A k j * x j) * (A i k / A k k))) by (intros; field; exact Hp).
      rewrite (Fsum_ext (fun j => (B i j - A i k * (B k j / A k k)) * y j)
                 (fun j => B i j * y j - (B k j * y j) * (A i k / A k k))) by (intros; field; exact Hp).
      rewrite !Fsum_minus, !Fsum_scale_r. field. exact Hp.
  Qed.

  Lemma sys_piv n A B x y k : k < n -> A k k <> 0 ->
    sys n (piv k A A) (piv k A B) x y <-> sys n A B x y.
  Proof.
    intros Hk Hp. unfold sys. split; intros H i Hi.
    - assert (Hk0 : resid n A B x y k = 0).
      { specialize (H k Hk). rewrite resid_piv, Nat.eqb_refl in H by exact Hp.
        replace (resid n A B x y k) with ((resid n A B x y k / A k k) * A k k) by (field; exact Hp).
        rewrite H. ring. }
      destruct (Nat.eq_dec i k) as [->|ne]; [exact Hk0|].
      specialize (H i Hi). rewrite resid_piv in H by exact Hp.
      rewrite (proj2 (Nat.eqb_neq i k) ne), Hk0 in H.
      replace (resid n A B x y i) with (resid n A B x y i - A i k * (0 / A k k)) by (field; exact Hp). exact H.
    - rewrite resid_piv by exact Hp. rewrite (H k Hk). destruct (Nat.eqb i k); [field; exact Hp|].
      rewrite (H i Hi). field; exact Hp.
  Qed.

  (** Columns already processed are unit columns. *)
  Definition unitcols (n k : nat) (A : mfun) : Prop :=
    forall i j, i < n -> j < k -> j < n -> A i j = delta i j.

  Lemma isnz_true x : isnz x = true <-> x <> 0.
  Proof. unfold isnz. destruct (fdec x 0); split; congruence. Qed.

  Lemma find_none_seq (f : nat -> bool) s n : find f (seq s n) = None -> forall r, s <= r -> r < s + n -> f r = false.
  Proof.
    intros H r H1 H2. apply (find_none _ _ H). apply in_seq. lia.
  Qed.

  Lemma gj_step_ok n k A B A' B' : k < n -> unitcols n k A ->
    gj_step n k (A, B) = Some (A', B') ->
    unitcols n (S k) A' /\ forall x y, sys n A' B' x y <-> sys n A B x y.
  Proof.
    intros Hk Hu. unfold gj_step.
    destruct (find _ _) as [r|] eqn:Ef; [|discriminate].
    apply find_some in Ef. destruct Ef as [Hr Hnz]. apply in_seq in Hr. apply isnz_true in Hnz.
    intros E; injection E as EA EB.
    assert (Hp : swaprow k r A k k <> 0) by (unfold swaprow; rewrite Nat.eqb_refl; exact Hnz).
    change (freeze n (piv k (swaprow k r A) (swaprow k r A)) = A') in EA.
    change (freeze n (piv k (swaprow k r A) (swaprow k r B)) = B') in EB.
    subst A' B'. split.
    - intros i j Hi Hj Hjn. rewrite freeze_ok by assumption.
      assert (Hu' : forall i j, i < n -> j < k -> swaprow k r A i j = delta i j).
      { intros i0 j0 Hi0 Hj0. unfold swaprow.
        destruct (Nat.eqb_spec i0 k) as [->|].
        - rewrite Hu by lia. unfold delta.
          rewrite (proj2 (Nat.eqb_neq r j0)), (proj2 (Nat.eqb_neq k j0)) by lia. reflexivity.
        - destruct (Nat.eqb_spec i0 r) as [->|].
          + rewrite Hu by lia. unfold delta.
            rewrite (proj2 (Nat.eqb_neq r j0)), (proj2 (Nat.eqb_neq k j0)) by lia. reflexivity.
          + apply Hu; lia. }
      unfold piv. destruct (Nat.eq_dec j k) as [->|nk].
      + destruct (Nat.eqb_spec i k) as [->|nik].
        * unfold delta. rewrite Nat.eqb_refl. field. exact Hp.
        * unfold delta. rewrite (proj2 (Nat.eqb_neq i k) nik). field. exact Hp.
      + assert (Hjk : j < k) by lia.
        destruct (Nat.eqb_spec i k) as [->|nik].
        * rewrite Hu' by assumption. unfold delta. rewrite (proj2 (Nat.eqb_neq k j)) by lia. field. exact Hp.
        * rewrite (Hu' k j Hk Hjk), (Hu' i j Hi Hjk). unfold delta at 2.
          rewrite (proj2 (Nat.eqb_neq k j)) by lia. field. exact Hp.
    - intros x y. rewrite <- (sys_swap n A B x y k r Hk) by lia.
      rewrite <- (sys_piv n (swaprow k r A) (swaprow k r B) x y k Hk Hp).
      unfold sys. split; intros H i Hi; specialize (H i Hi).
      + rewrite resid_freeze in H by exact Hi. exact H.
      + rewrite resid_freeze by exact Hi. exact H.
  Qed.

  (** No pivot: a non-zero vector in the kernel. *)
  Lemma gj_step_none n k A B : k < n -> unitcols n k A -> gj_step n k (A, B) = None ->
    exists x, x k = 1 /\ sys n A B x (fun _ => 0).
  Proof.
    intros Hk Hu. unfold gj_step. destruct (find _ _) as [r|] eqn:Ef; [discriminate|]. intros _.
    exists (fun j => if Nat.eqb j k then 1 else if Nat.ltb j k then - A j k else 0).
    split; [rewrite Nat.eqb_refl; reflexivity|].
    intros i Hi. unfold resid.
    rewrite (Fsum_zero (fun j => B i j * 0)) by (intros; ring).
    assert (Hzero : forall r, k <= r -> r < n -> A r k = 0).
    { intros r H1 H2. pose proof (find_none_seq _ _ _ Ef r H1 ltac:(lia)) as N. cbn in N.
      unfold isnz in N. destruct (fdec (A r k) 0) as [e|]; [exact e|discriminate]. }
    replace (seq 0 n) with (seq 0 k ++ seq k (n - k)) by (replace n with (k + (n - k))%nat at 2 by lia; rewrite seq_app; reflexivity).
    rewrite Fsum_app.
    assert (E1 : Fsum (fun j => A i j * (if Nat.eqb j k then 1 else if Nat.ltb j k then - A j k else 0)) (seq 0 k)
               = if Nat.ltb i k then - A i k else 0).
    { rewrite (Fsum_ext _ (fun j => delta i j * - A j k)).
      - destruct (Nat.ltb_spec i k).
        + rewrite (@Fsum_single _ _ _ _ (seq 0 k) i).
          * unfold delta. rewrite Nat.eqb_refl. ring.
          * apply seq_NoDup.
          * apply in_seq; lia.
          * intros j _ Hne. unfold delta. rewrite (proj2 (Nat.eqb_neq i j)) by congruence. ring.
        + apply Fsum_zero. intros j Hj. apply in_seq in Hj. unfold delta.
          rewrite (proj2 (Nat.eqb_neq i j)) by lia. ring.
      - intros j Hj. apply in_seq in Hj. rewrite (Hu i j) by lia.
        rewrite (proj2 (Nat.eqb_neq j k)) by lia. rewrite (proj2 (Nat.ltb_lt j k)) by lia. reflexivity. }
    assert (E2 : Fsum (fun j => A i j * (if Nat.eqb j k then 1 else if Nat.ltb j k then - A j k else 0)) (seq k (n - k))
               = A i k).
    { rewrite (@Fsum_single _ _ _ _ (seq k (n - k)) k).
      - rewrite Nat.eqb_refl. ring.
      - apply seq_NoDup.
      - apply in_seq; lia.
      - intros j Hj Hne. apply in_seq in Hj. rewrite (proj2 (Nat.eqb_neq j k) Hne).
        rewrite (proj2 (Nat.ltb_ge j k)) by lia. ring. }
    rewrite E1, E2. destruct (Nat.ltb_spec i k); [ring|]. rewrite (Hzero i) by lia. ring.
  Qed.

  Lemma gj_loop_spec n : forall m k A B, (k + m = n)%nat -> unitcols n k A ->
    match gj_loop n (seq k m) (A, B) with
    | Some (A', B') => unitcols n n A' /\ forall x y, sys n A' B' x y <-> sys n A B x y
    | None => exists x, (exists i, i < n /\ x i <> 0) /\ sys n A B x (fun _ => 0)
    end.
  Proof.
    induction m as [|m IH]; intros k A B Hkm Hu.
    - cbn. assert (k = n) by lia. subst k. split; [exact Hu|tauto].
    - cbn [seq gj_loop].
      destruct (gj_step n k (A, B)) as [[A1 B1]|] eqn:Es.
      + destruct (gj_step_ok n k A B A1 B1 ltac:(lia) Hu Es) as [Hu1 Hs1].
        specialize (IH (S k) A1 B1 ltac:(lia) Hu1).
        destruct (gj_loop n (seq (S k) m) (A1, B1)) as [[A2 B2]|].
        * destruct IH as [H1 H2]. split; [exact H1|]. intros x y. rewrite H2. apply Hs1.
        * destruct IH as (x & H1 & H2). exists x. split; [exact H1|]. apply Hs1. exact H2.
      + destruct (gj_step_none n k A B ltac:(lia) Hu Es) as (x & H1 & H2).
        exists x. split; [|exact H2]. exists k. split; [lia|]. rewrite H1. exact (F_1_neq_0 fth).
  Qed.

  Lemma Fsum_delta_l n i (f : nat -> F) : i < n -> Fsum (fun j => delta i j * f j) (seq 0 n) = f i.
  Proof.
    intros Hi. rewrite (@Fsum_single _ _ _ _ (seq 0 n) i).
    - unfold delta. rewrite Nat.eqb_refl. ring.
    - apply seq_NoDup.
    - apply in_seq; lia.
    - intros j _ Hne. unfold delta. rewrite (proj2 (Nat.eqb_neq i j)) by congruence. ring.
  Qed.

  Definition mul (n : nat) (A B : mfun) : mfun := fun i j => Fsum (fun k => A i k * B k j) (seq 0 n).

  Theorem mat_inv_some n M B : mat_inv n M = Some B ->
    (forall i j, i < n -> j < n -> mul n M B i j = delta i j) /\
    (forall i j, i < n -> j < n -> mul n B M i j = delta i j).
  Proof.
    unfold mat_inv. pose proof (gj_loop_spec n n 0 (freeze n M) (freeze n delta) eq_refl) as H.
    assert (Hu : unitcols n 0 (freeze n M)) by (intros i j _ Hj; lia). specialize (H Hu).
    destruct (gj_loop n (seq 0 n) (freeze n M, freeze n delta)) as [[A' B']|]; [|discriminate].
    intros E; injection E as ->. destruct H as [Hunit Hsys].
    (* M x = y <-> x = B y *)
    assert (HS : forall x y, (forall i, i < n -> x i = Fsum (fun j => B i j * y j) (seq 0 n)) <->
                             (forall i, i < n -> Fsum (fun j => M i j * x j) (seq 0 n) = y i)).
    { intros x y. specialize (Hsys x y). unfold sys in Hsys.
      assert (L : forall i, i < n -> resid n A' B x y i = x i - Fsum (fun j => B i j * y j) (seq 0 n)).
      { intros i Hi. unfold resid. f_equal.
        rewrite (Fsum_ext _ (fun j => delta i j * x j)).
        - apply Fsum_delta_l; exact Hi.
        - intros j Hj. apply in_seq in Hj. rewrite Hunit by lia. reflexivity. }
      assert (R : forall i, i < n -> resid n (freeze n M) (freeze n delta) x y i
                                     = Fsum (fun j => M i j * x j) (seq 0 n) - y i).
      { intros i Hi. rewrite resid_freeze by exact Hi. unfold resid. f_equal. apply Fsum_delta_l; exact Hi. }
      assert (Z : forall a b : F, a - b = 0 <-> a = b).
      { intros a b. split; intros E; [|rewrite E; ring].
        replace a with (a - b + b) by ring. rewrite E. ring. }
      split; intros H i Hi.
      - apply Z. rewrite <- R by exact Hi. apply (proj1 Hsys); [|exact Hi].
        intros i0 Hi0. rewrite L by exact Hi0. apply Z. apply H; exact Hi0.
      - apply Z. rewrite <- L by exact Hi. apply (proj2 Hsys); [|exact Hi].
        intros i0 Hi0. rewrite R by exact Hi0. apply Z. apply H; exact Hi0. }
    split; intros i j Hi Hj; unfold mul.
    - destruct (HS (fun k => B k j) (fun k => delta k j)) as [H1 _].
      assert (D : forall k, k < n -> B k j = Fsum (fun j0 => B k j0 * delta j0 j) (seq 0 n)).
      { intros k Hk. rewrite (Fsum_ext _ (fun j0 => delta j j0 * B k j0)).
        - symmetry. apply Fsum_delta_l; exact Hj.
        - intros x _. unfold delta. rewrite (Nat.eqb_sym x j). ring. }
      exact (H1 D i Hi).
    - destruct (HS (fun k => delta k j) (fun k => M k j)) as [_ H2].
      symmetry. refine (H2 _ i Hi).
      intros k Hk. rewrite (Fsum_ext _ (fun j0 => delta j j0 * M k j0)).
      + apply Fsum_delta_l; exact Hj.
      + intros x _. unfold delta. rewrite (Nat.eqb_sym x j). ring.
  Qed.

  Theorem mat_inv_none n M : mat_inv n M = None ->
    exists x, (exists i, i < n /\ x i <> 0) /\ forall i, i < n -> Fsum (fun j => M i j * x j) (seq 0 n) = 0.
  Proof.
    unfold mat_inv. pose proof (gj_loop_spec n n 0 (freeze n M) (freeze n delta) eq_refl) as H.
    assert (Hu : unitcols n 0 (freeze n M)) by (intros i j _ Hj; lia). specialize (H Hu).
    destruct (gj_loop n (seq 0 n) (freeze n M, freeze n delta)) as [[A' B']|]; [discriminate|].
    intros _. destruct H as (x & Hx & Hs). exists x. split; [exact Hx|].
    intros i Hi. specialize (Hs i Hi). rewrite resid_freeze in Hs by exact Hi. unfold resid in Hs.
    rewrite (Fsum_zero (fun j => delta i j * 0)) in Hs by (intros; ring).
    replace (Fsum (fun j => M i j * x j) (seq 0 n)) with (Fsum (fun j => M i j * x j) (seq 0 n) - 0) by ring.
    exact Hs.
  Qed.
End Inv.
