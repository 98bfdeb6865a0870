From Verif Require Import Base SortLib MatInv LabLin FrameModel.
From Coq Require Import Permutation Field.

(** ** Lists and sets of strings. *)
Lemma sl_eqb_spec l m : reflect (l = m) (sl_eqb l m).
Proof.
  revert m. induction l as [|x l IH]; intros [|y m]; cbn; try (constructor; congruence).
  destruct (String.eqb_spec x y) as [->|n]; cbn; [|constructor; congruence].
  destruct (IH m) as [->|n]; constructor; congruence.
Qed.
Lemma subsetb_spec a b : subsetb a b = true <-> (forall x, In x a -> In x b).
Proof.
  unfold subsetb. rewrite forallb_forall. split; intros H x Hx; specialize (H x Hx); apply smem_In; exact H.
Qed.
Lemma subsetb_false a b : subsetb a b = false -> exists x, In x a /\ ~ In x b.
Proof.
  unfold subsetb. induction a as [|y a IH]; cbn; [discriminate|].
  destruct (smem_spec y b) as [Hy|Hn]; cbn; intros H.
  - destruct (IH H) as (x & Hx & Hnx). exists x; auto.
  - exists y; auto.
Qed.
Lemma set_eqb_spec a b : set_eqb a b = true <-> (forall x, In x a <-> In x b).
Proof.
  unfold set_eqb. rewrite andb_true_iff, !subsetb_spec. split.
  - intros [H1 H2] x. split; auto.
  - intros H. split; intros x Hx; apply H; exact Hx.
Qed.

Section Sets.
  Context {SO : SetOrder}.
  Lemma ord_In l x : In x (ord l) <-> In x l.
  Proof. split; apply Permutation_in; [apply ord_perm|apply Permutation_sym, ord_perm]. Qed.
  Lemma ord_NoDup l : NoDup l -> NoDup (ord l).
  Proof. apply Permutation_NoDup, Permutation_sym, ord_perm. Qed.
  Lemma set_of_In l x : In x (set_of l) <-> In x l.
  Proof. unfold set_of. rewrite ord_In. apply nodup_In. Qed.
  Lemma set_of_NoDup l : NoDup (set_of l).
  Proof. apply ord_NoDup, NoDup_nodup. Qed.
  Lemma set_union_In a b x : In x (set_union a b) <-> In x a \/ In x b.
  Proof. unfold set_union, sdup. rewrite ord_In, nodup_In, in_app_iff. reflexivity. Qed.
  Lemma set_union_NoDup a b : NoDup (set_union a b).
  Proof. apply ord_NoDup, NoDup_nodup. Qed.
  Lemma set_diff_In a b x : In x (set_diff a b) <-> In x a /\ ~ In x b.
  Proof.
    unfold set_diff. rewrite ord_In, filter_In, negb_true_iff, smem_false. reflexivity.
  Qed.
  Lemma set_diff_NoDup a b : NoDup a -> NoDup (set_diff a b).
  Proof. intros H. apply ord_NoDup, NoDup_filter. exact H. Qed.
  Lemma set_diff_nil a b : set_diff a b = [] <-> (forall x, In x a -> In x b).
  Proof.
    split.
    - intros H x Hx. destruct (smem_spec x b) as [|n]; [assumption|].
      assert (In x (set_diff a b)) as C by (apply set_diff_In; auto). rewrite H in C. destruct C.
    - intros H. destruct (set_diff a b) as [|y l] eqn:E; [reflexivity|].
      assert (In y (set_diff a b)) as C by (rewrite E; left; reflexivity).
      apply set_diff_In in C. destruct C as [C1 C2]. destruct (C2 (H y C1)).
  Qed.
End Sets.

Lemma NoDup_perm_iff (l m : list string) : NoDup l -> NoDup m -> (forall x, In x l <-> In x m) -> Permutation l m.
Proof. apply NoDup_Permutation. Qed.

Lemma ijoin_same l : ijoin l l = l.
Proof. unfold ijoin. destruct (sl_eqb_spec l l); [reflexivity|congruence]. Qed.
Lemma ijoin_In l m x : In x (ijoin l m) <-> In x l \/ In x m.
Proof.
  unfold ijoin. destruct (sl_eqb_spec l m) as [->|n]; [tauto|].
  rewrite ssort_In. unfold sdup. rewrite nodup_In, in_app_iff. reflexivity.
Qed.
Lemma ijoin_NoDup l m : NoDup l -> NoDup (ijoin l m).
Proof.
  intros H. unfold ijoin. destruct (sl_eqb_spec l m); [exact H|]. apply ssort_NoDup, NoDup_nodup.
Qed.
Lemma ijoin_comm l m : ijoin l m = ijoin m l.
Proof.
  unfold ijoin. destruct (sl_eqb_spec l m) as [e|n], (sl_eqb_spec m l) as [e'|n']; try congruence.
  apply ssort_unique. apply NoDup_Permutation; try apply NoDup_nodup.
  intros x. unfold sdup. rewrite !nodup_In, !in_app_iff. tauto.
Qed.

(** ** Positions. *)
Lemma pos_lt a l : In a l -> pos a l < length l.
Proof.
  induction l as [|x l IH]; intros H; [destruct H|]. cbn.
  destruct (String.eqb_spec x a) as [->|n]; [lia|].
  destruct H as [e|H]; [contradiction|]. specialize (IH H). lia.
Qed.
Lemma nth_pos a l d : In a l -> nth (pos a l) l d = a.
Proof.
  induction l as [|x l IH]; intros H; [destruct H|]. cbn.
  destruct (String.eqb_spec x a) as [->|n]; [reflexivity|].
  destruct H as [e|H]; [contradiction|]. apply IH; exact H.
Qed.
Lemma pos_nth i l d : NoDup l -> i < length l -> pos (nth i l d) l = i.
Proof.
  revert i. induction l as [|x l IH]; intros i Hnd Hi; [cbn in Hi; lia|].
  inversion Hnd as [|? ? Hn Hnd']; subst. destruct i as [|i]; cbn.
  - rewrite String.eqb_refl. reflexivity.
  - destruct (String.eqb_spec x (nth i l d)) as [->|n].
    + exfalso. apply Hn. apply nth_In. cbn in Hi. lia.
    + rewrite IH; [reflexivity|exact Hnd'|cbn in Hi; lia].
Qed.

Section FL.
  Context {F : Type} {K : Fld F}.
  Add Field FldFL : (fth (F := F)).
  Open Scope fld_scope.

  Lemma Fsum_seq_nth (l : list string) (f : string -> F) d :
    Fsum (fun i => f (nth i l d)) (seq 0 (length l)) = Fsum f l.
  Proof.
    induction l as [|x l IH]; [reflexivity|]. cbn [length seq Fsum nth]. f_equal.
    rewrite <- IH. rewrite <- seq_shift, Fsum_map. reflexivity.
  Qed.

  Definition fv (f : frame F) (a b : string) : F := match ce f a b with Some x => x | None => 0 end.
  Definition frame_ok (f : frame F) : Prop :=
    NoDup (ix f) /\ cx f = ix f /\ forall a b, In a (ix f) -> In b (ix f) -> ce f a b <> None.

  Lemma ce_fv f a b : frame_ok f -> In a (ix f) -> In b (ix f) -> ce f a b = Some (fv f a b).
  Proof.
    intros (_ & _ & H) Ha Hb. unfold fv. specialize (H a b Ha Hb). destruct (ce f a b); [reflexivity|congruence].
  Qed.

  Notation isinv := (isinv string_dec).

  Definition posmat (f : frame F) : nat -> nat -> F :=
    fun i j => match ce f (nth i (ix f) EmptyString) (nth j (cx f) EmptyString) with Some x => x | None => 0 end.

  Lemma invert_unfold f : frame_ok f ->
    invert_dataframe f =
    match mat_inv (length (ix f)) (posmat f) with
    | None => Err ELinAlg
    | Some B => Ok (mkF (ix f) (cx f) (fun a b => Some (B (pos a (ix f)) (pos b (cx f)))))
    end.
  Proof.
    intros (Hnd & Hc & He). unfold invert_dataframe. rewrite Hc, Nat.eqb_refl. cbn [negb].
    match goal with |- (if ?c then _ else _) = _ => assert (c = true) as -> end.
    - apply forallb_forall. intros i Hi. apply forallb_forall. intros j Hj. apply in_seq in Hi, Hj.
      specialize (He (nth i (ix f) ""%string) (nth j (ix f) ""%string)).
      destruct (ce f _ _); [reflexivity|]. exfalso. apply He; try reflexivity; apply nth_In; lia.
    - unfold posmat. rewrite Hc. reflexivity.
  Qed.

  Lemma posmat_fv f i j : cx f = ix f -> posmat f i j = fv f (nth i (ix f) EmptyString) (nth j (ix f) EmptyString).
  Proof. intros H. unfold posmat, fv. rewrite H. reflexivity. Qed.

  Lemma invert_ok f g : frame_ok f -> invert_dataframe f = Ok g ->
    ix g = ix f /\ frame_ok g /\ isinv (ix f) (fv f) (fv g).
  Proof.
    intros Hok. rewrite (invert_unfold f Hok). pose proof Hok as (Hnd & Hc & He).
    destruct (mat_inv (length (ix f)) (posmat f)) as [B|] eqn:EB; [|discriminate].
    intros E; injection E as <-. cbn [ix cx ce]. split; [reflexivity|]. split.
    - split; [exact Hnd|]. split; [exact Hc|]. intros a b _ _; cbn; discriminate.
    - destruct (mat_inv_some _ _ _ EB) as [H1 H2].
      intros a b Ha Hb. unfold mm, fv at 2 3. cbn [ce]. rewrite Hc.
      assert (HD : delta (pos a (ix f)) (pos b (ix f)) = dl string_dec a b).
      { unfold delta, dl. destruct (string_dec a b) as [->|n]; [rewrite Nat.eqb_refl; reflexivity|].
        rewrite (proj2 (Nat.eqb_neq _ _)); [reflexivity|]. intros C. apply n.
        rewrite <- (nth_pos a (ix f) ""%string Ha), <- (nth_pos b (ix f) ""%string Hb), C. reflexivity. }
      split.
      + rewrite <- HD, <- (H1 _ _ (pos_lt a _ Ha) (pos_lt b _ Hb)). unfold mul.
        rewrite <- (Fsum_seq_nth (ix f) _ ""%string). apply Fsum_ext. intros k Hk. apply in_seq in Hk.
        rewrite (posmat_fv f _ _ Hc). rewrite nth_pos by exact Ha. rewrite pos_nth by (try exact Hnd; lia). reflexivity.
      + rewrite <- HD, <- (H2 _ _ (pos_lt a _ Ha) (pos_lt b _ Hb)). unfold mul.
        rewrite <- (Fsum_seq_nth (ix f) _ ""%string). apply Fsum_ext. intros k Hk. apply in_seq in Hk.
        rewrite (posmat_fv f _ _ Hc). rewrite nth_pos by exact Hb. rewrite pos_nth by (try exact Hnd; lia). reflexivity.
  Qed.

  Lemma invert_err f e : frame_ok f -> invert_dataframe f = Err e ->
    e = ELinAlg /\ exists x, (exists a, In a (ix f) /\ x a <> 0) /\
      forall a, In a (ix f) -> Fsum (fun b => fv f a b * x b) (ix f) = 0.
  Proof.
    intros Hok. rewrite (invert_unfold f Hok). pose proof Hok as (Hnd & Hc & He).
    destruct (mat_inv (length (ix f)) (posmat f)) as [B|] eqn:EB; [discriminate|].
    intros E; injection E as <-. split; [reflexivity|].
    destruct (mat_inv_none _ _ EB) as (x & (i & Hi & Hx) & H).
    exists (fun a => x (pos a (ix f))). split.
    - exists (nth i (ix f) ""%string). split; [apply nth_In; exact Hi|]. rewrite pos_nth by assumption. exact Hx.
    - intros a Ha. rewrite <- (H _ (pos_lt a _ Ha)).
      rewrite <- (Fsum_seq_nth (ix f) _ ""%string). apply Fsum_ext. intros k Hk. apply in_seq in Hk.
      rewrite (posmat_fv f _ _ Hc). rewrite nth_pos by exact Ha. rewrite pos_nth by (try exact Hnd; lia). reflexivity.
  Qed.

  (** A left inverse excludes a kernel. *)
  Lemma kernel_no_inv (l : list string) A C (x : string -> F) a :
    NoDup l -> (forall p q, In p l -> In q l -> mm l C A p q = dl string_dec p q) ->
    (forall p, In p l -> Fsum (fun b => A p b * x b) l = 0) -> In a l -> x a = 0.
  Proof.
    intros Hnd HC Hx Ha.
    rewrite <- (mm_dl_l string_dec l (fun c _ => x c) a a Hnd Ha).
    rewrite (mm_ext l (dl string_dec) (mm l C A) (fun c _ => x c) (fun c _ => x c));
      [|intros k Hk; symmetry; apply HC; assumption|reflexivity].
    rewrite mm_assoc. apply Fsum_zero. intros k Hk. unfold mm.
    rewrite Hx by exact Hk. ring.
  Qed.

  Lemma invert_complete f C : frame_ok f -> isinv (ix f) (fv f) C -> exists g, invert_dataframe f = Ok g.
  Proof.
    intros Hok HC. destruct (invert_dataframe f) as [g|e] eqn:E; [exists g; reflexivity|].
    destruct (invert_err f e Hok E) as (_ & x & (a & Ha & Hx) & Hk). exfalso. apply Hx.
    pose proof Hok as (Hnd & _ & _).
    apply (kernel_no_inv (ix f) (fv f) C x a Hnd); [|exact Hk|exact Ha].
    intros p q Hp Hq. apply HC; assumption.
  Qed.

  (** ** Frame equality up to the order of labels. *)
  Definition fequiv (f g : frame F) : Prop :=
    Permutation (ix f) (ix g) /\ forall a b, In a (ix f) -> In b (ix f) -> fv f a b = fv g a b.

  Lemma fequiv_refl f : fequiv f f.
  Proof. split; [reflexivity|reflexivity]. Qed.
  Lemma fequiv_sym f g : fequiv f g -> fequiv g f.
  Proof.
    intros [P H]. split; [apply Permutation_sym; exact P|]. intros a b Ha Hb. symmetry.
    apply H; (eapply Permutation_in; [apply Permutation_sym; exact P|assumption]).
  Qed.
  Lemma fequiv_trans f g h : fequiv f g -> fequiv g h -> fequiv f h.
  Proof.
    intros [P H] [P' H']. split; [eapply Permutation_trans; eassumption|]. intros a b Ha Hb.
    rewrite H by assumption. apply H'; (eapply Permutation_in; [exact P|assumption]).
  Qed.
  Lemma invert_fequiv f g f' g' : frame_ok f -> frame_ok g -> fequiv f g ->
    invert_dataframe f = Ok f' -> invert_dataframe g = Ok g' -> fequiv f' g'.
  Proof.
    intros Hf Hg [P H] Ef Eg.
    destruct (invert_ok f f' Hf Ef) as (I1 & O1 & V1). destruct (invert_ok g g' Hg Eg) as (I2 & O2 & V2).
    split; [rewrite I1, I2; exact P|]. rewrite I1. intros a b Ha Hb. pose proof Hf as (Hnd & _ & _).
    apply (inv_unique string_dec (ix f) (fv f) (fv f') (fv g') Hnd V1); try assumption.
    apply isinv_perm with (m := ix f) in V2; [|apply Permutation_sym; exact P].
    eapply isinv_ext; [| |exact V2]; [|reflexivity].
    intros p q Hp Hq. symmetry. apply H; assumption.
  Qed.
  Lemma fequiv_inv_exists f g f' : frame_ok f -> frame_ok g -> fequiv f g ->
    invert_dataframe f = Ok f' -> exists g', invert_dataframe g = Ok g' /\ fequiv f' g'.
  Proof.
    intros Hf Hg E Ef. destruct (invert_ok f f' Hf Ef) as (I1 & O1 & V1). pose proof E as [P H].
    destruct (invert_complete g (fv f') Hg) as (g' & Eg).
    - apply isinv_perm with (m := ix g) in V1; [|exact P].
      eapply isinv_ext; [| |exact V1]; [|reflexivity].
      intros p q Hp Hq. apply H; (eapply Permutation_in; [apply Permutation_sym; exact P|assumption]).
    - exists g'. split; [exact Eg|]. exact (invert_fequiv f g f' g' Hf Hg E Ef Eg).
  Qed.

  (** Sorting and slicing keep frames well-formed. *)
  Lemma sort_ok f : frame_ok f -> frame_ok (f_sort1 (f_sort0 f)) /\ fequiv (f_sort1 (f_sort0 f)) f.
  Proof.
    intros (Hnd & Hc & He). unfold f_sort1, f_sort0. cbn [ix cx ce]. split.
    - split; [apply ssort_NoDup; exact Hnd|]. cbn [ix cx ce]. split; [rewrite Hc; reflexivity|].
      intros a b Ha Hb. rewrite ssort_In in Ha, Hb. apply He; assumption.
    - split; [apply ssort_perm|]. reflexivity.
  Qed.
  Lemma loc_ok f l : frame_ok f -> NoDup l -> (forall x, In x l -> In x (ix f)) ->
    exists g, f_loc f l l = Ok g /\ frame_ok g /\ ix g = l /\ forall a b, ce g a b = ce f a b.
  Proof.
    intros (Hnd & Hc & He) Hl Hsub. unfold f_loc. rewrite Hc.
    rewrite (proj2 (subsetb_spec l (ix f)) Hsub). cbn [andb].
    eexists. split; [reflexivity|]. split; [|split; reflexivity].
    split; [exact Hl|]. cbn [ix cx ce]. split; [reflexivity|]. intros a b Ha Hb. apply He; auto.
  Qed.
End FL.
