From Verif Require Import Base SortLib MatInv LabLin FrameModel FrameLemmas FisherModel FisherSpec FisherLemmas.
From Coq Require Import Permutation Field.

Section FiL2.
  Context {F : Type} {K : Fld F} {SO : SetOrder}.
  Add Field FldFi2 : (fth (F := F)).
  Open Scope fld_scope.
  Notation isinv := (isinv string_dec).
  Implicit Types f g h t : fisher F.

  Lemma same_sym f g : same f g -> same g f.
  Proof.
    intros (H1 & H2 & H3 & H4). split; [|split; [|split]].
    - intros x. symmetry. apply H1.
    - intros a b Ha Hb. symmetry. apply H2; apply H1; assumption.
    - intros x. symmetry. apply H3.
    - intros x. symmetry. apply H4.
  Qed.
  Lemma same_trans f g h : same f g -> same g h -> same f h.
  Proof.
    intros (A1 & A2 & A3 & A4) (B1 & B2 & B3 & B4). split; [|split; [|split]].
    - intros x. rewrite A1. apply B1.
    - intros a b Ha Hb. rewrite A2 by assumption. apply B2; apply A1; assumption.
    - intros x. rewrite A3. apply B3.
    - intros x. rewrite A4. apply B4.
  Qed.

  Lemma pval_in f a b : In a (labels f) -> In b (labels f) -> pval f a b = fval f a b.
  Proof. intros Ha Hb. unfold pval. rewrite (proj2 (smem_In a _) Ha), (proj2 (smem_In b _) Hb). reflexivity. Qed.
  Lemma pval_out f a b : ~ In a (labels f) \/ ~ In b (labels f) -> pval f a b = 0.
  Proof.
    intros [H|H]; unfold pval; rewrite (proj2 (smem_false _ _) H); [reflexivity|]. rewrite andb_false_r. reflexivity.
  Qed.

  Lemma pval_combine op sym f g a b : op 0 0 = 0 -> wf f -> wf g ->
    pval (fcombine op sym f g) a b = op (pval f a b) (pval g a b).
  Proof.
    intros H0 Wf Wg. destruct (fcombine_spec op sym f g Wf Wg) as (Wh & L & V & _).
    destruct (in_dec string_dec a (labels (fcombine op sym f g))) as [Ia|Na].
    - destruct (in_dec string_dec b (labels (fcombine op sym f g))) as [Ib|Nb].
      + rewrite pval_in by assumption. apply V; assumption.
      + rewrite L in Nb. rewrite !pval_out by (right; try rewrite L; tauto). symmetry; exact H0.
    - rewrite L in Na. rewrite !pval_out by (left; try rewrite L; tauto). symmetry; exact H0.
  Qed.

  Lemma same_pval f g : (forall x, In x (labels f) <-> In x (labels g)) ->
    (forall a b, pval f a b = pval g a b) ->
    (forall x, In x (fcosmo f) <-> In x (fcosmo g)) -> (forall x, In x (fnuis f) <-> In x (fnuis g)) -> same f g.
  Proof.
    intros L V C N. split; [exact L|]. split; [|split; assumption].
    intros a b Ha Hb. rewrite <- !pval_in; auto; apply L; assumption.
  Qed.
  Lemma pval_same f g a b : same f g -> pval f a b = pval g a b.
  Proof.
    intros (L & V & _). destruct (in_dec string_dec a (labels f)) as [Ia|Na].
    - destruct (in_dec string_dec b (labels f)) as [Ib|Nb].
      + rewrite !pval_in; auto; apply L; assumption.
      + rewrite (pval_out f a b), (pval_out g a b); auto. right. rewrite <- L. exact Nb.
    - rewrite (pval_out f a b), (pval_out g a b); auto. left. rewrite <- L. exact Na.
  Qed.

  Lemma add_spec f g : wf f -> wf g -> let h := fisher_add f g in
    wf h /\ (forall x, In x (labels h) <-> In x (labels f) \/ In x (labels g)) /\
    (forall a b, pval h a b = pval f a b + pval g a b) /\
    (forall x, In x (fcosmo h) <-> In x (fcosmo f) \/ In x (fcosmo g)) /\
    (forall x, In x (fnuis h) <-> In x (fnuis f) \/ In x (fnuis g)).
  Proof.
    intros Wf Wg. cbn zeta. unfold fisher_add.
    destruct (fcombine_spec fadd " + " f g Wf Wg) as (W & L & _ & C & N & _).
    split; [exact W|]. split; [exact L|]. split; [|split; assumption].
    intros a b. apply pval_combine; [ring|assumption|assumption].
  Qed.
  Lemma sub_spec f g : wf f -> wf g -> let h := fisher_sub f g in
    wf h /\ (forall x, In x (labels h) <-> In x (labels f) \/ In x (labels g)) /\
    (forall a b, pval h a b = pval f a b - pval g a b) /\
    (forall x, In x (fcosmo h) <-> In x (fcosmo f) \/ In x (fcosmo g)) /\
    (forall x, In x (fnuis h) <-> In x (fnuis f) \/ In x (fnuis g)).
  Proof.
    intros Wf Wg. cbn zeta. unfold fisher_sub.
    destruct (fcombine_spec fsub " - " f g Wf Wg) as (W & L & _ & C & N & _).
    split; [exact W|]. split; [exact L|]. split; [|split; assumption].
    intros a b. apply pval_combine; [ring|assumption|assumption].
  Qed.

  Lemma add_comm f g : wf f -> wf g -> same (fisher_add f g) (fisher_add g f).
  Proof.
    intros Wf Wg. destruct (add_spec f g Wf Wg) as (_ & L & V & C & N), (add_spec g f Wg Wf) as (_ & L' & V' & C' & N').
    apply same_pval.
    - intros x. rewrite L, L'. tauto.
    - intros a b. rewrite V, V'. ring.
    - intros x. rewrite C, C'. tauto.
    - intros x. rewrite N, N'. tauto.
  Qed.

  Lemma add_assoc f g h : wf f -> wf g -> wf h ->
    same (fisher_add (fisher_add f g) h) (fisher_add f (fisher_add g h)).
  Proof.
    intros Wf Wg Wh.
    destruct (add_spec f g Wf Wg) as (W1 & L1 & V1 & C1 & N1), (add_spec g h Wg Wh) as (W2 & L2 & V2 & C2 & N2).
    destruct (add_spec _ h W1 Wh) as (_ & L3 & V3 & C3 & N3), (add_spec f _ Wf W2) as (_ & L4 & V4 & C4 & N4).
    apply same_pval.
    - intros x. rewrite L3, L4, L1, L2. tauto.
    - intros a b. rewrite V3, V4, V1, V2. ring.
    - intros x. rewrite C3, C4, C1, C2. tauto.
    - intros x. rewrite N3, N4, N1, N2. tauto.
  Qed.

  Lemma sum_list_spec l : forall f, wf f -> Forall wf l ->
    wf (sum_list f l) /\
    (forall x, In x (labels (sum_list f l)) <-> Exists (fun g => In x (labels g)) (f :: l)) /\
    (forall a b, pval (sum_list f l) a b = Fsum (fun g => pval g a b) (f :: l)) /\
    (forall x, In x (fcosmo (sum_list f l)) <-> Exists (fun g => In x (fcosmo g)) (f :: l)) /\
    (forall x, In x (fnuis (sum_list f l)) <-> Exists (fun g => In x (fnuis g)) (f :: l)).
  Proof.
    induction l as [|g l IH]; intros f Wf Wl; cbn [sum_list fold_left].
    - split; [exact Wf|]. split; [|split; [|split]].
      + intros x. rewrite Exists_cons, Exists_nil. tauto.
      + intros a b. cbn [Fsum]. ring.
      + intros x. rewrite Exists_cons, Exists_nil. tauto.
      + intros x. rewrite Exists_cons, Exists_nil. tauto.
    - inversion Wl as [|? ? Wg Wl']; subst.
      destruct (add_spec f g Wf Wg) as (W1 & L1 & V1 & C1 & N1).
      destruct (IH _ W1 Wl') as (W & L & V & C & N). unfold sum_list in *.
      split; [exact W|]. split; [|split; [|split]].
      + intros x. rewrite L, !Exists_cons, L1. tauto.
      + intros a b. rewrite V. cbn [Fsum]. rewrite V1. ring.
      + intros x. rewrite C, !Exists_cons, C1. tauto.
      + intros x. rewrite N, !Exists_cons, N1. tauto.
  Qed.

  Lemma sum_list_perm f l g m : wf f -> Forall wf l -> Permutation (f :: l) (g :: m) ->
    same (sum_list f l) (sum_list g m).
  Proof.
    intros Wf Wl P.
    assert (WA : Forall wf (g :: m)).
    { rewrite Forall_forall. intros x Hx. assert (In x (f :: l)) as [<-|Hi].
      { eapply Permutation_in; [apply Permutation_sym; exact P|exact Hx]. }
      - exact Wf.
      - rewrite Forall_forall in Wl. auto. }
    inversion WA as [|? ? Wg Wm]; subst.
    destruct (sum_list_spec l f Wf Wl) as (_ & L & V & C & N), (sum_list_spec m g Wg Wm) as (_ & L' & V' & C' & N').
    assert (E : forall (Q : fisher F -> Prop), Exists Q (f :: l) <-> Exists Q (g :: m)).
    { intros Q. rewrite !Exists_exists. split; intros (x & Hx & Hq); exists x; split; try exact Hq;
        (eapply Permutation_in; [|exact Hx]); [exact P|apply Permutation_sym; exact P]. }
    apply same_pval.
    - intros x. rewrite L, L'. apply E.
    - intros a b. rewrite V, V'. apply Fsum_perm; exact P.
    - intros x. rewrite C, C'. apply E.
    - intros x. rewrite N, N'. apply E.
  Qed.

  Lemma add_sub f g : wf f -> wf g ->
    let h := fisher_sub (fisher_add f g) g in
    wf h /\ (forall x, In x (labels h) <-> In x (labels f) \/ In x (labels g)) /\
    (forall a b, In a (labels f) -> In b (labels f) -> fval h a b = fval f a b) /\
    (forall a b, In a (labels h) -> In b (labels h) -> ~ In a (labels f) \/ ~ In b (labels f) -> fval h a b = 0).
  Proof.
    intros Wf Wg. cbn zeta. destruct (add_spec f g Wf Wg) as (W1 & L1 & V1 & C1 & N1).
    destruct (sub_spec _ g W1 Wg) as (W & L & V & C & N). split; [exact W|].
    assert (L' : forall x, In x (labels (fisher_sub (fisher_add f g) g)) <-> In x (labels f) \/ In x (labels g)).
    { intros x. rewrite L, L1. tauto. }
    assert (V' : forall a b, pval (fisher_sub (fisher_add f g) g) a b = pval f a b).
    { intros a b. rewrite V, V1. ring. }
    split; [exact L'|]. split.
    - intros a b Ha Hb. rewrite <- (pval_in f a b Ha Hb), <- V'. symmetry. apply pval_in; apply L'; auto.
    - intros a b Ha Hb Ho. rewrite <- pval_in by assumption. rewrite V'. apply pval_out; exact Ho.
  Qed.

  Lemma sub_antisym f g : wf f -> wf g ->
    (forall x, In x (labels (fisher_sub f g)) <-> In x (labels (fisher_sub g f))) /\
    forall a b, In a (labels (fisher_sub f g)) -> In b (labels (fisher_sub f g)) ->
      fval (fisher_sub f g) a b = - fval (fisher_sub g f) a b.
  Proof.
    intros Wf Wg. destruct (sub_spec f g Wf Wg) as (_ & L & V & _), (sub_spec g f Wg Wf) as (_ & L' & V' & _).
    assert (E : forall x, In x (labels (fisher_sub f g)) <-> In x (labels (fisher_sub g f))).
    { intros x. rewrite L, L'. tauto. }
    split; [exact E|]. intros a b Ha Hb. rewrite <- !pval_in; try (apply E; assumption); try assumption.
    rewrite V, V'. ring.
  Qed.

  (** ** Fixing in two steps. *)
  Lemma fix_two ps qs f : wf f -> (forall x, In x ps -> In x (labels f)) ->
    (forall x, In x qs -> In x (labels f) /\ ~ In x ps) ->
    exists t u v, fix_parameters ps f = (t, Ok tt) /\ fix_parameters qs t = (u, Ok tt) /\
      fix_parameters (ps ++ qs) f = (v, Ok tt) /\ labels u = labels v /\
      (forall a b, ce (fmat u) a b = ce (fmat v) a b) /\
      (forall x, In x (fcosmo u) <-> In x (fcosmo v)) /\ (forall x, In x (fnuis u) <-> In x (fnuis v)).
  Proof.
    intros Wf Hps Hqs.
    destruct (fix_spec ps f Wf Hps) as (t & Et & Wt & Lt & Ct & Cot & Nt & _).
    destruct (fix_spec qs t Wt) as (u & Eu & Wu & Lu & Cu & Cou & Nu & _).
    { intros x Hx. rewrite Lt, filter_In, negb_true_iff, smem_false. apply Hqs; exact Hx. }
    destruct (fix_spec (ps ++ qs) f Wf) as (v & Ev & Wv & Lv & Cv & Cov & Nv & _).
    { intros x Hx. apply in_app_iff in Hx. destruct Hx as [Hx|Hx]; [auto|apply Hqs; exact Hx]. }
    exists t, u, v. split; [exact Et|]. split; [exact Eu|]. split; [exact Ev|]. split; [|split; [|split]].
    - rewrite Lu, Lt, Lv. clear. induction (labels f) as [|x l IH]; [reflexivity|].
      cbn [filter]. rewrite smem_app. destruct (smem x ps) eqn:E1; cbn [negb orb filter].
      + exact IH.
      + destruct (smem x qs); cbn [negb]; [exact IH|f_equal; exact IH].
    - intros a b. rewrite Cu, Ct, Cv. reflexivity.
    - intros x. rewrite Cou, Cot, Cov, in_app_iff. tauto.
    - intros x. rewrite Nu, Nt, Nv, in_app_iff. tauto.
  Qed.

  (** ** Marginalisation: result object. *)
  Lemma margd_spec ps rc f t : wf f -> margd ps rc f t ->
    exists C, isinv (labels f) (fval f) C /\
      wf t /\ (forall x, In x (labels t) <-> In x (labels f) /\ ~ In x ps) /\
      labels t = ssort (labels t) /\
      isinv (labels t) (fval t) C /\
      (exists s, finverse t = Some s /\ frame_ok s /\ Permutation (ix s) (labels t) /\
         (forall a b, In a (labels t) -> In b (labels t) -> fv s a b = C a b)) /\
      (forall x, In x (fcosmo t) <-> In x (fcosmo f) /\ ~ In x ps) /\
      (forall x, In x (fnuis t) <-> In x (fnuis f) /\ ~ In x ps) /\ (forall x, In x ps -> In x (labels f)).
  Proof.
    intros Wf (f' & r & E & Et). destruct (marg_ok ps rc f f' r Wf E)
      as (i & t0 & s & Ei & Er & Ef & Wt & Lt & St & Is & Os & Ps & Vs & Inv & Ct & Nt & _ & _ & Hps & _).
    assert (t = t0) as ->. { rewrite Et, Er, Ef. destruct rc; reflexivity. }
    pose proof Wf as (Of & _). destruct (invert_ok _ _ Of Ei) as (Ii & Oi & Vi).
    exists (fv i). split; [exact Vi|]. split; [exact Wt|]. split; [exact Lt|]. split; [exact St|].
    split; [exact Inv|]. split; [|split; [exact Ct|split; [exact Nt|exact Hps]]].
    exists s. auto.
  Qed.

  Lemma wf_NoDup f : wf f -> NoDup (labels f).
  Proof. intros ((H & _) & _). exact H. Qed.

  (** Splitting the labels into kept and dropped. *)
  Lemma split_perm (l k s : list string) : NoDup l -> NoDup k -> NoDup s ->
    (forall x, In x k -> ~ In x s) -> (forall x, In x l <-> In x k \/ In x s) -> Permutation l (k ++ s).
  Proof.
    intros Hl Hk Hs Hd H. apply NoDup_Permutation; [exact Hl| |intros x; rewrite in_app_iff; apply H].
    clear Hl H l. induction k as [|x k IH]; [exact Hs|]. inversion Hk; subst. cbn. constructor.
    - rewrite in_app_iff. intros [C|C]; [contradiction|]. exact (Hd x (or_introl eq_refl) C).
    - apply IH; [assumption|]. intros y Hy. apply Hd. right; exact Hy.
  Qed.

  (** Schur complement. *)
  Lemma margd_schur ps rc f t s : wf f -> margd ps rc f t ->
    NoDup s -> (forall x, In x s <-> In x ps) ->
    exists G, isinv s (fval f) G /\
      forall a b, In a (labels t) -> In b (labels t) ->
        fval t a b = fval f a b - Fsum (fun p => Fsum (fun q => fval f a p * G p q * fval f q b) s) s.
  Proof.
    intros Wf M Hs Hps. destruct (margd_spec ps rc f t Wf M) as (C & HI & Wt & Lt & _ & HM & _ & _ & _ & Hsub).
    assert (P : Permutation (labels f) (labels t ++ s)).
    { apply split_perm; try apply wf_NoDup; auto.
      - intros x Hx Hx'. apply Lt in Hx. apply Hps in Hx'. tauto.
      - intros x. rewrite Lt, Hps. specialize (Hsub x). destruct (in_dec string_dec x ps); tauto. }
    assert (Hnd : NoDup (labels t ++ s)) by (eapply Permutation_NoDup; [exact P|apply wf_NoDup; exact Wf]).
    assert (HI' : isinv (labels t ++ s) (fval f) C) by (eapply isinv_perm; eassumption).
    assert (HM' : isinv (labels t) C (fval t)) by (apply isinv_swap; exact HM).
    pose proof (schurG_inv string_dec (labels t) s Hnd (fval f) C (fval t) HI' HM') as HG.
    exists (schurG (labels t) C (fval t)). split; [exact HG|]. intros a b Ha Hb.
    rewrite (schur_formula string_dec (labels t) s Hnd (fval f) C (fval t) HI' HM' _ HG a b Ha Hb).
    f_equal. unfold mm. apply Fsum_ext. intros p _. rewrite <- Fsum_scale. apply Fsum_ext. intros q _. ring.
  Qed.

  (** Two results with the same inverse restricted agree. *)
  Lemma margd_unique ps qs rc rc' f g t u : wf f -> wf g ->
    margd ps rc f t -> margd qs rc' g u ->
    (forall x, In x (labels t) <-> In x (labels u)) ->
    (forall C D, isinv (labels f) (fval f) C -> isinv (labels g) (fval g) D ->
       forall a b, In a (labels t) -> In b (labels t) -> C a b = D a b) ->
    labels t = labels u /\ forall a b, In a (labels t) -> In b (labels t) -> fval t a b = fval u a b.
  Proof.
    intros Wf Wg M1 M2 HL HC.
    destruct (margd_spec _ _ _ _ Wf M1) as (C & HI & Wt & _ & St & HM & _).
    destruct (margd_spec _ _ _ _ Wg M2) as (D & HI' & Wu & _ & Su & HM' & _).
    assert (P : Permutation (labels t) (labels u)).
    { apply NoDup_Permutation; [apply wf_NoDup; assumption|apply wf_NoDup; assumption|exact HL]. }
    assert (E : labels t = labels u) by (rewrite St, Su; apply ssort_unique; exact P).
    split; [exact E|]. intros a b Ha Hb.
    apply (inv_unique string_dec (labels t) C); [apply wf_NoDup; exact Wt|apply isinv_swap; exact HM| |exact Ha|exact Hb].
    rewrite <- E in HM'. apply isinv_swap.
    eapply isinv_ext; [reflexivity| |exact HM'].
    intros x y Hx Hy. symmetry. apply HC; assumption.
  Qed.

  Lemma margd_compose ps qs rc1 rc2 rc3 f t u v : wf f ->
    margd ps rc1 f t -> margd qs rc2 t u -> margd (ps ++ qs) rc3 f v ->
    labels u = labels v /\ (forall a b, In a (labels u) -> In b (labels u) -> fval u a b = fval v a b) /\
    (forall x, In x (fcosmo u) <-> In x (fcosmo v)) /\ (forall x, In x (fnuis u) <-> In x (fnuis v)).
  Proof.
    intros Wf M1 M2 M3.
    destruct (margd_spec _ _ _ _ Wf M1) as (C & HI & Wt & Lt & St & HM & _ & Ct & Nt & _).
    destruct (margd_spec _ _ _ _ Wt M2) as (D & _ & Wu & Lu & _ & _ & _ & Cu & Nu & _).
    destruct (margd_spec _ _ _ _ Wf M3) as (E & _ & Wv & Lv & _ & _ & _ & Cv & Nv & _).
    destruct (margd_unique qs (ps ++ qs) rc2 rc3 t f u v Wt Wf M2 M3) as [HL HV].
    - intros x. rewrite Lu, Lt, Lv, in_app_iff. tauto.
    - intros X Y HX HY a b Ha Hb. apply Lu in Ha, Hb. destruct Ha as [Ha _], Hb as [Hb _].
      transitivity (C a b).
      + apply (inv_unique string_dec (labels t) (fval t)); auto. apply wf_NoDup; exact Wt.
      + apply Lt in Ha, Hb. apply (inv_unique string_dec (labels f) (fval f)); auto; try tauto. apply wf_NoDup; exact Wf.
    - split; [exact HL|]. split; [exact HV|]. split; intros x.
      + rewrite Cu, Ct, Cv, in_app_iff. tauto.
      + rewrite Nu, Nt, Nv, in_app_iff. tauto.
  Qed.

  Lemma margd_either_order ps qs rc1 rc2 rc3 rc4 f t u t' u' : wf f ->
    margd ps rc1 f t -> margd qs rc2 t u -> margd qs rc3 f t' -> margd ps rc4 t' u' ->
    labels u = labels u' /\ (forall a b, In a (labels u) -> In b (labels u) -> fval u a b = fval u' a b) /\
    (forall x, In x (fcosmo u) <-> In x (fcosmo u')) /\ (forall x, In x (fnuis u) <-> In x (fnuis u')).
  Proof.
    intros Wf M1 M2 M3 M4.
    destruct (margd_spec _ _ _ _ Wf M1) as (C & HI & Wt & Lt & St & HM & _ & Ct & Nt & _).
    destruct (margd_spec _ _ _ _ Wt M2) as (D & _ & Wu & Lu & _ & _ & _ & Cu & Nu & _).
    destruct (margd_spec _ _ _ _ Wf M3) as (C' & HI' & Wt' & Lt' & _ & HM' & _ & Ct' & Nt' & _).
    destruct (margd_spec _ _ _ _ Wt' M4) as (D' & _ & Wu' & Lu' & _ & _ & _ & Cu' & Nu' & _).
    destruct (margd_unique qs ps rc2 rc4 t t' u u' Wt Wt' M2 M4) as [HL HV].
    - intros x. rewrite Lu, Lt, Lu', Lt'. tauto.
    - intros X Y HX HY a b Ha Hb.
      assert (Ha' : In a (labels f) /\ In a (labels t) /\ In a (labels t')) by (rewrite Lu, Lt in Ha; rewrite Lt', Lt in *; tauto).
      assert (Hb' : In b (labels f) /\ In b (labels t) /\ In b (labels t')) by (rewrite Lu, Lt in Hb; rewrite Lt', Lt in *; tauto).
      transitivity (C a b); [|transitivity (C' a b)].
      + apply (inv_unique string_dec (labels t) (fval t)); auto; try tauto. apply wf_NoDup; exact Wt.
      + apply (inv_unique string_dec (labels f) (fval f)); auto; try tauto. apply wf_NoDup; exact Wf.
      + apply (inv_unique string_dec (labels t') (fval t')); auto; try tauto. apply wf_NoDup; exact Wt'.
    - split; [exact HL|]. split; [exact HV|]. split; intros x.
      + rewrite Cu, Ct, Cu', Ct'. tauto.
      + rewrite Nu, Nt, Nu', Nt'. tauto.
  Qed.

  Lemma margd_nil rc f t : wf f -> margd [] rc f t -> same t f.
  Proof.
    intros Wf M. destruct (margd_spec _ _ _ _ Wf M) as (C & HI & Wt & Lt & St & HM & _ & Ct & Nt & _).
    assert (P : Permutation (labels t) (labels f)).
    { apply NoDup_Permutation; [apply wf_NoDup; assumption|apply wf_NoDup; assumption|].
      intros x. rewrite Lt. cbn. tauto. }
    split; [|split; [|split]].
    - intros x. rewrite Lt. cbn. tauto.
    - intros a b Ha Hb. apply (inv_unique string_dec (labels t) C); try assumption.
      + apply wf_NoDup; exact Wt.
      + apply isinv_swap; exact HM.
      + apply isinv_swap. eapply isinv_perm; [apply Permutation_sym; exact P|exact HI].
    - intros x. rewrite Ct. cbn. tauto.
    - intros x. rewrite Nt. cbn. tauto.
  Qed.

  (** Success exactly when both inverses exist. *)
  Lemma margd_complete ps rc f C M keep : wf f -> (forall x, In x ps -> In x (labels f)) ->
    isinv (labels f) (fval f) C -> NoDup keep -> (forall x, In x keep <-> In x (labels f) /\ ~ In x ps) ->
    isinv keep C M -> exists t, margd ps rc f t.
  Proof.
    intros Wf Hps HI Hnd Hk HM. destruct (marginalize ps rc f) as [f' [r|e]] eqn:E.
    - eexists. exists f', r. split; [exact E|reflexivity].
    - exfalso. destruct (marg_err ps rc f f' e Wf Hps E) as (_ & [(e' & Ei)|(i & x & Ei & (a & Ha & Hx) & Hz)]).
      + pose proof Wf as (Of & _). destruct (invert_complete (fmat f) C Of HI) as (g & Eg). congruence.
      + pose proof Wf as (Of & _). destruct (invert_ok _ _ Of Ei) as (Ii & Oi & Vi).
        apply Hx. apply (kernel_no_inv keep (fv i) M x a Hnd).
        * intros p q Hp Hq. destruct (HM p q Hp Hq) as [_ H2]. rewrite <- H2.
          apply mm_ext; [reflexivity|]. intros k Hk'. apply Hk in Hk', Hq.
          apply (inv_unique string_dec (labels f) (fval f)); auto; try tauto. apply wf_NoDup; exact Wf.
        * intros p Hp. apply (Hz keep Hnd Hk p Hp).
        * apply Hk. exact Ha.
  Qed.
End FiL2.

Section FiL2O.
  Context {F : Type} {K : Fld F} {O : OFld (F := F)} {SO : SetOrder}.
  Add Field FldFi2O : (fth (F := F)).
  Open Scope fld_scope.
  Notation isinv := (isinv string_dec).
  Implicit Types f g h t : fisher F.

  Lemma pd_no_kernel (l : list string) (A : string -> string -> F) x : pd l A ->
    (forall a, In a l -> Fsum (fun b => A a b * x b) l = 0) -> forall a, In a l -> x a = 0.
  Proof.
    intros [_ H] Hz a Ha. destruct (fdec (x a) 0) as [e|n]; [exact e|exfalso].
    destruct (H x) as [_ C]; [exists a; auto|]. apply C. symmetry.
    rewrite bil_mv. apply Fsum_zero. intros b Hb. rewrite Hz by exact Hb. ring.
  Qed.

  Lemma invert_pd (m : frame F) : frame_ok m -> pd (ix m) (fv m) -> exists i, invert_dataframe m = Ok i.
  Proof.
    intros Ok Hp. destruct (invert_dataframe m) as [i|e] eqn:E; [eexists; reflexivity|].
    destruct (invert_err m e Ok E) as (_ & x & (a & Ha & Hx) & Hz). exfalso. apply Hx.
    exact (pd_no_kernel _ _ x Hp Hz a Ha).
  Qed.

  Lemma posdef_margd ps rc f : wf f -> posdef f -> (forall x, In x ps -> In x (labels f)) ->
    exists t, margd ps rc f t.
  Proof.
    intros Wf Hp Hps. destruct (marginalize ps rc f) as [f' [r|e]] eqn:E.
    - eexists. exists f', r. split; [exact E|reflexivity].
    - exfalso. pose proof Wf as (Of & _).
      destruct (marg_err ps rc f f' e Wf Hps E) as (_ & [(e' & Ei)|(i & x & Ei & (a & Ha & Hx) & Hz)]).
      + destruct (invert_pd (fmat f) Of Hp) as (i & Ei'). congruence.
      + destruct (invert_ok _ _ Of Ei) as (Ii & Oi & Vi). apply Hx.
        set (keep := filter (fun x => negb (smem x ps)) (labels f)).
        set (drop := filter (fun x => smem x ps) (labels f)).
        assert (Hk : forall x, In x keep <-> In x (labels f) /\ ~ In x ps).
        { intros y. unfold keep. rewrite filter_In, negb_true_iff, smem_false. reflexivity. }
        assert (Hd : forall x, In x drop <-> In x (labels f) /\ In x ps).
        { intros y. unfold drop. rewrite filter_In, smem_In. reflexivity. }
        assert (Nf := wf_NoDup f Wf).
        assert (P : Permutation (labels f) (keep ++ drop)).
        { apply split_perm; auto; try (apply NoDup_filter; exact Nf).
          - intros y. rewrite Hk, Hd. tauto.
          - intros y. rewrite Hk, Hd. destruct (in_dec string_dec y ps); tauto. }
        assert (Hpi : pd (labels f) (fv i)) by exact (pd_inv string_dec _ _ _ Nf Vi Hp).
        assert (Hpk : pd keep (fv i)).
        { apply (pd_restrict string_dec keep drop).
          - eapply Permutation_NoDup; [exact P|exact Nf].
          - exact (pd_perm _ _ _ P Hpi). }
        apply (pd_no_kernel keep (fv i) x Hpk).
        * intros b Hb. apply (Hz keep); [apply NoDup_filter; exact Nf|exact Hk|exact Hb].
        * apply Hk; exact Ha.
  Qed.

  Lemma posdef_margd_pd ps rc f t : wf f -> posdef f -> margd ps rc f t -> posdef t.
  Proof.
    intros Wf Hp M. destruct (margd_spec _ _ _ _ Wf M) as (C & HI & Wt & Lt & St & HM & _ & Ct & Nt & Hps).
    assert (Nf := wf_NoDup f Wf). assert (Nt' := wf_NoDup t Wt).
    set (drop := filter (fun x => smem x ps) (labels f)).
    assert (Hd : forall x, In x drop <-> In x (labels f) /\ In x ps).
    { intros y. unfold drop. rewrite filter_In, smem_In. reflexivity. }
    assert (P : Permutation (labels f) (labels t ++ drop)).
    { apply split_perm; auto; try (apply NoDup_filter; exact Nf).
      - intros y. rewrite Lt, Hd. tauto.
      - intros y. rewrite Lt, Hd. destruct (in_dec string_dec y ps); tauto. }
    apply (pd_inv string_dec _ C); [exact Nt'|apply isinv_swap; exact HM|].
    apply (pd_restrict string_dec (labels t) drop); [eapply Permutation_NoDup; [exact P|exact Nf]|].
    apply (pd_perm _ _ _ P). exact (pd_inv string_dec _ _ _ Nf HI Hp).
  Qed.

  Lemma pval_pd_bil f (l : list string) x : wf f -> NoDup l -> (forall a, In a (labels f) -> In a l) ->
    bil l (pval f) x x = bil (labels f) (fval f) x x.
  Proof.
    intros Wf Hnd Hs.
    set (rest := filter (fun a => negb (smem a (labels f))) l).
    assert (P : Permutation l (labels f ++ rest)).
    { apply split_perm; auto.
      - apply wf_NoDup; exact Wf.
      - apply NoDup_filter; exact Hnd.
      - intros y Hy. unfold rest. rewrite filter_In, negb_true_iff, smem_false. tauto.
      - intros y. unfold rest. rewrite filter_In, negb_true_iff, smem_false. specialize (Hs y).
        destruct (in_dec string_dec y (labels f)); tauto. }
    rewrite (bil_perm _ _ _ _ _ P).
    assert (R : forall y, In y rest -> ~ In y (labels f)).
    { intros y. unfold rest. rewrite filter_In, negb_true_iff, smem_false. tauto. }
    unfold bil. rewrite Fsum_app. rewrite (Fsum_zero _ rest).
    2:{ intros a Ha. apply Fsum_zero. intros b _. rewrite (pval_out f a b) by auto. ring. }
    transitivity (Fsum (fun a => Fsum (fun b => x a * fval f a b * x b) (labels f)) (labels f) + 0); [|ring].
    f_equal. apply Fsum_ext. intros a Ha. rewrite Fsum_app. rewrite (Fsum_zero _ rest).
    2:{ intros b Hb. rewrite (pval_out f a b) by auto. ring. }
    rewrite (Fsum_ext _ (fun b => x a * fval f a b * x b)); [ring|].
    intros b Hb. rewrite pval_in by assumption. reflexivity.
  Qed.

  Lemma bil_plus (l : list string) (A B : string -> string -> F) x :
    bil l (fun a b => A a b + B a b) x x = bil l A x x + bil l B x x.
  Proof.
    unfold bil. rewrite <- Fsum_plus. apply Fsum_ext. intros a _. rewrite <- Fsum_plus. apply Fsum_ext. intros b _. ring.
  Qed.

  Lemma flt_add_l (a b : F) : flt 0 a -> fle 0 b -> flt 0 (a + b).
  Proof.
    intros [H1 H2] H3. split.
    - replace (0:F) with (0 + 0) by ring. apply fle_add2; assumption.
    - intros E. apply H2. apply fle_antisym; [exact H1|].
      apply fle_sub_iff. replace (0 - a) with b; [exact H3|]. transitivity (a + b - a); [ring|]. rewrite <- E. reflexivity.
  Qed.

  Lemma posdef_add f g : wf f -> wf g -> posdef f -> posdef g -> posdef (fisher_add f g).
  Proof.
    intros Wf Wg [Sf Pf] [Sg Pg]. destruct (add_spec f g Wf Wg) as (W & L & V & _).
    set (h := fisher_add f g) in *.
    assert (E : forall a b, In a (labels h) -> In b (labels h) -> fval h a b = pval f a b + pval g a b).
    { intros a b Ha Hb. rewrite <- pval_in by assumption. apply V. }
    assert (Sp : forall k, wf k -> symm (labels k) (fval k) -> forall a b, pval k a b = pval k b a).
    { intros k Wk Sk a b. destruct (in_dec string_dec a (labels k)) as [Ia|Na].
      - destruct (in_dec string_dec b (labels k)) as [Ib|Nb].
        + rewrite !pval_in by assumption. apply Sk; assumption.
        + rewrite !pval_out by auto. reflexivity.
      - rewrite !pval_out by auto. reflexivity. }
    split.
    - intros a b Ha Hb. rewrite !E by assumption. rewrite (Sp f Wf Sf a b), (Sp g Wg Sg a b). reflexivity.
    - intros x (a & Ha & Hx). rewrite (bil_ext _ _ _ x x E), bil_plus.
      rewrite (pval_pd_bil f), (pval_pd_bil g); auto; try (apply wf_NoDup; exact W);
        try (intros y Hy; apply L; auto).
      assert (Qf : fle 0 (bil (labels f) (fval f) x x)) by (apply pd_psd; split; assumption).
      assert (Qg : fle 0 (bil (labels g) (fval g) x x)) by (apply pd_psd; split; assumption).
      apply L in Ha. destruct Ha as [Ha|Ha].
      + apply flt_add_l; [|exact Qg]. apply Pf. exists a; auto.
      + replace (bil (labels f) (fval f) x x + bil (labels g) (fval g) x x)
          with (bil (labels g) (fval g) x x + bil (labels f) (fval f) x x) by ring.
        apply flt_add_l; [|exact Qf]. apply Pg. exists a; auto.
  Qed.
End FiL2O.
