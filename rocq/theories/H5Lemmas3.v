(** What a successful save leaves in a file, as facts about the place it was
    made to; how such facts carry over to nested objects and to later saves. *)
From Verif Require Import Base SortLib StrLib FrameModel FrameLemmas FsModel ParamModel ParamFileModel KeyModel H5Model H5Lemmas H5Lemmas2.
Open Scope list_scope.

Section L.
  Context {F : Type} {K : Fld F}.
  Implicit Types (h : hfile F) (p q r : path) (v w : pv F) (o : obj F).

  Record stored h r (l : list (op F)) : Prop := mkStored {
    st_root : grp h r = true;
    st_fail : forall e, ~ In (OFail e) l;
    st_dat : forall s v, In (OData (r ++ s) v) l -> exists d, to_data v = Ok d /\ dat h (r ++ s) = Some d;
    st_no_dat : forall s, s <> [] -> (forall v, ~ In (OData (r ++ s) v) l) -> dat h (r ++ s) = None;
    st_absent : forall s, s <> [] -> (forall (o : op F) q, In o l -> target o = Some q -> ~ prefix (r ++ s) q) -> hget h (r ++ s) = None;
    st_grp : forall s, In (OGroup (r ++ s)) l -> grp h (r ++ s) = true;
    st_open : forall s t, s <> [] -> In (OOpen (r ++ s ++ t)) l -> grp h (r ++ s) = true;
    st_attr : forall s n v, In (OAttr (r ++ s) n v) l -> (forall w, In (OAttr (r ++ s) n w) l -> w = v) -> ~ In n meta_names ->
      rd_attr h (r ++ s) n = Ok v;
    st_no_attr : forall s n, (forall w, ~ In (OAttr (r ++ s) n w) l) -> ~ In n meta_names -> att h (r ++ s) n = None
  }.
  (** A place where nothing is stored: no member below it and, if the group is
      there, no attribute other than those of the file. *)
  Definition fresh r (st : option (hfile F)) : Prop :=
    free r st /\ (forall n, ~ In n meta_names -> att (file_of st) r n = None) /\ (st = None \/ grp (file_of st) [] = true).
  Lemma fresh_new r : fresh r None.
  Proof. split; [apply free_new|]. split; [|auto]. intros n _. unfold att, hget, empty_file. cbn. destruct r; reflexivity. Qed.
  Lemma fresh_absent r h : grp h [] = true -> hget h r = None -> free r (Some h) -> fresh r (Some h).
  Proof. intros G A FR. split; [exact FR|]. split; [|auto]. intros n _. unfold att. cbn [file_of]. rewrite A. reflexivity. Qed.

  Lemma grp_open_prefix l : forall h h' x p t, p <> [] -> run_ops l h = (h', Ok x) -> In (OOpen (p ++ t)) l -> grp h' p = true.
  Proof.
    induction l as [|o l IH]; intros h h' x p t N H I; [destruct I|].
    apply run_ops_cons in H as [(h1 & E & H)|(e & _ & X)]; [|discriminate]. destruct I as [->|I]; [|eapply IH; eassumption].
    eapply grp_kept; [exact H|]. exact (proj2 (ensure_spec _ _ _ _ _ E) eq_refl p t eq_refl N).
  Qed.
  Lemma save_stored meta ops r st h : fresh r st -> save meta ops r st = (Some h, Ok tt) -> stored h r (ops r).
  Proof.
    intros (FR & NA & W) SV. constructor.
    - eapply saved_root; eassumption.
    - intros e I. eapply saved_ok_In; [exact (saved_run meta ops r st h SV)|]. apply in_or_app. right. exact I.
    - intros. eapply saved_dat; eassumption.
    - intros. eapply saved_no_dat; eassumption.
    - intros. eapply saved_absent; eassumption.
    - intros. eapply saved_grp; eassumption.
    - intros s t N I. eapply grp_open_prefix; [|exact (saved_run meta ops r st h SV)|apply in_or_app; right; rewrite <- app_assoc; exact I].
      intros E. apply app_eq_nil in E as [_ E]. exact (N E).
    - intros. eapply saved_attr; eassumption.
    - intros s n U M. rewrite (saved_no_attr meta ops r st h SV _ _ U M).
      destruct s as [|a s]; [rewrite app_nil_r; apply NA, M|]. unfold att. rewrite FR by discriminate. reflexivity.
  Qed.

  Lemma st_data h r l (S : stored h r l) s v : In (OData (r ++ s) v) l -> rd_data h (r ++ s) = Ok v /\ present h (r ++ s) = true.
  Proof. intros I. destruct (st_dat _ _ _ S s v I) as (d & T & D). apply dat_hget in D. unfold rd_data, present. rewrite D, (of_to_data v d T). auto. Qed.

  Definition op_path (o : op F) : option path :=
    match o with OOpen p | OGroup p | OData p _ | OAttr p _ _ => Some p | OFail _ => None end.
  (** An operation that stays away from everything at or below [r]. *)
  Definition apart r (o : op F) : Prop := forall s, op_path o <> Some (r ++ s).
  Lemma apart_target r (o : op F) q s : apart r o -> target o = Some q -> prefix (r ++ s) q -> False.
  Proof.
    intros A T (t & ->). apply (A (s ++ t)). destruct o; cbn in *; rewrite app_assoc; try discriminate; exact T.
  Qed.
  Lemma nested_stored h r l n a b c : n <> [] -> stored h r l -> l = a ++ (OOpen (r ++ n) :: b) ++ c -> Forall (apart (r ++ n)) a -> Forall (apart (r ++ n)) c ->
    stored h (r ++ n) b.
  Proof.
    intros NN S -> A C. rewrite Forall_forall in A, C.
    assert (U : forall (o : op F) s, In o (a ++ (OOpen (r ++ n) :: b) ++ c) -> op_path o = Some ((r ++ n) ++ s) -> o = OOpen (r ++ n) \/ In o b).
    { intros o s I P. apply in_app_or in I as [I|I]; [exfalso; exact (A o I s P)|]. cbn [app] in I. destruct I as [<-|I]; [auto|].
      apply in_app_or in I as [I|I]; [auto|exfalso; exact (C o I s P)]. }
    assert (M : forall o : op F, In o b -> In o (a ++ (OOpen (r ++ n) :: b) ++ c)) by (intros o I; apply in_or_app; right; cbn; right; apply in_or_app; auto).
    constructor.
    - apply (st_open _ _ _ S n []); [exact NN|]. rewrite app_nil_r. apply in_or_app. right. left. reflexivity.
    - intros e I. exact (st_fail _ _ _ S e (M _ I)).
    - intros s v I. rewrite <- app_assoc in I |- *. apply (st_dat _ _ _ S). apply M, I.
    - intros s N H. rewrite <- app_assoc. apply (st_no_dat _ _ _ S); [destruct n; [congruence|discriminate]|]. intros v I. rewrite app_assoc in I.
      destruct (U _ s I eq_refl) as [X|X]; [discriminate X|exact (H v X)].
    - intros s N H. rewrite <- app_assoc. apply (st_absent _ _ _ S); [destruct n; [congruence|discriminate]|]. intros o q I T P. rewrite app_assoc in P. pose proof P as P0.
      destruct P as (t & ->). assert (P1 : op_path o = Some ((r ++ n) ++ (s ++ t))) by (destruct o; cbn in *; rewrite app_assoc; try discriminate; exact T).
      destruct (U _ _ I P1) as [->|X]; [|exact (H o _ X T P0)]. injection P1 as E. apply app_self_nil in E. destruct s; [congruence|discriminate E].
    - intros s I. rewrite <- app_assoc in I |- *. apply (st_grp _ _ _ S). apply M, I.
    - intros s t N I. rewrite <- app_assoc in I |- *. apply (st_open _ _ _ S _ t); [destruct n; [congruence|discriminate]|]. rewrite <- app_assoc. apply M, I.
    - intros s k v I H X. rewrite <- app_assoc in I |- *. apply (st_attr _ _ _ S); [apply M, I| |exact X]. intros w J. rewrite app_assoc in J.
      destruct (U _ s J eq_refl) as [Y|Y]; [discriminate Y|exact (H w Y)].
    - intros s k H X. rewrite <- app_assoc. apply (st_no_attr _ _ _ S); [|exact X]. intros w J. rewrite app_assoc in J.
      destruct (U _ s J eq_refl) as [Y|Y]; [discriminate Y|exact (H w Y)].
  Qed.

  (** Operations elsewhere leave the entries at and below [r] alone. *)
  Lemma run_apart r l : forall h h' x, run_ops l h = (h', x) -> Forall (apart r) l ->
    (forall s, dat h' (r ++ s) = dat h (r ++ s)) /\ (forall s, grp h' (r ++ s) = grp h (r ++ s)) /\ (forall s n, att h' (r ++ s) n = att h (r ++ s) n).
  Proof.
    intros h h' x H A. rewrite Forall_forall in A. repeat split.
    - intros s. destruct (dat_new _ _ _ _ (r ++ s) H) as [E|(v & d & I & _)]; [exact E|]. exfalso. exact (A _ I s eq_refl).
    - intros s. destruct (grp h (r ++ s)) eqn:G; [exact (grp_kept _ _ _ _ _ H G)|]. destruct (grp h' (r ++ s)) eqn:G'; [|reflexivity].
      destruct (grp_new _ _ _ _ _ H G') as [X|(o & q & I & T & P & _)]; [congruence|]. exfalso. exact (apart_target _ _ _ _ (A o I) T P).
    - intros s n. apply (att_other _ _ _ _ _ _ H). intros v I. exact (A _ I s eq_refl).
  Qed.
  Lemma stored_kept h h' x r l m : stored h r l -> run_ops m h = (h', x) -> Forall (apart r) m -> stored h' r l.
  Proof.
    intros S H A. destruct (run_apart r m h h' x H A) as (D & G & T).
    assert (R : forall s n, rd_attr h' (r ++ s) n = rd_attr h (r ++ s) n).
    { intros s n. unfold rd_attr. pose proof (T s n) as X. unfold att in X. specialize (G s). specialize (D s). unfold dat, grp in *.
      destruct (hget h' (r ++ s)) as [[d|d]|], (hget h (r ++ s)) as [[d'|d']|]; try discriminate; try reflexivity. rewrite X. reflexivity. }
    constructor.
    - rewrite <- (app_nil_r r), G, app_nil_r. apply (st_root _ _ _ S).
    - apply (st_fail _ _ _ S).
    - intros s v I. rewrite D. apply (st_dat _ _ _ S), I.
    - intros s N I. rewrite D. apply (st_no_dat _ _ _ S); assumption.
    - intros s N I. pose proof (st_absent _ _ _ S s N I) as X. specialize (D s). specialize (G s). unfold dat, grp in *. rewrite X in D, G.
      destruct (hget h' (r ++ s)) as [[|]|]; congruence.
    - intros s I. rewrite G. apply (st_grp _ _ _ S), I.
    - intros s t N I. rewrite G. apply (st_open _ _ _ S s t); assumption.
    - intros s n v I U M. rewrite R. apply (st_attr _ _ _ S); assumption.
    - intros s n U M. rewrite T. apply (st_no_attr _ _ _ S); assumption.
  Qed.

  (** Operations at or below [r]. *)
  Definition within r (l : list (op F)) : Prop := forall x p, In x l -> op_path x = Some p -> prefix r p.
  Lemma within_app r l m : within r l -> within r m -> within r (l ++ m).
  Proof. intros A B x p I. apply in_app_or in I as [I|I]; eauto. Qed.
  Lemma within_apart r l a b s t : within (r ++ a :: s) l -> a <> b -> Forall (apart (r ++ b :: t)) l.
  Proof.
    intros W N. apply Forall_forall. intros x I u P. destruct (W x _ I P) as (v & E). rewrite <- !app_assoc in E. apply app_inv_head in E. cbn in E. congruence.
  Qed.
  Lemma within_up r s l : within (r ++ s) l -> within r l.
  Proof. intros W x p I P. destruct (W x p I P) as (t & ->). exists (s ++ t). apply app_assoc_reverse. Qed.

  (** Every path of a file once. *)
  Definition wf h : Prop := NoDup (dkeys h).
  Lemma wf_set h p e : wf h -> wf (hset h p e).
  Proof. apply (NoDup_dset _ sl_eqb_spec). Qed.
  Lemma wf_ensure todo : forall h done, wf h -> wf (fst (ensure h done todo)).
  Proof.
    induction todo as [|a rest IH]; intros h done W; cbn; [exact W|]. destruct (hget h (done ++ [a])) as [[|]|]; [apply IH, W|exact W|apply IH, wf_set, W].
  Qed.
  Lemma wf_run l : forall h, wf h -> wf (fst (run_ops l h)).
  Proof.
    induction l as [|o l IH]; intros h W; [exact W|]. cbn [run_ops].
    assert (W1 : wf (fst (run_op o h))).
    { assert (C : forall p e x, wf (fst (create h p e x))).
      { intros p e x. unfold create. pose proof (wf_ensure (removelast p) h [] W) as X. destruct (ensure h [] (removelast p)) as [h1 [[]|]]; [|exact X]. cbn [fst] in X.
        destruct (hget h1 p); [exact X|]. cbn. apply wf_set, X. }
      destruct o as [p|p|p v|p n v|e]; cbn [run_op].
      - apply wf_ensure, W.
      - apply C.
      - destruct (to_data v); [apply C|exact W].
      - destruct (hget h p) as [[|]|], (to_attr v); cbn [fst]; try exact W. unfold set_attr. destruct (hget h p) as [[|]|]; try exact W. apply wf_set, W.
      - exact W. }
    destruct (run_op o h) as [h1 [[]|e]]; cbn [fst] in *; [apply IH, W1|exact W1].
  Qed.
  Lemma wf_save meta ops r st h x : wf (file_of st) -> save meta ops r st = (Some h, x) -> wf h.
  Proof.
    unfold save. change (match st with Some h => h | None => empty_file end) with (file_of st). intros W.
    match goal with |- context [run_ops ?l ?g] => pose proof (wf_run l g W) as X; destruct (run_ops l g) as [h1 y] end. intros H. injection H as <- _. exact X.
  Qed.
  Lemma children_NoDup h p : wf h -> NoDup (children h p).
  Proof.
    intros W. unfold children. apply ssort_NoDup. unfold wf, dkeys in W. induction h as [|[q e] h IH]; [constructor|]. cbn [map fst] in W. apply NoDup_cons_iff in W as [N W].
    cbn [flat_map fst]. destruct (under p q) as [[|n [|m t]]|] eqn:U; cbn [app]; auto. constructor; [|auto]. intros I. apply in_flat_map in I as ([q' e'] & I & J). cbn [fst] in J.
    destruct (under p q') as [[|n' [|]]|] eqn:U'; try (destruct J; fail). destruct J as [->|[]]. apply under_spec in U, U'. subst q q'. apply N. apply in_map_iff. exists (p ++ [n], e'). auto.
  Qed.
End L.
