(** HDF5 files: what sequences of writes leave behind. *)
From Verif Require Import Base SortLib StrLib FrameModel FrameLemmas FsModel ParamModel ParamFileModel KeyModel H5Model.
Open Scope list_scope.

Section L.
  Context {F : Type} {K : Fld F}.
  Implicit Types (h : hfile F) (p q r : path) (o : op F) (v w : pv F).

  Lemma hget_same h p e : hget (hset h p e) p = Some e.
  Proof. apply (dget_dset_same _ sl_eqb_spec). Qed.
  Lemma hget_other h p q e : p <> q -> hget (hset h p e) q = hget h q.
  Proof. apply (dget_dset_other _ sl_eqb_spec). Qed.
  Lemma hget_set h p q e : hget (hset h p e) q = if sl_eqb p q then Some e else hget h q.
  Proof. destruct (sl_eqb_spec p q) as [->|N]; [apply hget_same|apply hget_other, N]. Qed.

  (** What a file says, by kind. *)
  Definition dat h p : option (data F) := match hget h p with Some (ED d) => Some d | _ => None end.
  Definition grp h p : bool := match hget h p with Some (EG _) => true | _ => false end.
  Definition att h p (n : string) : option (attr F) :=
    match hget h p with Some (EG d) => dget String.eqb d n | _ => None end.

  Lemma ensure_spec todo : forall h done h' x, ensure h done todo = (h', x) ->
    (forall p, hget h' p = hget h p \/ (hget h p = None /\ hget h' p = Some (EG []) /\ exists s t, todo = s ++ t /\ s <> [] /\ p = done ++ s)) /\
    (x = Ok tt -> forall s t, todo = s ++ t -> s <> [] -> grp h' (done ++ s) = true).
  Proof.
    induction todo as [|a todo IH]; intros h done h' x H; cbn [ensure] in H.
    - injection H as <- <-. split; [auto|]. intros _ [|] t E; [congruence|discriminate].
    - destruct (hget h (done ++ [a])) as [[d|d]|] eqn:E.
      + destruct (IH _ _ _ _ H) as [A B]. split.
        * intros p. destruct (A p) as [X|(X & Y & s & t & -> & N & ->)]; [auto|]. right. split; [auto|]. split; [auto|].
          exists (a :: s), t. rewrite <- app_assoc. repeat split; auto; discriminate.
        * intros Ex s t Et N. destruct s as [|b s]; [congruence|]. cbn in Et. injection Et as <- Et.
          destruct s as [|c s].
          -- unfold grp. destruct (A (done ++ [a])) as [-> | (X & _)]; [rewrite E; reflexivity|congruence].
          -- specialize (B Ex (c :: s) t Et ltac:(discriminate)). rewrite <- app_assoc in B. exact B.
      + injection H as <- <-. split; [auto|discriminate].
      + destruct (IH _ _ _ _ H) as [A B]. split.
        * intros p. destruct (A p) as [X|(X & Y & s & t & -> & N & ->)].
          -- rewrite X, hget_set. destruct (sl_eqb_spec (done ++ [a]) p) as [<-|]; [|auto]. right. split; [exact E|]. split; [reflexivity|].
             exists [a], todo. repeat split; discriminate.
          -- right. rewrite hget_set in X. destruct (sl_eqb_spec (done ++ [a]) ((done ++ [a]) ++ s)); [discriminate|].
             split; [exact X|]. split; [exact Y|]. exists (a :: s), t. rewrite <- app_assoc. repeat split; auto; discriminate.
        * intros Ex s t Et N. destruct s as [|b s]; [congruence|]. cbn in Et. injection Et as <- Et.
          destruct s as [|c s].
          -- unfold grp. destruct (A (done ++ [a])) as [-> | (X & Y & _)]; [rewrite hget_same; reflexivity|rewrite Y; reflexivity].
          -- specialize (B Ex (c :: s) t Et ltac:(discriminate)). rewrite <- app_assoc in B. exact B.
  Qed.
  (** Where an operation may create something. *)
  Definition target o : option path := match o with OOpen p | OGroup p | OData p _ => Some p | _ => None end.
  Definition prefix p q : Prop := exists s, q = p ++ s.

  Lemma removelast_prefix p s t : removelast p = s ++ t -> prefix s p.
  Proof.
    intros E. destruct p as [|a p] using rev_ind; [destruct s; [exists []; reflexivity|discriminate]|]. rewrite removelast_last in E. subst p.
    exists (t ++ [a]). apply app_assoc_reverse.
  Qed.
  Lemma run_op_spec o h h' x : run_op o h = (h', x) ->
    (forall p, dat h' p = dat h p \/ (x = Ok tt /\ dat h p = None /\ exists v d, o = OData p v /\ to_data v = Ok d /\ dat h' p = Some d)) /\
    (forall p, grp h p = true -> grp h' p = true) /\
    (forall p, grp h' p = true -> grp h p = true \/ exists q, target o = Some q /\ prefix p q /\ (p = q -> forall v, o <> OData p v)) /\
    (forall p n, att h' p n = att h p n \/ (x = Ok tt /\ exists v a, o = OAttr p n v /\ to_attr v = Ok a /\ att h' p n = Some a)).
  Proof.
    assert (EN : forall h done todo h' x, ensure h done todo = (h', x) -> forall q, hget h' q = hget h q \/ (dat h q = None /\ dat h' q = None /\ grp h' q = true /\ (forall n, att h' q n = att h q n))).
    { intros h0 dn td h1 y E q. destruct (proj1 (ensure_spec _ _ _ _ _ E) q) as [X|(X & Y & _)]; [auto|]. right. unfold dat, grp, att. rewrite X, Y. auto. }
    intros H. destruct o as [p|p|p v|p n v|e]; cbn [run_op] in H.
    - pose proof (EN _ _ _ _ _ H) as E. destruct (ensure_spec _ _ _ _ _ H) as [A _]. repeat split.
      + intros q. left. destruct (E q) as [X|(X & Y & _)]; [unfold dat; rewrite X; reflexivity|congruence].
      + intros q G. destruct (E q) as [X|(_ & _ & X & _)]; [unfold grp in *; rewrite X; exact G|exact X].
      + intros q G. destruct (A q) as [X|(_ & _ & s & t & -> & _ & ->)]; [left; unfold grp in *; rewrite <- X; exact G|].
        right. exists (s ++ t). split; [reflexivity|]. split; [exists t; reflexivity|discriminate].
      + intros q n. left. destruct (E q) as [X|(_ & _ & _ & X)]; [unfold att; rewrite X; reflexivity|apply X].
    - unfold create in H. destruct (ensure h [] (removelast p)) as [h1 [[]|e1]] eqn:E1.
      + pose proof (EN _ _ _ _ _ E1) as E. destruct (ensure_spec _ _ _ _ _ E1) as [A _].
        destruct (hget h1 p) as [en|] eqn:Ep; injection H as <- <-.
        * repeat split.
          -- intros q. left. destruct (E q) as [X|(X & Y & _)]; [unfold dat; rewrite X; reflexivity|congruence].
          -- intros q G. destruct (E q) as [X|(_ & _ & X & _)]; [unfold grp in *; rewrite X; exact G|exact X].
          -- intros q G. destruct (A q) as [X|(_ & _ & s & t & Es & _ & ->)]; [left; unfold grp in *; rewrite <- X; exact G|].
             right. exists p. split; [reflexivity|]. split; [eapply removelast_prefix, Es|discriminate].
          -- intros q n. left. destruct (E q) as [X|(_ & _ & _ & X)]; [unfold att; rewrite X; reflexivity|apply X].
        * assert (Hp : hget h p = None) by (destruct (A p) as [X|(X & _)]; congruence).
          repeat split.
          -- intros q. left. unfold dat at 1. rewrite hget_set. destruct (sl_eqb_spec p q) as [<-|]; [unfold dat; rewrite Hp; reflexivity|].
             change (dat h1 q = dat h q). destruct (E q) as [X|(X & Y & _)]; [unfold dat; rewrite X; reflexivity|congruence].
          -- intros q G. unfold grp. rewrite hget_set. destruct (sl_eqb_spec p q); [reflexivity|]. change (grp h1 q = true).
             destruct (E q) as [X|(_ & _ & X & _)]; [unfold grp in *; rewrite X; exact G|exact X].
          -- intros q G. unfold grp in G. rewrite hget_set in G. destruct (sl_eqb_spec p q) as [E0|E0]; [rewrite <- E0|].
             ++ right. exists p. split; [reflexivity|]. split; [exists []; rewrite app_nil_r; reflexivity|discriminate].
             ++ destruct (A q) as [X|(_ & _ & s & t & Es & _ & ->)]; [left; unfold grp; rewrite <- X; exact G|].
                right. exists p. split; [reflexivity|]. split; [eapply removelast_prefix, Es|discriminate].
          -- intros q n. left. unfold att at 1. rewrite hget_set. destruct (sl_eqb_spec p q) as [<-|]; [unfold att; rewrite Hp; reflexivity|].
             change (att h1 q n = att h q n). destruct (E q) as [X|(_ & _ & _ & X)]; [unfold att; rewrite X; reflexivity|apply X].
      + injection H as <- <-. pose proof (EN _ _ _ _ _ E1) as E. destruct (ensure_spec _ _ _ _ _ E1) as [A _]. repeat split.
        * intros q. left. destruct (E q) as [X|(X & Y & _)]; [unfold dat; rewrite X; reflexivity|congruence].
        * intros q G. destruct (E q) as [X|(_ & _ & X & _)]; [unfold grp in *; rewrite X; exact G|exact X].
        * intros q G. destruct (A q) as [X|(_ & _ & s & t & Es & _ & ->)]; [left; unfold grp in *; rewrite <- X; exact G|].
          right. exists p. split; [reflexivity|]. split; [eapply removelast_prefix, Es|discriminate].
        * intros q n. left. destruct (E q) as [X|(_ & _ & _ & X)]; [unfold att; rewrite X; reflexivity|apply X].
    - destruct (to_data v) as [d|e] eqn:Ev; [|injection H as <- <-; repeat split; auto].
      unfold create in H. destruct (ensure h [] (removelast p)) as [h1 [[]|e1]] eqn:E1.
      + pose proof (EN _ _ _ _ _ E1) as E. destruct (ensure_spec _ _ _ _ _ E1) as [A _].
        assert (PR : forall q, grp h1 q = true -> grp h q = true \/ exists q', Some p = Some q' /\ prefix q q' /\ (q = q' -> forall w, OData p v <> OData q w)).
        { intros q G. destruct (A q) as [X|(_ & _ & s & t & Es & N & ->)]; [left; unfold grp in *; rewrite <- X; exact G|].
          right. exists p. split; [reflexivity|]. split; [eapply removelast_prefix, Es|]. cbn [app]. intros -> w. exfalso.
          assert (L : length (removelast p) = pred (length p)).
          { clear. destruct p as [|a p0] using rev_ind; [reflexivity|]. rewrite removelast_last, app_length. cbn. lia. }
          apply (f_equal (@length string)) in Es. rewrite app_length in Es. destruct p; [congruence|]. cbn [length] in *. lia. }
        destruct (hget h1 p) as [en|] eqn:Ep; injection H as <- <-.
        * repeat split.
          -- intros q. left. destruct (E q) as [X|(X & Y & _)]; [unfold dat; rewrite X; reflexivity|congruence].
          -- intros q G. destruct (E q) as [X|(_ & _ & X & _)]; [unfold grp in *; rewrite X; exact G|exact X].
          -- exact PR.
          -- intros q n. left. destruct (E q) as [X|(_ & _ & _ & X)]; [unfold att; rewrite X; reflexivity|apply X].
        * assert (Hp : hget h p = None) by (destruct (A p) as [X|(X & _)]; congruence).
          repeat split.
          -- intros q. unfold dat at 1 4. rewrite hget_set. destruct (sl_eqb_spec p q) as [<-|].
             ++ right. split; [reflexivity|]. split; [unfold dat; rewrite Hp; reflexivity|]. eauto.
             ++ left. change (dat h1 q = dat h q). destruct (E q) as [X|(X & Y & _)]; [unfold dat; rewrite X; reflexivity|congruence].
          -- intros q G. unfold grp. rewrite hget_set. destruct (sl_eqb_spec p q) as [E0|E0]; [unfold grp in G; rewrite <- E0, Hp in G; discriminate G|]. change (grp h1 q = true).
             destruct (E q) as [X|(_ & _ & X & _)]; [unfold grp in *; rewrite X; exact G|exact X].
          -- intros q G. unfold grp in G. rewrite hget_set in G. destruct (sl_eqb_spec p q) as [E0|E0]; [discriminate G|]. apply PR. exact G.
          -- intros q n. left. unfold att at 1. rewrite hget_set. destruct (sl_eqb_spec p q) as [<-|]; [unfold att; rewrite Hp; reflexivity|].
             change (att h1 q n = att h q n). destruct (E q) as [X|(_ & _ & _ & X)]; [unfold att; rewrite X; reflexivity|apply X].
      + injection H as <- <-. pose proof (EN _ _ _ _ _ E1) as E. destruct (ensure_spec _ _ _ _ _ E1) as [A _]. repeat split.
        * intros q. left. destruct (E q) as [X|(X & Y & _)]; [unfold dat; rewrite X; reflexivity|congruence].
        * intros q G. destruct (E q) as [X|(_ & _ & X & _)]; [unfold grp in *; rewrite X; exact G|exact X].
        * intros q G. destruct (A q) as [X|(_ & _ & s & t & Es & N & ->)]; [left; unfold grp in *; rewrite <- X; exact G|].
          right. exists p. split; [reflexivity|]. split; [eapply removelast_prefix, Es|]. cbn [app]. intros -> w. exfalso.
          assert (L : length (removelast p) = pred (length p)).
          { clear. destruct p as [|a p0] using rev_ind; [reflexivity|]. rewrite removelast_last, app_length. cbn. lia. }
          apply (f_equal (@length string)) in Es. rewrite app_length in Es. destruct p; [congruence|]. cbn [length] in *. lia.
        * intros q n. left. destruct (E q) as [X|(_ & _ & _ & X)]; [unfold att; rewrite X; reflexivity|apply X].
    - destruct (hget h p) as [[d|d]|] eqn:Ep; destruct (to_attr v) as [a|e] eqn:Ea; injection H as <- <-; repeat split; auto.
      + intros q. left. unfold set_attr. rewrite Ep. unfold dat. rewrite hget_set. destruct (sl_eqb_spec p q) as [<-|]; [rewrite Ep|]; reflexivity.
      + intros q G. unfold set_attr. rewrite Ep. unfold grp. rewrite hget_set. destruct (sl_eqb_spec p q); [reflexivity|exact G].
      + intros q G. left. unfold set_attr in G. rewrite Ep in G. unfold grp in *. rewrite hget_set in G. destruct (sl_eqb_spec p q) as [E0|E0]; [rewrite <- E0, Ep; reflexivity|exact G].
      + intros q m. unfold set_attr. rewrite Ep. unfold att. rewrite hget_set. destruct (sl_eqb_spec p q) as [<-|]; [|auto]. rewrite Ep.
        destruct (String.eqb_spec n m) as [<-|N]; [right; split; [reflexivity|]; exists v, a; rewrite (dget_dset_same _ String.eqb_spec); auto|].
        left. apply (dget_dset_other _ String.eqb_spec), N.
    - injection H as <- <-. repeat split; auto.
  Qed.
  Lemma dat_grp h p : grp h p = true -> dat h p = None.
  Proof. unfold grp, dat. destruct (hget h p) as [[|]|]; congruence. Qed.

  (** Success of single operations. *)
  Lemma run_data_ok p v h h' x : run_op (OData p v) h = (h', Ok x) -> exists d, to_data v = Ok d /\ dat h' p = Some d.
  Proof.
    cbn [run_op]. destruct (to_data v) as [d|] eqn:E; [|discriminate]. unfold create. destruct (ensure h [] (removelast p)) as [h1 [[]|]]; [|discriminate].
    destruct (hget h1 p); [discriminate|]. intros H. injection H as <- _. exists d. split; [reflexivity|]. unfold dat. rewrite hget_same. reflexivity.
  Qed.
  Lemma run_group_ok p h h' x : run_op (OGroup p) h = (h', Ok x) -> grp h' p = true.
  Proof.
    cbn [run_op]. unfold create. destruct (ensure h [] (removelast p)) as [h1 [[]|]]; [|discriminate].
    destruct (hget h1 p); [discriminate|]. intros H. injection H as <- _. unfold grp. rewrite hget_same. reflexivity.
  Qed.
  Lemma run_attr_ok p n v h h' x : run_op (OAttr p n v) h = (h', Ok x) -> exists a, to_attr v = Ok a /\ att h' p n = Some a.
  Proof.
    cbn [run_op]. destruct (hget h p) as [[d|d]|] eqn:E; destruct (to_attr v) as [a|]; try discriminate. intros H. injection H as <- _.
    exists a. split; [reflexivity|]. unfold set_attr. rewrite E. unfold att. rewrite hget_same. apply (dget_dset_same _ String.eqb_spec).
  Qed.
  Lemma run_open_ok p h h' x : p <> [] -> run_op (OOpen p) h = (h', Ok x) -> grp h' p = true.
  Proof. intros N H. destruct x. apply (proj2 (ensure_spec _ _ _ _ _ H) eq_refl p []); [rewrite app_nil_r; reflexivity|exact N]. Qed.
  (** A new member is refused when the path is taken. *)
  Lemma run_taken o h h' x p : target o = Some p -> (forall q, o <> OOpen q) -> hget h p <> None -> run_op o h = (h', x) -> exists e, x = Err e.
  Proof.
    assert (C : forall e y, hget h p <> None -> create h p e y = (h', x) -> exists e', x = Err e').
    { intros e y N. unfold create. destruct (ensure h [] (removelast p)) as [h1 [[]|]] eqn:E; [|intros H; injection H as _ <-; eauto].
      destruct (proj1 (ensure_spec _ _ _ _ _ E) p) as [X|(X & _)]; [|congruence]. rewrite X.
      destruct (hget h p); [|congruence]. intros H. injection H as _ <-. eauto. }
    destruct o as [q|q|q v|q n v|e]; cbn [target]; intros T NO N H; try discriminate T; injection T as ->.
    - edestruct NO; reflexivity.
    - eapply C; [exact N|exact H].
    - cbn [run_op] in H. destruct (to_data v) as [d|e]; [eapply C; [exact N|exact H]|injection H as _ <-; eauto].
  Qed.

  (** ** Sequences *)
  Lemma run_app l m h : run_ops (l ++ m) h = match run_ops l h with (h1, Ok _) => run_ops m h1 | (h1, Err e) => (h1, Err e) end.
  Proof. revert h. induction l as [|o l IH]; intros h; cbn; [reflexivity|]. destruct (run_op o h) as [h1 [[]|e]]; [apply IH|reflexivity]. Qed.
  Lemma run_ops_cons o l h h' x : run_ops (o :: l) h = (h', x) ->
    (exists h1, run_op o h = (h1, Ok tt) /\ run_ops l h1 = (h', x)) \/ (exists e, run_op o h = (h', Err e) /\ x = Err e).
  Proof. cbn. destruct (run_op o h) as [h1 [[]|e]] eqn:E; intros H; [left; eauto|]. injection H as <- <-. right; eauto. Qed.
  Lemma dat_kept l : forall h h' x p d, run_ops l h = (h', x) -> dat h p = Some d -> dat h' p = Some d.
  Proof.
    induction l as [|o l IH]; intros h h' x p d H D; [injection H as <- _; exact D|].
    apply run_ops_cons in H as [(h1 & E & H)|(e & E & _)]; destruct (proj1 (run_op_spec _ _ _ _ E) p) as [X|(_ & X & _)]; try congruence.
    eapply IH; [exact H|congruence].
  Qed.
  Lemma grp_kept l : forall h h' x p, run_ops l h = (h', x) -> grp h p = true -> grp h' p = true.
  Proof.
    induction l as [|o l IH]; intros h h' x p H G; [injection H as <- _; exact G|].
    apply run_ops_cons in H as [(h1 & E & H)|(e & E & _)]; pose proof (proj1 (proj2 (run_op_spec _ _ _ _ E)) p G) as G1; [|exact G1].
    eapply IH; eassumption.
  Qed.
  Lemma dat_new l : forall h h' x p, run_ops l h = (h', x) -> dat h' p = dat h p \/ exists v d, In (OData p v) l /\ to_data v = Ok d /\ dat h' p = Some d.
  Proof.
    induction l as [|o l IH]; intros h h' x p H; [injection H as <- _; auto|].
    apply run_ops_cons in H as [(h1 & E & H)|(e & E & _)].
    - destruct (proj1 (run_op_spec _ _ _ _ E) p) as [X|(_ & _ & v & d & -> & T & D)].
      + destruct (IH _ _ _ p H) as [Y|(v & d & I & T & D)]; [left; congruence|]. right. exists v, d. split; [right; exact I|auto].
      + right. exists v, d. split; [left; reflexivity|]. split; [exact T|]. eapply dat_kept; eassumption.
    - destruct (proj1 (run_op_spec _ _ _ _ E) p) as [X|(X & _)]; [auto|discriminate].
  Qed.
  Lemma dat_made l : forall h h' x p v, run_ops l h = (h', Ok x) -> In (OData p v) l -> exists d, to_data v = Ok d /\ dat h' p = Some d.
  Proof.
    induction l as [|o l IH]; intros h h' x p v H I; [destruct I|].
    apply run_ops_cons in H as [(h1 & E & H)|(e & _ & X)]; [|discriminate]. destruct I as [->|I]; [|eapply IH; eassumption].
    destruct (run_data_ok _ _ _ _ _ E) as (d & T & D). exists d. split; [exact T|]. eapply dat_kept; eassumption.
  Qed.
  Lemma grp_made l : forall h h' x p, run_ops l h = (h', Ok x) -> In (OGroup p) l -> grp h' p = true.
  Proof.
    induction l as [|o l IH]; intros h h' x p H I; [destruct I|].
    apply run_ops_cons in H as [(h1 & E & H)|(e & _ & X)]; [|discriminate]. destruct I as [->|I]; [|eapply IH; eassumption].
    apply run_group_ok in E. eapply grp_kept; eassumption.
  Qed.
  Lemma grp_open l : forall h h' x p, p <> [] -> run_ops l h = (h', Ok x) -> In (OOpen p) l -> grp h' p = true.
  Proof.
    induction l as [|o l IH]; intros h h' x p N H I; [destruct I|].
    apply run_ops_cons in H as [(h1 & E & H)|(e & _ & X)]; [|discriminate]. destruct I as [->|I]; [|eapply IH; eassumption].
    apply run_open_ok in E; [|exact N]. eapply grp_kept; eassumption.
  Qed.
  Lemma grp_new l : forall h h' x p, run_ops l h = (h', x) -> grp h' p = true ->
    grp h p = true \/ exists o q, In o l /\ target o = Some q /\ prefix p q /\ (p = q -> forall v, o <> OData p v).
  Proof.
    induction l as [|o l IH]; intros h h' x p H G; [injection H as <- _; auto|].
    apply run_ops_cons in H as [(h1 & E & H)|(e & E & _)].
    - destruct (IH _ _ _ p H G) as [G1|(o' & q & I & T)].
      + destruct (proj1 (proj2 (proj2 (run_op_spec _ _ _ _ E))) p G1) as [G0|(q & T)]; [auto|]. right. exists o, q. split; [left; reflexivity|exact T].
      + right. exists o', q. split; [right; exact I|exact T].
    - destruct (proj1 (proj2 (proj2 (run_op_spec _ _ _ _ E))) p G) as [G0|(q & T)]; [auto|]. right. exists o, q. split; [left; reflexivity|exact T].
  Qed.
  Lemma att_other l : forall h h' x p n, run_ops l h = (h', x) -> (forall v, ~ In (OAttr p n v) l) -> att h' p n = att h p n.
  Proof.
    induction l as [|o l IH]; intros h h' x p n H N; [injection H as <- _; reflexivity|].
    assert (N1 : forall v, ~ In (OAttr p n v) l) by (intros v X; apply (N v); right; exact X).
    apply run_ops_cons in H as [(h1 & E & H)|(e & E & _)];
      destruct (proj2 (proj2 (proj2 (run_op_spec _ _ _ _ E))) p n) as [X|(_ & v & a & -> & _)].
    - rewrite (IH _ _ _ _ _ H N1). exact X.
    - destruct (N v). left. reflexivity.
    - exact X.
    - destruct (N v). left. reflexivity.
  Qed.
  (** The attribute written last. *)
  Lemma att_made l : forall h h' x p n v, run_ops l h = (h', Ok x) -> In (OAttr p n v) l -> (forall w, In (OAttr p n w) l -> w = v) ->
    exists a, to_attr v = Ok a /\ att h' p n = Some a.
  Proof.
    induction l as [|o l IH]; intros h h' x p n v H I U; [destruct I|].
    apply run_ops_cons in H as [(h1 & E & H)|(e & _ & X)]; [|discriminate].
    assert (U1 : forall w, In (OAttr p n w) l -> w = v) by (intros w X; apply U; right; exact X).
    assert (D : (exists w, In (OAttr p n w) l) \/ forall w, ~ In (OAttr p n w) l).
    { clear -K. induction l as [|y l IHl]; [right; auto|]. destruct IHl as [(w & I)|N]; [left; exists w; right; exact I|].
      destruct y as [q|q|q u|q m u|e]; try (right; intros w [X|X]; [discriminate X|exact (N w X)]).
      destruct (sl_eqb_spec q p) as [->|Nq]; [|right; intros w [X|X]; [congruence|exact (N w X)]].
      destruct (String.eqb_spec m n) as [->|Nm]; [|right; intros w [X|X]; [congruence|exact (N w X)]]. left. exists u. left. reflexivity. }
    destruct D as [(w & Iw)|N].
    - assert (w = v) by (apply U1, Iw). subst w. eapply IH; eassumption.
    - destruct I as [->|I]; [|destruct (N v I)]. destruct (run_attr_ok _ _ _ _ _ _ E) as (a & T & A). exists a. split; [exact T|].
      rewrite (att_other _ _ _ _ _ _ H N). exact A.
  Qed.
End L.
