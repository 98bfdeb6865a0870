(** HDF5 files: reading back what a save wrote. *)
From Verif Require Import Base SortLib StrLib FrameModel FrameLemmas FsModel ParamModel ParamFileModel KeyModel H5Model H5Lemmas.
Open Scope list_scope.

Section L.
  Context {F : Type} {K : Fld F}.
  Implicit Types (h : hfile F) (p q r : path) (v w : pv F) (o : obj F).

  Lemma of_to_data v d : to_data v = Ok d -> of_data d = v.
  Proof. destruct v; cbn; intros H; try discriminate; injection H as <-; reflexivity. Qed.
  Lemma of_to_attr v a : to_attr v = Ok a -> of_attr a = v.
  Proof. destruct v; cbn; intros H; try discriminate; injection H as <-; reflexivity. Qed.

  (** ** Attributes of objects *)
  Lemma getattr_set o n m v : getattr (setattr o n v) m = if String.eqb n m then v else getattr o m.
  Proof.
    unfold getattr, setattr. destruct (String.eqb_spec n m) as [->|N]; [rewrite (dget_dset_same _ String.eqb_spec); reflexivity|].
    rewrite (dget_dset_other _ String.eqb_spec) by exact N. reflexivity.
  Qed.
  Definition has_attr o n : Prop := dget String.eqb o n <> None.
  Lemma has_attr_set o n m v : has_attr o m -> has_attr (setattr o n v) m.
  Proof.
    unfold has_attr, setattr. destruct (String.eqb_spec n m) as [->|N]; [rewrite (dget_dset_same _ String.eqb_spec); discriminate|].
    rewrite (dget_dset_other _ String.eqb_spec) by exact N. auto.
  Qed.
  Lemma has_attr_get o n : has_attr o n -> dget String.eqb o n = Some (getattr o n).
  Proof. unfold has_attr, getattr. destruct (dget String.eqb o n); congruence. Qed.
  Lemma has_attr_keys o n : In n (dkeys o) -> has_attr o n.
  Proof. intros H E. apply (dget_None _ String.eqb_spec) in E. exact (E H). Qed.

  (** ** Members of groups *)
  Lemma under_spec p q s : under p q = Some s <-> q = p ++ s.
  Proof.
    revert q. induction p as [|a p IH]; intros q; cbn; [split; congruence|]. destruct q as [|b q]; [split; discriminate|].
    destruct (String.eqb_spec a b) as [->|N]; [rewrite IH; split; [intros ->; reflexivity|intros E; injection E as E; exact E]|split; [discriminate|congruence]].
  Qed.
  Lemma children_In h p n : In n (children h p) <-> hget h (p ++ [n]) <> None.
  Proof.
    unfold children, ssort. rewrite isort_In. rewrite in_flat_map. unfold hget. split.
    - intros ([q e] & I & J) E. cbn in J. destruct (under p q) as [[|m [|]]|] eqn:U; try contradiction. destruct J as [->|[]].
      apply under_spec in U. subst q. apply (dget_None _ sl_eqb_spec) in E. apply E. apply in_map_iff. exists (p ++ [n], e). auto.
    - intros H. destruct (dget sl_eqb h (p ++ [n])) as [e|] eqn:E; [|congruence]. apply (dget_In _ sl_eqb_spec) in E. exists (p ++ [n], e).
      split; [exact E|]. cbn. rewrite (proj2 (under_spec p (p ++ [n]) [n]) eq_refl). left. reflexivity.
  Qed.
  Lemma dat_hget h p d : dat h p = Some d <-> hget h p = Some (ED d).
  Proof. unfold dat. destruct (hget h p) as [[|]|]; split; congruence. Qed.
  Lemma populate_get h p o n : getattr (populate h p o) n = match dat h (p ++ [n]) with Some d => of_data d | None => getattr o n end.
  Proof.
    assert (G : forall l o, getattr (fold_left (fun o n => match hget h (p ++ [n]) with Some (ED d) => setattr o n (of_data d) | _ => o end) l o) n =
       match dat h (p ++ [n]) with Some d => if smem n l then of_data d else getattr o n | None => getattr o n end).
    { induction l as [|m l IH]; intros o0; cbn [fold_left]; [destruct (dat h (p ++ [n])); reflexivity|]. rewrite IH. change (smem n (m :: l)) with (String.eqb n m || smem n l).
      destruct (String.eqb_spec n m) as [->|N].
      - cbn [orb]. unfold dat. destruct (hget h (p ++ [m])) as [[a|d]|]; try reflexivity. rewrite getattr_set, String.eqb_refl. destruct (smem m l); reflexivity.
      - cbn [orb]. destruct (hget h (p ++ [m])) as [[a|d]|]; try reflexivity. rewrite getattr_set. destruct (String.eqb_spec m n); [congruence|reflexivity]. }
    unfold populate. rewrite G. destruct (dat h (p ++ [n])) as [d|] eqn:D; [|reflexivity].
    assert (I : smem n (children h p) = true) by (apply smem_In, children_In; apply dat_hget in D; congruence). rewrite I. reflexivity.
  Qed.
  Lemma populate_has h p o n : has_attr o n -> has_attr (populate h p o) n.
  Proof.
    unfold populate. generalize (children h p). intros l. revert o. induction l as [|m l IH]; intros o H; cbn [fold_left]; [exact H|]. apply IH.
    destruct (hget h (p ++ [m])) as [[a|d]|]; try exact H. apply has_attr_set, H.
  Qed.
  Lemma rd_nums_get h p (d : dict string F) : grp h p = true ->
    (forall n, hget h (p ++ [n]) = match dget String.eqb d n with Some x => Some (ED (HNum x)) | None => None end) ->
    exists d', rd_nums h p = Ok d' /\ NoDup (dkeys d') /\ forall n, dget String.eqb d' n = dget String.eqb d n.
  Proof.
    intros G H. unfold grp in G. unfold rd_nums. destruct (hget h p) as [[a|]|]; try discriminate G.
    assert (X : forall l acc, (forall n, In n l -> hget h (p ++ [n]) <> None) -> NoDup (dkeys acc) ->
       exists d', fold_left (fun (acc : res (dict string F)) n => d <- acc ;;
          match hget h (p ++ [n]) with Some (ED (HNum x)) => Ok (dset String.eqb d n x) | _ => Err ETypeError end) l (Ok acc) = Ok d' /\
        NoDup (dkeys d') /\ forall n, dget String.eqb d' n = if smem n l then dget String.eqb d n else dget String.eqb acc n).
    { induction l as [|m l IH]; intros acc I N; cbn [fold_left]; [exists acc; cbn; auto|].
      cbn [rbind]. assert (Im := I m (or_introl eq_refl)). rewrite H in Im |- *. destruct (dget String.eqb d m) as [x|] eqn:D; [|congruence].
      destruct (IH (dset String.eqb acc m x)) as (d' & E & N' & Q); [intros n Hn; apply I; right; exact Hn|apply (NoDup_dset _ String.eqb_spec), N|].
      exists d'. split; [exact E|]. split; [exact N'|]. intros n. rewrite Q. change (smem n (m :: l)) with (String.eqb n m || smem n l). destruct (String.eqb_spec n m) as [->|Nn]; cbn [orb].
      - rewrite D, (dget_dset_same _ String.eqb_spec). destruct (smem m l); reflexivity.
      - rewrite (dget_dset_other _ String.eqb_spec) by congruence. reflexivity. }
    destruct (X (children h p) []) as (d' & E & N & Q); [intros n; apply children_In|constructor|].
    exists d'. split; [exact E|]. split; [exact N|]. intros n. rewrite Q. destruct (smem n (children h p)) eqn:S; [reflexivity|].
    cbn. destruct (dget String.eqb d n) as [x|] eqn:D; [|reflexivity]. exfalso.
    assert (Y : In n (children h p)) by (apply children_In; rewrite H, D; discriminate). apply smem_In in Y. congruence.
  Qed.

  (** ** Comparison *)
  Definition self_equal v : Prop := veq v v = Ok true.
  Lemma xeq_refl (x : option F) : xeq x x = true <-> x <> None.
  Proof. destruct x as [x|]; cbn; [|split; congruence]. destruct (fdec x x); [split; congruence|congruence]. Qed.
  Lemma arr_self a : self_equal (VArr a) <-> ~ In None (items a).
  Proof.
    unfold self_equal. cbn [veq]. unfold arr_eq. destruct (list_eq_dec Nat.eq_dec (shape a) (shape a)); [|congruence]. rewrite Nat.eqb_refl. cbn [andb].
    assert (E : forallb (fun xy : option F * option F => xeq (fst xy) (snd xy)) (combine (items a) (items a)) = true <-> ~ In None (items a)).
    { induction (items a) as [|x l IH]; cbn; [tauto|]. rewrite andb_true_iff, IH, xeq_refl. split; [intros [A B] [C|C]; [congruence|tauto]|intros H; split; [intros ->; apply H; auto|tauto]]. }
    rewrite <- E. destruct (forallb _ _); split; congruence.
  Qed.
  Definition same_dict (d e : dict string F) : Prop := forall n, dget String.eqb d n = dget String.eqb e n.
  Lemma same_dict_length (d e : dict string F) : NoDup (dkeys d) -> NoDup (dkeys e) -> same_dict d e -> length d = length e.
  Proof.
    intros N M H. assert (G : forall d e : dict string F, NoDup (dkeys d) -> same_dict d e -> length d <= length e).
    { clear. intros d e N H. rewrite <- (map_length fst d), <- (map_length fst e). apply NoDup_incl_length; [exact N|].
      intros n I. destruct (in_dec string_dec n (map fst e)) as [J|J]; [exact J|]. exfalso. apply (dget_None _ String.eqb_spec) in J.
      rewrite <- H in J. apply (dget_None _ String.eqb_spec) in J. exact (J I). }
    apply Nat.le_antisymm; apply G; auto. intros n. symmetry. apply H.
  Qed.
  Lemma nums_same (d e : dict string F) : NoDup (dkeys d) -> NoDup (dkeys e) -> same_dict d e -> nums_eq d e = true.
  Proof.
    intros N M H. unfold nums_eq. rewrite (same_dict_length d e N M H), Nat.eqb_refl. cbn [andb]. apply forallb_forall. intros [k x] I. cbn.
    rewrite <- H, (@dget_NoDup_In _ _ String.eqb String.eqb_spec _ _ _ N I). destruct (fdec x x); congruence.
  Qed.
  Lemma rmapM_all {A} (f : A -> res bool) l : (c <- rmapM f l ;; Ok (all_ok c)) = Ok true <-> forall x, In x l -> f x = Ok true.
  Proof.
    induction l as [|x l IH]; cbn; [split; [intros _ y []|reflexivity]|]. destruct (f x) as [b|] eqn:E; cbn.
    - destruct (rmapM f l) as [c|] eqn:R; cbn in *.
      + split.
        * intros H. assert (b = true /\ all_ok c = true) as [-> C] by (injection H as H; apply andb_true_iff; exact H).
          intros y [<-|Hy]; [exact E|]. apply IH; [rewrite C; reflexivity|exact Hy].
        * intros H. rewrite (H x (or_introl eq_refl)) in E. injection E as <-. apply IH. intros y Hy. apply H. right. exact Hy.
      + split; [discriminate|]. intros H. apply IH. intros y Hy. apply H. right. exact Hy.
    - split; [discriminate|]. intros H. specialize (H x (or_introl eq_refl)). congruence.
  Qed.
  Lemma compare_iff o o' ex : NoDup (dkeys o) -> (forall n, In n (dkeys o) -> has_attr o' n) ->
    (compare_objects o o' ex = Ok true <-> forall n, In n (dkeys o) -> ~ In n ex -> veq (getattr o n) (getattr o' n) = Ok true).
  Proof.
    intros N H. unfold compare_objects. rewrite rmapM_all. split.
    - intros A n I X. destruct (dget String.eqb o n) as [v|] eqn:E; [|apply (dget_None _ String.eqb_spec) in E; contradiction].
      assert (J : In (n, v) (filter (fun kv => negb (smem (fst kv) ex)) o)).
      { apply filter_In. split; [apply (dget_In _ String.eqb_spec), E|]. cbn. apply negb_true_iff. destruct (smem n ex) eqn:S; [|reflexivity]. apply smem_In in S. contradiction. }
      specialize (A _ J). cbn in A. rewrite (has_attr_get _ _ (H n I)) in A. unfold getattr at 1. rewrite E. exact A.
    - intros A [n v] J. apply filter_In in J as [J S]. cbn in *. assert (I : In n (dkeys o)) by (apply in_map_iff; exists (n, v); auto).
      rewrite (has_attr_get _ _ (H n I)). specialize (A n I). unfold getattr at 1 in A. rewrite (@dget_NoDup_In _ _ String.eqb String.eqb_spec _ _ _ N J) in A.
      apply A. intros X. apply smem_In in X. rewrite X in S. discriminate S.
  Qed.
  Lemma compare_attrs_iff names o o' : compare_attrs names o o' = Ok true <-> forall n, In n names -> veq (getattr o n) (getattr o' n) = Ok true.
  Proof. apply rmapM_all. Qed.

  (** ** Saving to a free place *)
  Definition file_of (st : option (hfile F)) : hfile F := match st with Some h => h | None => empty_file end.
  (** Nothing is stored below [r]. *)
  Definition free r (st : option (hfile F)) : Prop := forall s, s <> [] -> hget (file_of st) (r ++ s) = None.
  Lemma free_new r : free r None.
  Proof. intros s N. cbn. unfold hget, empty_file. cbn. destruct r as [|a r]; [destruct s; [congruence|reflexivity]|reflexivity]. Qed.

  Section Saved.
    Context (meta : string * string) (ops : path -> list (op F)) r st h (FR : free r st) (SV : save meta ops r st = (Some h, Ok tt)).
    Let new := match st with Some _ => false | None => true end.
    Lemma saved_run : run_ops (open_ops meta r new ++ ops r) (file_of st) = (h, Ok tt).
    Proof. unfold save in SV. fold new in SV. change (match st with Some h => h | None => empty_file end) with (file_of st) in SV. destruct (run_ops _ _) as [h1 x]. congruence. Qed.
    Lemma open_no_data p v : ~ In (OData p v) (open_ops meta r new).
    Proof. intros [X|X]; [discriminate X|]. destruct (is_root r); [|destruct X]. apply in_map_iff in X as (y & X & _). discriminate X. Qed.
    Lemma saved_dat s v : In (OData (r ++ s) v) (ops r) -> exists d, to_data v = Ok d /\ dat h (r ++ s) = Some d.
    Proof. intros I. eapply dat_made; [apply saved_run|]. apply in_or_app. right. exact I. Qed.
    Lemma saved_data s v : In (OData (r ++ s) v) (ops r) -> rd_data h (r ++ s) = Ok v /\ present h (r ++ s) = true.
    Proof.
      intros I. destruct (saved_dat s v I) as (d & T & D). apply dat_hget in D. unfold rd_data, present. rewrite D, (of_to_data v d T). auto.
    Qed.
    Lemma saved_no_dat s : s <> [] -> (forall v, ~ In (OData (r ++ s) v) (ops r)) -> dat h (r ++ s) = None.
    Proof.
      intros N A. destruct (dat_new _ _ _ _ (r ++ s) saved_run) as [E|(v & d & I & _)]; [rewrite E; unfold dat; rewrite (FR s N); reflexivity|].
      exfalso. apply in_app_or in I as [I|I]; [exact (open_no_data _ _ I)|exact (A v I)].
    Qed.
    Lemma saved_absent s : s <> [] -> (forall (o : op F) q, In o (ops r) -> target o = Some q -> ~ prefix (r ++ s) q) -> hget h (r ++ s) = None.
    Proof.
      intros N A. assert (D : dat h (r ++ s) = None) by (apply saved_no_dat; [exact N|]; intros v I; eapply A; [exact I|reflexivity|exists []; rewrite app_nil_r; reflexivity]).
      destruct (grp h (r ++ s)) eqn:G; [|unfold dat, grp in *; destruct (hget h (r ++ s)) as [[|]|]; congruence].
      exfalso. destruct (grp_new _ _ _ _ _ saved_run G) as [G0|(o & q & I & T & P & _)]; [unfold grp in G0; rewrite (FR s N) in G0; discriminate G0|].
      apply in_app_or in I as [I|I]; [|exact (A o q I T P)]. destruct I as [<-|I].
      - injection T as <-. destruct P as (t & E). rewrite <- app_assoc in E. rewrite <- (app_nil_r r) in E at 1. apply app_inv_head in E. destruct s; [congruence|discriminate E].
      - destruct (is_root r); [|destruct I]. apply in_map_iff in I as (y & <- & _). discriminate T.
    Qed.
    Lemma saved_no_grp s : s <> [] -> (forall (o : op F) q, In o (ops r) -> target o = Some q -> prefix (r ++ s) q -> exists v, o = OData (r ++ s) v) -> grp h (r ++ s) = false.
    Proof.
      intros N A. destruct (grp h (r ++ s)) eqn:G; [|reflexivity].
      exfalso. destruct (grp_new _ _ _ _ _ saved_run G) as [G0|(o & q & I & T & P & U)]; [unfold grp in G0; rewrite (FR s N) in G0; discriminate G0|].
      apply in_app_or in I as [I|I]; [|destruct (A o q I T P) as (v & ->); injection T as <-; exact (U eq_refl v eq_refl)]. destruct I as [<-|I].
      - injection T as <-. destruct P as (t & E). rewrite <- app_assoc in E. rewrite <- (app_nil_r r) in E at 1. apply app_inv_head in E. destruct s; [congruence|discriminate E].
      - destruct (is_root r); [|destruct I]. apply in_map_iff in I as (y & <- & _). discriminate T.
    Qed.
    Lemma saved_grp s : In (OGroup (r ++ s)) (ops r) -> grp h (r ++ s) = true.
    Proof. intros I. eapply grp_made; [apply saved_run|]. apply in_or_app. right. exact I. Qed.
    Lemma saved_opened s : r ++ s <> [] -> In (OOpen (r ++ s)) (ops r) -> grp h (r ++ s) = true.
    Proof. intros N I. eapply grp_open; [exact N|apply saved_run|]. apply in_or_app. right. exact I. Qed.
    Lemma saved_root : (st = None \/ grp (file_of st) [] = true) -> grp h r = true.
    Proof.
      intros W. assert (D : r = [] \/ r <> []) by (destruct r; [left; reflexivity|right; discriminate]). destruct D as [Er|Er].
      - eapply grp_kept; [apply saved_run|]. rewrite Er. destruct W as [->|W]; [reflexivity|exact W].
      - eapply grp_open; [exact Er|apply saved_run|]. left. reflexivity.
    Qed.
    Definition meta_names : list string := ["CreationDate"; "LastUpdate"; "Description"; "Author"; "CodeVersion"]%string.
    Lemma saved_attr p n v : In (OAttr p n v) (ops r) -> (forall w, In (OAttr p n w) (ops r) -> w = v) -> ~ In n meta_names -> rd_attr h p n = Ok v.
    Proof.
      intros I U M. destruct (att_made (open_ops meta r new ++ ops r) _ _ _ p n v saved_run) as (a & T & A).
      - apply in_or_app. right. exact I.
      - intros w J. apply in_app_or in J as [J|J]; [|apply U, J]. exfalso. destruct J as [J|J]; [discriminate J|].
        destruct (is_root r); [|destruct J]. apply in_map_iff in J as ([k x] & J & Jm). injection J as _ <- _. apply M.
        unfold metadata in Jm. destruct new; cbn [In] in Jm; destruct Jm as [X|Jm]; try (injection X as <- _; cbn; tauto);
          repeat (destruct Jm as [X|Jm]; [injection X as <- _; cbn; tauto|]); destruct Jm.
      - unfold att in A. unfold rd_attr. destruct (hget h p) as [[d|]|]; try discriminate A. rewrite A, (of_to_attr v a T). reflexivity.
    Qed.
    Lemma saved_no_attr p n : (forall w, ~ In (OAttr p n w) (ops r)) -> ~ In n meta_names -> att h p n = att (file_of st) p n.
    Proof.
      intros U M. eapply att_other; [apply saved_run|]. intros w J. apply in_app_or in J as [J|J]; [|exact (U w J)]. destruct J as [J|J]; [discriminate J|].
      destruct (is_root r); [|destruct J]. apply in_map_iff in J as ([k x] & J & Jm). injection J as _ <- _. apply M.
      unfold metadata in Jm. destruct new; cbn [In] in Jm; destruct Jm as [X|Jm]; try (injection X as <- _; cbn; tauto);
        repeat (destruct Jm as [X|Jm]; [injection X as <- _; cbn; tauto|]); destruct Jm.
    Qed.
  End Saved.

  (** ** Membership in lists of operations *)
  Lemma in_data_if (x : op F) p v : In x (data_if p v) <-> v <> VNone /\ x = OData p v.
  Proof. unfold data_if, is_none. destruct v; cbn [In]; split; try tauto; try (intros [<-|[]]; split; [discriminate|reflexivity]); intros [_ ->]; auto. Qed.
  Lemma in_attr_if (x : op F) p n v : In x (attr_if p n v) <-> v <> VNone /\ x = OAttr p n v.
  Proof. unfold attr_if, is_none. destruct v; cbn [In]; split; try tauto; try (intros [<-|[]]; split; [discriminate|reflexivity]); intros [_ ->]; auto. Qed.
  Lemma in_nums (x : op F) p v : In x (nums_ops p v) <->
    (exists d k y, v = VNums d /\ In (k, y) d /\ x = OData (p ++ [k]) (VNum y)) \/ ((forall d, v <> VNums d) /\ x = OFail EAttributeError).
  Proof.
    destruct v; cbn [nums_ops In]; try (split; [intros [<-|[]]; right; split; [discriminate|reflexivity]|intros [(d0 & k & y & X & _)|[_ ->]]; [discriminate X|auto]]).
    rewrite in_map_iff. split.
    - intros ([k y] & <- & I). left. exists d, k, y. auto.
    - intros [(e & k & y & X & I & ->)|[X _]]; [injection X as <-; exists (k, y); auto|edestruct X; reflexivity].
  Qed.
  Lemma app_self_nil {A} (l s : list A) : l = l ++ s -> s = [].
  Proof. intros E. rewrite <- (app_nil_r l) in E at 1. apply app_inv_head in E. auto. Qed.
  Lemma saved_ok_In l (e : exc) : forall h h' x, run_ops l h = (h', Ok x) -> ~ In (OFail e : op F) l.
  Proof.
    induction l as [|o l IH]; intros h h' x H I; [destruct I|]. apply run_ops_cons in H as [(h1 & E & H)|(e1 & _ & X)]; [|discriminate].
    destruct I as [->|I]; [discriminate E|exact (IH _ _ _ H I)].
  Qed.
End L.
