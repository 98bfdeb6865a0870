(** Lemmas about CosmoFileModel. *)
From Verif Require Import Base SortLib StrLib FrameModel FrameLemmas FsModel ParamModel ParamFileModel KeyModel NameModel H5Model H5Lemmas H5Lemmas2 H5Lemmas3 H5Props H5Props2 CosmoFileModel ParamLemmas2.
Open Scope list_scope.

Lemma dget_filter {A V} (eqb : A -> A -> bool) (spec : forall a b, reflect (a = b) (eqb a b)) (f : A -> bool) (d : dict A V) k :
  dget eqb (filter (fun kv => f (fst kv)) d) k = if f k then dget eqb d k else None.
Proof.
  induction d as [|[a v] d IH]; [destruct (f k); reflexivity|]. cbn [filter fst]. destruct (f a) eqn:Fa.
  - cbn [dget]. destruct (spec a k) as [->|N]; [rewrite Fa; reflexivity|exact IH].
  - rewrite IH. cbn [dget]. destruct (spec a k) as [->|N]; [rewrite Fa; reflexivity|reflexivity].
Qed.

Section L.
  Context {F : Type} {K : Fld F}.
  Implicit Types (h : hfile F) (p q r : path) (l : list (op F)).

  (** The part of a file at a place: the group and the members with these names. *)
  Definition keep r (names : list string) p : bool :=
    match under r p with Some [] => true | Some (a :: _) => smem a names | None => false end.
  Definition restrict r names h : hfile F := filter (fun kv => keep r names (fst kv)) h.
  Lemma keep_root r names : keep r names r = true.
  Proof. unfold keep. destruct (under r r) as [s|] eqn:E; [|exfalso; assert (X : under r r = Some []) by (apply under_spec; rewrite app_nil_r; reflexivity); congruence].
    apply under_spec in E. apply app_self_nil in E. subst. reflexivity. Qed.
  Lemma keep_below r names a s : keep r names (r ++ a :: s) = smem a names.
  Proof. unfold keep. assert (E : under r (r ++ a :: s) = Some (a :: s)) by (apply under_spec; reflexivity). rewrite E. reflexivity. Qed.
  Lemma hget_restrict r names h p : hget (restrict r names h) p = if keep r names p then hget h p else None.
  Proof. unfold hget, restrict. apply (dget_filter _ sl_eqb_spec). Qed.
  Lemma children_restrict r names h p : (forall n, keep r names (p ++ [n]) = true) -> children (restrict r names h) p = children h p.
  Proof.
    intros H. unfold children, restrict. f_equal. induction h as [|[q e] h IH]; [reflexivity|]. cbn [filter fst flat_map].
    destruct (keep r names q) eqn:Kq; cbn [flat_map fst]; rewrite IH; [reflexivity|].
    destruct (under p q) as [[|n [|m s]]|] eqn:U; try reflexivity. apply under_spec in U. subst q. rewrite H in Kq. discriminate.
  Qed.

  (** What is stored at a place with other things beside it is stored in its part
      of the file. *)
  Lemma stored_part h r names l m : stored h r l -> (forall o, In o m -> In o l) ->
    (forall o s, In o m -> op_path o = Some (r ++ s) -> keep r names (r ++ s) = true) ->
    (forall o s, In o l -> op_path o = Some (r ++ s) -> keep r names (r ++ s) = true -> In o m \/ o = OOpen r \/ exists n v, o = OAttr r n v /\ In n meta_names) ->
    stored (restrict r names h) r m.
  Proof.
    intros S I Km Kl.
    assert (D : forall p, dat (restrict r names h) p = if keep r names p then dat h p else None) by (intros p; unfold dat; rewrite hget_restrict; destruct (keep r names p); reflexivity).
    assert (G : forall p, grp (restrict r names h) p = if keep r names p then grp h p else false) by (intros p; unfold grp; rewrite hget_restrict; destruct (keep r names p); reflexivity).
    assert (A : forall p n, att (restrict r names h) p n = if keep r names p then att h p n else None) by (intros p n; unfold att; rewrite hget_restrict; destruct (keep r names p); reflexivity).
    assert (W : forall s t, s <> [] -> keep r names (r ++ s ++ t) = keep r names (r ++ s)) by (intros [|a s] t N; [congruence|]; cbn [app]; rewrite !keep_below; reflexivity).
    constructor.
    - rewrite G, keep_root. apply (st_root _ _ _ S).
    - intros e J. exact (st_fail _ _ _ S e (I _ J)).
    - intros s v J. rewrite D, (Km _ s J eq_refl). apply (st_dat _ _ _ S), I, J.
    - intros s N J. rewrite D. destruct (keep r names (r ++ s)) eqn:E; [|reflexivity]. apply (st_no_dat _ _ _ S); [exact N|]. intros v X.
      destruct (Kl _ s X eq_refl E) as [Y|[Y|(n & w & Y & _)]]; try discriminate. exact (J v Y).
    - intros s N J. rewrite hget_restrict. destruct (keep r names (r ++ s)) eqn:E; [|reflexivity]. apply (st_absent _ _ _ S); [exact N|]. intros o q X T (t & ->).
      rewrite <- app_assoc in T. assert (P : op_path o = Some (r ++ s ++ t)) by (destruct o; solve [exact T | discriminate T]).
      assert (E' : keep r names (r ++ s ++ t) = true) by (rewrite W by exact N; exact E).
      destruct (Kl o (s ++ t) X P E') as [Y|[->|(n & w & -> & _)]].
      + apply (J o _ Y T). exists t. rewrite <- app_assoc. reflexivity.
      + cbn in T. injection T as T. apply app_self_nil in T. apply app_eq_nil in T as [-> _]. congruence.
      + discriminate.
    - intros s J. rewrite G, (Km _ s J eq_refl). apply (st_grp _ _ _ S), I, J.
    - intros s t N J. pose proof (Km _ (s ++ t) J eq_refl) as E. rewrite W in E by exact N. rewrite G, E. apply (st_open _ _ _ S s t N), I, J.
    - intros s n v J U M. pose proof (Km _ s J eq_refl) as E. unfold rd_attr. rewrite hget_restrict, E. apply (st_attr _ _ _ S); [apply I, J| |exact M].
      intros w X. destruct (Kl _ s X eq_refl E) as [Y|[Y|(n' & w' & Y & Z)]]; [exact (U w Y)|discriminate|]. injection Y as _ -> _. contradiction.
    - intros s n U M. rewrite A. destruct (keep r names (r ++ s)) eqn:E; [|reflexivity]. apply (st_no_attr _ _ _ S); [|exact M].
      intros w X. destruct (Kl _ s X eq_refl E) as [Y|[Y|(n' & w' & Y & Z)]]; [exact (U w Y)|discriminate|]. injection Y as _ -> _. contradiction.
  Qed.

  Lemma populate_ext h h' p o : children h p = children h' p -> (forall n, hget h (p ++ [n]) = hget h' (p ++ [n])) -> populate h p o = populate h' p o.
  Proof.
    intros C H. unfold populate. rewrite C. generalize (children h' p). intros l. revert o. induction l as [|n l IH]; intros o; [reflexivity|]. cbn [fold_left]. rewrite H, IH. reflexivity.
  Qed.
  Definition power_names : list string := ["power_spectrum"; "transfer_function"]%string.
  Lemma load_power_part h r : load power_rd r (Some h) = load power_rd r (Some (restrict r power_names h)).
  Proof.
    assert (H : forall a s, In a power_names -> hget (restrict r power_names h) (r ++ a :: s) = hget h (r ++ a :: s)).
    { intros a s I. rewrite hget_restrict, keep_below. apply smem_In in I. rewrite I. reflexivity. }
    unfold load, open_read. rewrite hget_restrict, keep_root. destruct (hget h r) as [[d|d]|]; try reflexivity. cbn [rbind]. unfold power_rd.
    rewrite !H by (cbn; tauto). destruct (hget h (r ++ ["power_spectrum"%string])) as [[e|e]|] eqn:E; try reflexivity.
    unfold rd_attr. rewrite H, E by (cbn; tauto). unfold optional, present, rd_data. rewrite H by (cbn; tauto).
    rewrite (populate_ext (restrict r power_names h) h); [reflexivity| |].
    - apply children_restrict. intros n. rewrite <- app_assoc. apply (keep_below r power_names "power_spectrum" [n]).
    - intros n. rewrite <- app_assoc. apply H. left. reflexivity.
  Qed.
End L.

Section Params.
  Context {F : Type} {K : Fld F} {O : OFld (F := F)}.
  Implicit Types (h : hfile F) (r : path) (p : param F) (c : cosmology F).
  Lemma kept_eq p : par_eq p (kept_par p) = true.
  Proof. unfold par_eq, kept_par. cbn. rewrite String.eqb_refl, Bool.eqb_reflx. destruct (fdec (fiducial p) (fiducial p)); [|congruence]. destruct (fdec (current p) (current p)); [reflexivity|congruence]. Qed.

  Lemma from_dict_ext (d e : list (string * json F)) : (forall k, jget d k = jget e k) -> from_dict d = from_dict e.
  Proof.
    intros H. assert (B : forall (d e : list (string * json F)), (forall k, jget d k = jget e k) -> forallb (fun kv => smem (fst kv) known_args) d = true -> forallb (fun kv => smem (fst kv) known_args) e = true).
    { clear. intros d e H A. rewrite forallb_forall in *. intros [k j] I. cbn [fst].
      destruct (jget e k) as [j'|] eqn:G; [|exfalso; apply (dget_None _ String.eqb_spec) in G; apply G; change k with (fst (k, j)); apply in_map; exact I].
      rewrite <- H in G. apply (dget_In _ String.eqb_spec) in G. exact (A _ G). }
    unfold from_dict, opt_str. assert (E : forallb (fun kv => smem (fst kv) known_args) d = forallb (fun kv => smem (fst kv) known_args) e).
    { pose proof (B d e H) as B1. pose proof (B e d (fun k => eq_sym (H k))) as B2. destruct (forallb _ d), (forallb _ e); auto. symmetry. auto. }
    rewrite E, !H. reflexivity.
  Qed.
  Lemma to_dict_keys p : NoDup (dkeys (to_dict p)).
  Proof. unfold to_dict, dkeys. destruct (is_nuis p); cbn; repeat constructor; cbn; intuition discriminate. Qed.
  Lemma to_dict_no_meta p k : In k (dkeys (to_dict p)) -> ~ In k meta_names.
  Proof. unfold to_dict, dkeys. destruct (is_nuis p); cbn; intuition (subst; discriminate). Qed.

  (** ** The operations of a cosmology *)
  Definition in_param (d : @pdict F) (q : path) (x : op F) : Prop := exists n p, In (n, p) d /\ In x (param_ops (q ++ [n]) p).
  Lemma in_params d q (x : op F) : In x (flat_map (fun np => param_ops (q ++ [fst np]) (snd np)) d) <-> in_param d q x.
  Proof. rewrite in_flat_map. split; [intros ([n p] & I & J); exists n, p; auto|intros (n & p & I & J); exists (n, p); auto]. Qed.
  Lemma in_param_ops q p (x : op F) : In x (param_ops q p) <-> x = OGroup q \/ exists k j, In (k, j) (to_dict p) /\ x = OAttr q k (pv_of j).
  Proof.
    unfold param_ops. cbn [In]. rewrite in_map_iff. split.
    - intros [<-|([k j] & <- & I)]; [auto|right; exists k, j; auto].
    - intros [->|(k & j & I & ->)]; [auto|right; exists (k, j); auto].
  Qed.
  Lemma params_path r n : params_group r ++ [n] = r ++ ["cosmology"; "cosmological_parameters"; n]%string.
  Proof. unfold params_group, group. rewrite <- !app_assoc. reflexivity. Qed.

  Section Stored.
    Context h c r d (S : stored h r (cosmo_ops c r)) (P : k_params c = Some d) (ND : NoDup (dkeys d)).
    (** No attribute below the root but those written. *)
    Context (SA : forall s k, s <> [] -> (forall w, ~ In (OAttr (r ++ s) k w) (cosmo_ops c r)) -> att h (r ++ s) k = None).
    Lemma param_In x : in_param d (params_group r) x -> In x (cosmo_ops c r).
    Proof. intros I. unfold cosmo_ops. cbv beta zeta. rewrite P, !in_app_iff. right. right. right. right. right. apply in_params, I. Qed.
    Lemma param_attr_inv n k w : In (OAttr (r ++ ["cosmology"; "cosmological_parameters"; n]%string) k w) (cosmo_ops c r) ->
      exists p j, In (n, p) d /\ In (k, j) (to_dict p) /\ w = pv_of j.
    Proof.
      intros I. unfold cosmo_ops in I. cbv beta zeta in I. rewrite P in I. unfold params_group, group in I. inv_in I; op_eq I.
      apply in_params in I as (m & p & Im & I). apply in_param_ops in I as [I|(k' & j & Ij & I)]; [discriminate|]. op_eq I.
      match goal with X : _ = _ |- _ => cbn in X; injection X as -> end. subst. eauto.
    Qed.
    Lemma param_attrs n p : In (n, p) d -> has_probe p /\ forall k, jget (attrs_of h (params_group r ++ [n])) k = jget (to_dict p) k.
    Proof.
      intros I.
      assert (G : grp h (params_group r ++ [n]) = true).
      { rewrite params_path. apply (st_grp _ _ _ S). apply param_In. exists n, p. split; [exact I|]. rewrite params_path. apply in_param_ops. auto. }
      assert (A : forall k j, In (k, j) (to_dict p) -> exists a, att h (params_group r ++ [n]) k = Some a /\ json_of a = j).
      { intros k j J. assert (Ra : rd_attr h (params_group r ++ [n]) k = Ok (pv_of j)).
        { rewrite params_path. apply (st_attr _ _ _ S).
          - apply param_In. exists n, p. split; [exact I|]. rewrite params_path. apply in_param_ops. right. exists k, j. auto.
          - intros w W. apply param_attr_inv in W as (p' & j' & Ip & Ij & ->). assert (p' = p) as -> by (pose proof (dget_NoDup_In _ String.eqb_spec _ _ _ ND Ip); pose proof (dget_NoDup_In _ String.eqb_spec _ _ _ ND I); congruence).
            assert (j' = j) as -> by (pose proof (dget_NoDup_In _ String.eqb_spec _ _ _ (to_dict_keys p) Ij); pose proof (dget_NoDup_In _ String.eqb_spec _ _ _ (to_dict_keys p) J); congruence). reflexivity.
          - apply (to_dict_no_meta p). change k with (fst (k, j)). apply in_map, J. }
        unfold rd_attr in Ra. unfold att. destruct (hget h (params_group r ++ [n])) as [[e|]|]; try discriminate Ra.
        destruct (dget String.eqb e k) as [a|]; [|discriminate Ra]. injection Ra as Ra. exists a. split; [reflexivity|]. destruct a, j; cbn in *; congruence. }
      split.
      - unfold has_probe. destruct (is_cosmo p) eqn:C; [auto|]. right. intros N. destruct (A "probe"%string JNull) as (a & _ & X); [|destruct a; discriminate].
        unfold to_dict, is_nuis. rewrite C, N. apply in_or_app. right. left. reflexivity.
      - intros k. assert (J : jget (attrs_of h (params_group r ++ [n])) k = option_map json_of (att h (params_group r ++ [n]) k)).
        { unfold attrs_of, att. destruct (hget h (params_group r ++ [n])) as [[e|]|]; try reflexivity. unfold jget. induction e as [|[a v] e IH]; [reflexivity|]. cbn. destruct (String.eqb a k); [reflexivity|exact IH]. }
        rewrite J. destruct (jget (to_dict p) k) as [j|] eqn:E.
        + apply (dget_In _ String.eqb_spec) in E. destruct (A k j E) as (a & -> & <-). reflexivity.
        + rewrite params_path, SA; [reflexivity|discriminate|]. intros w W. apply param_attr_inv in W as (p' & j' & Ip & Ij & ->).
          assert (p' = p) as -> by (pose proof (dget_NoDup_In _ String.eqb_spec _ _ _ ND Ip); pose proof (dget_NoDup_In _ String.eqb_spec _ _ _ ND I); congruence).
          apply (dget_None _ String.eqb_spec) in E. apply E. change k with (fst (k, j')). apply in_map, Ij.
    Qed.
    Lemma param_absent n : ~ In n (dkeys d) -> hget h (params_group r ++ [n]) = None.
    Proof.
      intros N. rewrite params_path. apply (st_absent _ _ _ S); [discriminate|]. intros x q I T (t & Q). subst q. unfold cosmo_ops in I. cbv beta zeta in I. rewrite P in I. unfold params_group, group in I.
      inv_in I; try subst x; cbn [target] in T; try discriminate T; try (injection T as T; paths).
      apply in_params in I as (m & p & Im & I). apply in_param_ops in I as [->|(k' & j & Ij & ->)]; [|discriminate]. cbn [target] in T. injection T as T. paths. cbn in T. injection T as -> _.
      apply N. change n with (fst (n, p)). apply in_map, Im.
    Qed.
    Lemma stored_params : exists d', read_params h r = Ok d' /\ NoDup (dkeys d') /\ (forall n, dget String.eqb d' n = option_map kept_par (dget String.eqb d n)) /\
      (forall n p, In (n, p) d -> has_probe p).
    Proof.
      assert (G : grp h (params_group r) = true).
      { replace (params_group r) with (r ++ ["cosmology"; "cosmological_parameters"]%string) by (unfold params_group, group; rewrite <- app_assoc; reflexivity).
        apply (st_grp _ _ _ S). unfold cosmo_ops. cbv beta zeta. rewrite P, !in_app_iff. right. right. right. right. left. unfold params_group, group. rewrite <- app_assoc. reflexivity. }
      unfold read_params. unfold grp in G. destruct (hget h (params_group r)) as [[a|]|]; try discriminate G.
      set (f := fun (acc : res pdict) (n : string) => d <- acc ;; p <- from_dict (attrs_of h (params_group r ++ [n])) ;; Ok (dset String.eqb d n p)).
      assert (V : forall n, hget h (params_group r ++ [n]) <> None -> exists p, dget String.eqb d n = Some p /\ from_dict (attrs_of h (params_group r ++ [n])) = Ok (kept_par p)).
      { intros n N. destruct (dget String.eqb d n) as [p|] eqn:D; [|apply (dget_None _ String.eqb_spec) in D; rewrite param_absent in N by exact D; congruence].
        apply (dget_In _ String.eqb_spec) in D. exists p. split; [reflexivity|]. destruct (param_attrs n p D) as (HP & J). rewrite (from_dict_ext _ _ J). apply from_to_dict, HP. }
      assert (X : forall l acc, (forall n, In n l -> hget h (params_group r ++ [n]) <> None) -> NoDup (dkeys acc) ->
         exists d', fold_left f l (Ok acc) = Ok d' /\ NoDup (dkeys d') /\ forall n, dget String.eqb d' n = if smem n l then option_map kept_par (dget String.eqb d n) else dget String.eqb acc n).
      { induction l as [|m l IH]; intros acc I N; cbn [fold_left]; [exists acc; cbn; auto|].
        destruct (V m (I m (or_introl eq_refl))) as (p & D & E). unfold f at 2. cbn [rbind]. rewrite E. cbn [rbind].
        destruct (IH (dset String.eqb acc m (kept_par p))) as (d' & E' & N' & Q); [intros n Hn; apply I; right; exact Hn|apply (NoDup_dset _ String.eqb_spec), N|].
        exists d'. split; [exact E'|]. split; [exact N'|]. intros n. rewrite Q. change (smem n (m :: l)) with (String.eqb n m || smem n l). destruct (String.eqb_spec n m) as [->|Nn]; cbn [orb].
        - rewrite D, (dget_dset_same _ String.eqb_spec). destruct (smem m l); reflexivity.
        - rewrite (dget_dset_other _ String.eqb_spec) by congruence. reflexivity. }
      destruct (X (children h (params_group r)) []) as (d' & E & N & Q); [intros n; apply children_In|constructor|].
      exists d'. split; [exact E|]. split; [exact N|]. split.
      - intros n. rewrite Q. destruct (smem n (children h (params_group r))) eqn:Sm; [reflexivity|]. cbn. destruct (dget String.eqb d n) as [p|] eqn:D; [|reflexivity]. exfalso.
        apply (dget_In _ String.eqb_spec) in D. assert (Y : In n (children h (params_group r))).
        { apply children_In. intros Z. assert (G' : grp h (params_group r ++ [n]) = true); [|unfold grp in G'; rewrite Z in G'; discriminate].
          rewrite params_path. apply (st_grp _ _ _ S). apply param_In. exists n, p. split; [exact D|]. rewrite params_path. apply in_param_ops. auto. }
        apply smem_In in Y. congruence.
      - intros n p I. apply (param_attrs n p I).
    Qed.
  End Stored.
End Params.

Section Whole.
  Context {F : Type} {K : Fld F} {O : OFld (F := F)}.
  Variable round10 : F -> F.
  Implicit Types (h : hfile F) (r : path) (c : cosmology F) (d : @pdict F) (st : option (hfile F)).

  (** ** One save in place of two *)
  Definition both_ops (meta' : string * string) c (ps : option (obj F)) r : list (op F) :=
    cosmo_ops c r ++ match ps with Some p => open_ops meta' r false ++ power_ops p r | None => [] end.
  Lemma save_both meta meta' b c r st h : save_cosmology meta meta' b c r st = (Some h, Ok tt) ->
    save meta (both_ops meta' c (if b then k_power c else None)) r st = (Some h, Ok tt).
  Proof.
    unfold save_cosmology, save, both_ops. set (a := open_ops meta r _). destruct (run_ops (a ++ cosmo_ops c r) _) as [h1 x] eqn:R. destruct x as [u|e]; [|discriminate].
    assert (N : (if b then k_power c else None) = None -> (Some h1, Ok tt) = (Some h, Ok tt) -> 
      (let '(h', x) := run_ops (a ++ cosmo_ops c r ++ match (if b then k_power c else None) with Some p => open_ops meta' r false ++ power_ops p r | None => [] end)
         (match st with Some h0 => h0 | None => empty_file end) in (Some h', x)) = (Some h, Ok tt)).
    { intros -> E. rewrite app_nil_r, R. destruct u. exact E. }
    destruct (k_power c) as [p|]; [|intros E; apply N; [destruct b; reflexivity|exact E]]. destruct b; [|intros E; apply N; [reflexivity|exact E]]. clear N.
    intros E. rewrite app_assoc, run_app, R. exact E.
  Qed.
  Lemma open_ops_path meta r new (x : op F) : In x (open_ops meta r new) -> x = OOpen r \/ exists n v, x = OAttr r n v /\ In n meta_names.
  Proof.
    unfold open_ops. intros [<-|I]; [auto|]. destruct (is_root r); [|destruct I]. right. apply in_map_iff in I as ([k x'] & <- & Jm). exists k, (VStr x'). split; [reflexivity|].
    unfold metadata in Jm. destruct new; cbn [In] in Jm; destruct Jm as [X|Jm]; try (injection X as <- _; cbn; tauto);
      repeat (destruct Jm as [X|Jm]; [injection X as <- _; cbn; tauto|]); destruct Jm.
  Qed.
  Lemma cosmo_paths c r x p : In x (cosmo_ops c r) -> op_path x = Some p -> exists s, p = r ++ "cosmology"%string :: s.
  Proof.
    intros I Q. unfold cosmo_ops, params_group, group in I. cbv beta zeta in I.
    assert (G : (exists s, Some p = Some (r ++ "cosmology"%string :: s)) -> exists s, p = r ++ "cosmology"%string :: s) by (intros (s & X); injection X as ->; eauto).
    apply in_app_or in I as [I|I]; [inv_in I; subst x; cbn [op_path] in Q; apply G; rewrite <- Q; eexists; rewrite <- ?app_assoc; reflexivity|].
    apply in_app_or in I as [I|I]; [inv_in I; subst x; cbn [op_path] in Q; apply G; rewrite <- Q; eexists; rewrite <- ?app_assoc; reflexivity|].
    apply in_app_or in I as [I|I]; [inv_in I; subst x; cbn [op_path] in Q; apply G; rewrite <- Q; eexists; rewrite <- ?app_assoc; reflexivity|].
    apply in_app_or in I as [I|I]; [inv_in I; subst x; cbn [op_path] in Q; apply G; rewrite <- Q; eexists; rewrite <- ?app_assoc; reflexivity|].
    destruct (k_params c) as [d|]; [|destruct I]. destruct I as [<-|I]; [cbn [op_path] in Q; apply G; rewrite <- Q; eexists; rewrite <- ?app_assoc; reflexivity|].
    apply in_params in I as (n & pp & _ & I). apply in_param_ops in I as [->|(k & j & _ & ->)]; cbn [op_path] in Q; apply G; rewrite <- Q; eexists; rewrite <- ?app_assoc; reflexivity.
  Qed.
  Lemma power_paths (o : obj F) r x p : In x (power_ops o r) -> op_path x = Some p -> exists a s, In a power_names /\ p = r ++ a :: s.
  Proof.
    intros I Q. unfold power_ops in I. cbv beta zeta in I. apply in_app_or in I as [I|I]; [|apply in_app_or in I as [I|I]].
    - inv_in I; subst x; injection Q as <-; exists "power_spectrum"%string, []; (split; [left; reflexivity|reflexivity]).
    - apply in_map_iff in I as (n & <- & _). injection Q as <-. exists "power_spectrum"%string, [n]. split; [left; reflexivity|]. rewrite <- app_assoc. reflexivity.
    - inv_in I. subst x. injection Q as <-. exists "transfer_function"%string, []. split; [right; left; reflexivity|reflexivity].
  Qed.

  Section Saved.
    Context meta meta' c (ps : option (obj F)) r st h (FR : fresh r st) (SV : save meta (both_ops meta' c ps) r st = (Some h, Ok tt)).
    Definition cosmo_part : hfile F := restrict r ["cosmology"%string] h.
    Lemma part_cosmo : stored cosmo_part r (cosmo_ops c r).
    Proof.
      apply (stored_part h r ["cosmology"%string] _ _ (save_stored _ _ _ _ _ FR SV)).
      - intros x I. apply in_or_app. left. exact I.
      - intros x s I Q. destruct (cosmo_paths c r x _ I Q) as (t & E). rewrite E, keep_below. reflexivity.
      - intros x s I Q E. apply in_app_or in I as [I|I]; [auto|]. destruct ps as [p|]; [|destruct I]. apply in_app_or in I as [I|I]; [right; apply (open_ops_path meta' r false), I|].
        destruct (power_paths p r x _ I Q) as (a & t & A & Z). rewrite Z, keep_below in E. apply smem_In in E. destruct E as [<-|[]]. cbn in A. intuition discriminate.
    Qed.
    Lemma part_power p : ps = Some p -> stored (restrict r power_names h) r (power_ops p r).
    Proof.
      intros ->. apply (stored_part h r power_names _ _ (save_stored _ _ _ _ _ FR SV)).
      - intros x I. apply in_or_app. right. apply in_or_app. right. exact I.
      - intros x s I Q. destruct (power_paths p r x _ I Q) as (a & t & A & E). rewrite E, keep_below. apply smem_In, A.
      - intros x s I Q E. apply in_app_or in I as [I|I].
        + destruct (cosmo_paths c r x _ I Q) as (t & Z). rewrite Z, keep_below in E. discriminate.
        + apply in_app_or in I as [I|I]; [right; apply (open_ops_path meta' r false), I|auto].
    Qed.
    Lemma part_attrs s k : s <> [] -> (forall w, ~ In (OAttr (r ++ s) k w) (cosmo_ops c r)) -> att cosmo_part (r ++ s) k = None.
    Proof.
      intros N U. destruct s as [|a s]; [congruence|]. unfold att, cosmo_part. rewrite hget_restrict, keep_below. destruct (smem a ["cosmology"%string]) eqn:A; [|reflexivity].
      apply smem_In in A. destruct A as [<-|[]]. change (att h (r ++ "cosmology"%string :: s) k = None).
      assert (Z : forall (x : op F) w, x = OAttr (r ++ "cosmology"%string :: s) k w -> x = OOpen r \/ (exists n v, x = OAttr r n v /\ In n meta_names) -> False).
      { intros x w -> [Y|(n & v & Y & _)]; [discriminate|]. injection Y as Y _ _. symmetry in Y. apply app_self_nil in Y. discriminate. }
      rewrite (att_other _ _ _ _ _ k (saved_run meta (both_ops meta' c ps) r st h SV)).
      - unfold att. destruct FR as (Fr & _). rewrite Fr by discriminate. reflexivity.
      - intros w I. apply in_app_or in I as [I|I]; [exact (Z _ w eq_refl (open_ops_path _ _ _ _ I))|]. apply in_app_or in I as [I|I]; [exact (U w I)|].
        destruct ps as [p|]; [|destruct I]. apply in_app_or in I as [I|I]; [exact (Z _ w eq_refl (open_ops_path _ _ _ _ I))|].
        destruct (power_paths p r _ _ I eq_refl) as (a & t & A & E). apply app_inv_head in E. injection E as <- _. cbn in A. intuition discriminate.
    Qed.
  End Saved.

  (** ** Reading the part of the cosmology *)
  Lemma cosmo_rd_part h r : load (cosmo_rd round10) r (Some h) = load (cosmo_rd round10) r (Some (restrict r ["cosmology"%string] h)).
  Proof.
    assert (H : forall s, hget (restrict r ["cosmology"%string] h) (r ++ "cosmology"%string :: s) = hget h (r ++ "cosmology"%string :: s)) by (intros s; rewrite hget_restrict, keep_below; reflexivity).
    assert (H1 : hget (restrict r ["cosmology"%string] h) (group r) = hget h (group r)) by apply (H []).
    assert (H2 : hget (restrict r ["cosmology"%string] h) (params_group r) = hget h (params_group r)).
    { unfold params_group, group. rewrite <- app_assoc. apply (H ["cosmological_parameters"%string]). }
    unfold load, open_read. rewrite hget_restrict, keep_root. destruct (hget h r) as [[d|d]|]; try reflexivity. cbn [rbind].
    assert (RB : read_building (restrict r ["cosmology"%string] h) r = read_building h r).
    { unfold read_building, rd_attr. rewrite H1. unfold read_params. rewrite H2, children_restrict.
      - assert (A : forall n, attrs_of (restrict r ["cosmology"%string] h) (params_group r ++ [n]) = attrs_of h (params_group r ++ [n])) by (intros n; unfold attrs_of; rewrite !params_path, H; reflexivity).
        assert (E : forall l acc, fold_left (fun (acc : res pdict) n => d <- acc ;; p <- from_dict (attrs_of (restrict r ["cosmology"%string] h) (params_group r ++ [n])) ;; Ok (dset String.eqb d n p)) l acc =
                                  fold_left (fun (acc : res pdict) n => d <- acc ;; p <- from_dict (attrs_of h (params_group r ++ [n])) ;; Ok (dset String.eqb d n p)) l acc).
        { induction l as [|n l IH]; intros acc; [reflexivity|]. cbn [fold_left]. rewrite IH, A. reflexivity. }
        rewrite E. reflexivity.
      - intros n. rewrite params_path. apply keep_below. }
    unfold cosmo_rd. rewrite RB. destruct (read_building h r) as [[[f m] e]|] eqn:B; [|reflexivity]. cbn [rbind]. destruct (check_parameters round10 e (truthy f)); [|reflexivity]. cbn [rbind].
    unfold filled. rewrite H1, RB, B. unfold populated. rewrite (populate_ext (restrict r ["cosmology"%string] h) h); [reflexivity| |].
    - apply children_restrict. intros n. unfold group. rewrite <- app_assoc. apply keep_below.
    - intros n. unfold group. rewrite <- app_assoc. apply (H [n]).
  Qed.
  Lemma check_same d d' b : (forall n, dget String.eqb d' n = option_map kept_par (dget String.eqb d n)) -> check_parameters round10 d' b = check_parameters round10 d b.
  Proof.
    intros H. unfold check_parameters, current_of. rewrite !H.
    destruct (dget String.eqb d "w0"), (dget String.eqb d "wa"), (dget String.eqb d "Omm"), (dget String.eqb d "OmDE"); reflexivity.
  Qed.
  Section Read.
    Context h c r d (S : stored h r (cosmo_ops c r)) (P : k_params c = Some d) (ND : NoDup (dkeys d)).
    Context (SA : forall s k, s <> [] -> (forall w, ~ In (OAttr (r ++ s) k w) (cosmo_ops c r)) -> att h (r ++ s) k = None).
    Lemma group_there : grp h (group r) = true.
    Proof. apply (st_grp _ _ _ S). left. reflexivity. Qed.
    Lemma flat_model : rd_attr h (group r) "is_flat" = Ok (k_flat c) /\ rd_attr h (group r) "cosmological_model" = Ok (k_model c).
    Proof.
      split; (eapply attr_read; [exact S| | |reflexivity]); try (cbn; tauto); intros w I; unfold cosmo_ops, params_group, group in I; cbv beta zeta in I;
        rewrite P in I; inv_in I; op_eq I; subst; try reflexivity; apply in_params in I as (m & p & Im & I); apply in_param_ops in I as [I|(k' & j & Ij & I)]; [discriminate|op_eq I|discriminate|op_eq I].
    Qed.
    Lemma array_read n v : In (n, v) (combine array_names [k_z c; k_E c; k_r c; k_D c]) ->
      match dat h (group r ++ [n]) with Some e => of_data e | None => VNone end = v /\ (v <> VNone -> exists e, to_data v = Ok e).
    Proof.
      intros I. unfold group. rewrite <- app_assoc. cbn [app].
      assert (A : v <> VNone \/ n = "z_grid"%string -> In (OData (r ++ ["cosmology"; n]%string) v) (cosmo_ops c r)).
      { intros N. unfold cosmo_ops, group. cbv beta zeta. rewrite !in_app_iff, !in_data_if, <- !app_assoc. cbn [app].
        cbn in I. destruct I as [I|[I|[I|[I|[]]]]]; injection I as <- <-.
        - left. cbn. tauto.
        - right. left. destruct N as [N|N]; [auto|discriminate].
        - right. right. left. destruct N as [N|N]; [auto|discriminate].
        - right. right. right. left. destruct N as [N|N]; [auto|discriminate]. }
      assert (B : {v = VNone} + {v <> VNone}) by (destruct v; first [left; reflexivity|right; discriminate]).
      destruct B as [->|N]; [|destruct (st_dat _ _ _ S ["cosmology"; n]%string v (A (or_introl N))) as (e & T & E); change (r ++ "cosmology"%string :: [n]) with (r ++ ["cosmology"; n]%string); rewrite E; split; [apply of_to_data, T|eauto]].
      split; [|congruence]. destruct (string_dec n "z_grid") as [->|Nz].
      - destruct (st_dat _ _ _ S ["cosmology"; "z_grid"]%string VNone (A (or_intror eq_refl))) as (e & T & _). discriminate.
      - change (r ++ "cosmology"%string :: [n]) with (r ++ ["cosmology"; n]%string). rewrite (st_no_dat _ _ _ S); [reflexivity|discriminate|]. intros w J. unfold cosmo_ops, params_group, group in J. cbv beta zeta in J. rewrite P in J.
        inv_in J; op_eq J; try (match goal with X : _ = _ |- _ => cbn in X; injection X as <- end; subst w; cbn in I; repeat (destruct I as [I|I]; [injection I; intros; try discriminate; congruence|]); destruct I).
        apply in_params in J as (m & p & Im & J). apply in_param_ops in J as [J|(k' & j & Ij & J)]; discriminate.
    Qed.
    Lemma populated_read c0 : k_z c0 = VNone -> k_E c0 = VNone -> k_r c0 = VNone -> k_D c0 = VNone ->
      populated h r c0 = mkCosmology (k_params c0) (k_flat c0) (k_model c0) (k_z c) (k_E c) (k_r c) (k_D c) (k_power c0).
    Proof.
      intros Z1 Z2 Z3 Z4. unfold populated. rewrite Z1, Z2, Z3, Z4.
      assert (X : forall n v, In (n, v) (combine array_names [k_z c; k_E c; k_r c; k_D c]) -> getattr (populate h (group r) (combine array_names [VNone; VNone; VNone; VNone])) n = v).
      { intros n v I. rewrite populate_get. destruct (array_read n v I) as [A _]. destruct (dat h (group r ++ [n])); [exact A|]. cbn in I. rewrite <- A. destruct I as [I|[I|[I|[I|[]]]]]; injection I as <- _; reflexivity. }
      rewrite (X "z_grid"%string (k_z c)), (X "dimensionless_hubble_array"%string (k_E c)), (X "dimensionless_comoving_distance_array"%string (k_r c)), (X "growth_factor_z"%string (k_D c)) by (cbn; tauto).
      reflexivity.
    Qed.
    Lemma building_read : exists d', read_building h r = Ok (k_flat c, k_model c, d') /\ NoDup (dkeys d') /\ (forall n, dget String.eqb d' n = option_map kept_par (dget String.eqb d n)) /\ (forall n p, In (n, p) d -> has_probe p).
    Proof.
      destruct (stored_params h c r d S P ND SA) as (d' & R & N & Q & HP). exists d'. unfold read_building. destruct flat_model as [-> ->]. cbn [rbind]. rewrite R. cbn [rbind]. auto.
    Qed.
    Lemma attr_not_none : is_none (k_flat c) = false /\ is_none (k_model c) = false.
    Proof. destruct flat_model as [A B]. split; [destruct (rd_attr_ok _ _ _ _ A) as (a & T)|destruct (rd_attr_ok _ _ _ _ B) as (a & T)]; [destruct (k_flat c)|destruct (k_model c)]; try discriminate; reflexivity. Qed.
    Lemma cosmo_read : exists d', NoDup (dkeys d') /\ (forall n, dget String.eqb d' n = option_map kept_par (dget String.eqb d n)) /\
      load (cosmo_rd round10) r (Some h) = (_ <- check_parameters round10 d (truthy (k_flat c)) ;; Ok (mkCosmology (Some d') (k_flat c) (k_model c) (k_z c) (k_E c) (k_r c) (k_D c) None)).
    Proof.
      destruct building_read as (d' & R & N & Q & _). exists d'. split; [exact N|]. split; [exact Q|]. rewrite (load_open _ _ _ (st_root _ _ _ S)). unfold cosmo_rd. rewrite R. cbn [rbind].
      rewrite (check_same d d' _ Q). destruct (check_parameters round10 d (truthy (k_flat c))); [|reflexivity]. cbn [rbind]. unfold filled. pose proof group_there as G. unfold grp in G. destruct (hget h (group r)) as [[ag|]|]; try discriminate G.
      rewrite R. cbn [rbind]. rewrite populated_read by reflexivity. cbn [k_params k_flat k_model k_z k_E k_r k_D k_power]. destruct attr_not_none as [-> ->]. reflexivity.
    Qed.
  End Read.
End Whole.
