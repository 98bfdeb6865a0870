(** Files of cosmologies (C98), the cosmology of a variation (C99). *)
From Verif Require Import Base SortLib StrLib FrameModel FrameLemmas FsModel ParamModel ParamFileModel KeyModel NameModel H5Model H5Lemmas H5Lemmas2 H5Lemmas3 H5Props H5Props2 H5Props3 H5Props4 H5Props5 ParamLemmas2 CosmoFileModel CosmoFileLemmas.
Open Scope list_scope.

Section Props.
  Context {F : Type} {K : Fld F} {O : OFld (F := F)}.
  Variable round10 : F -> F.
  Implicit Types (h : hfile F) (r : path) (c : cosmology F) (d : @pdict F) (st : option (hfile F)).
  Notation loaded := (load_cosmology round10).
  Notation valid d f := (check_parameters round10 d (truthy f) = Ok tt).

  (** A parameter read back has lost its description and, if it is cosmological,
      its probe. *)
  Definition param_kept (p q : param F) : Prop :=
    pp_name q = pp_name p /\ fiducial q = fiducial p /\ current q = current p /\ is_cosmo q = is_cosmo p /\ stem_factor q = stem_factor p /\ is_free q = is_free p /\
    punits q = punits p /\ dmethod q = dmethod p /\ (is_cosmo p = false -> pprobe q = pprobe p).
  Definition params_kept (d d' : @pdict F) : Prop :=
    NoDup (dkeys d') /\ forall n, match dget String.eqb d n with Some p => exists q, dget String.eqb d' n = Some q /\ param_kept p q | None => dget String.eqb d' n = None end.
  (** All the attributes of the cosmology itself. *)
  Definition cosmo_kept c c' : Prop :=
    k_flat c' = k_flat c /\ k_model c' = k_model c /\ k_z c' = k_z c /\ k_E c' = k_E c /\ k_r c' = k_r c /\ k_D c' = k_D c /\
    exists d d', k_params c = Some d /\ k_params c' = Some d' /\ params_kept d d'.
  Definition power_kept (p p' : obj F) : Prop := forall n, In n ("boltzmann_code" :: "transfer_function" :: power_arrays)%string -> getattr p' n = getattr p n.

  Lemma kept_params d d' : NoDup (dkeys d') -> (forall n, dget String.eqb d' n = option_map kept_par (dget String.eqb d n)) -> params_kept d d'.
  Proof.
    intros N Q. split; [exact N|]. intros n. rewrite Q. destruct (dget String.eqb d n) as [p|]; [|reflexivity]. exists (kept_par p). split; [reflexivity|].
    unfold param_kept, kept_par. cbn. repeat (split; [reflexivity|]). intros ->. reflexivity.
  Qed.
  Lemma kept_pdict d d' : NoDup (dkeys d) -> NoDup (dkeys d') -> (forall n, dget String.eqb d' n = option_map kept_par (dget String.eqb d n)) -> pdict_eq d d' = true.
  Proof.
    intros N N' Q. unfold pdict_eq. apply andb_true_iff. split.
    - apply Nat.eqb_eq. rewrite <- (map_length fst d), <- (map_length fst d'). change (length (dkeys d) = length (dkeys d')).
      assert (I : forall n, In n (dkeys d) <-> In n (dkeys d')).
      { intros n. assert (A : forall e : @pdict F, In n (dkeys e) <-> dget String.eqb e n <> None).
        { intros e. pose proof (dget_None _ String.eqb_spec e n) as X. split; [intros I E; apply X in E; contradiction|]. intros E. destruct (in_dec string_dec n (dkeys e)) as [Y|Y]; [exact Y|]. apply X in Y. contradiction. }
        rewrite !A, Q. destruct (dget String.eqb d n); cbn; split; congruence. }
      apply Nat.le_antisymm; apply NoDup_incl_length; try assumption; intros n; apply I.
    - apply forallb_forall. intros [n p] I. cbn [fst snd]. rewrite Q, (dget_NoDup_In _ String.eqb_spec _ _ _ N I). cbn. apply kept_eq.
  Qed.

  Section Saved.
    Context meta meta' (b : bool) c r st h d (FR : fresh r st) (SV : save_cosmology meta meta' b c r st = (Some h, Ok tt)) (P : k_params c = Some d) (ND : NoDup (dkeys d)).
    Notation ps := (if b then k_power c else None).
    Lemma whole_read : exists d', NoDup (dkeys d') /\ (forall n, dget String.eqb d' n = option_map kept_par (dget String.eqb d n)) /\
      load (cosmo_rd round10) r (Some h) = (_ <- check_parameters round10 d (truthy (k_flat c)) ;; Ok (mkCosmology (Some d') (k_flat c) (k_model c) (k_z c) (k_E c) (k_r c) (k_D c) None)).
    Proof.
      pose proof (save_both _ _ _ _ _ _ _ SV) as S. rewrite cosmo_rd_part.
      exact (cosmo_read round10 (cosmo_part r h) c r d (part_cosmo _ _ _ _ _ _ _ FR S) P ND (part_attrs _ _ _ _ _ _ _ FR S)).
    Qed.
    Lemma whole_attr : exists a m, to_attr (k_flat c) = Ok a /\ to_attr (k_model c) = Ok m.
    Proof.
      pose proof (save_both _ _ _ _ _ _ _ SV) as S. destruct (flat_model (cosmo_part r h) c r d (part_cosmo _ _ _ _ _ _ _ FR S) P) as [A B].
      destruct (rd_attr_ok _ _ _ _ A) as (a & Ta). destruct (rd_attr_ok _ _ _ _ B) as (m & Tm). eauto.
    Qed.
    (** A cosmology with a power spectrum: everything is back; what is loaded
        compares equal unless the spectra contain NaN. *)
    Theorem C98_round_trip p : b = true -> k_power c = Some p -> valid d (k_flat c) ->
      exists c' p', loaded true r (Some h) = Ok c' /\ cosmo_kept c c' /\ k_power c' = Some p' /\ power_kept p p' /\
      (cosmo_eq c c' = Ok true <-> forall n, In n ("transfer_function"%string :: power_arrays) -> no_nan (getattr p n)).
    Proof.
      intros B Pw V. destruct whole_read as (d' & N' & Q & L). rewrite V in L. cbn [rbind] in L.
      pose proof (save_both _ _ _ _ _ _ _ SV) as S. rewrite B, Pw in S.
      destruct (power_stored _ p r (part_power _ _ _ _ _ _ _ FR S p eq_refl)) as (p' & Lp & A & _ & T & TT). rewrite <- load_power_part in Lp.
      unfold loaded. rewrite L. cbn [rbind]. rewrite Lp. cbn [rbind]. eexists _, p'. split; [reflexivity|]. split; [|split; [reflexivity|split; [exact A|]]].
      - unfold cosmo_kept. cbn. repeat (split; [reflexivity|]). exists d, d'. split; [exact P|]. split; [reflexivity|]. apply kept_params; assumption.
      - destruct whole_attr as (a & m & Ta & Tm). unfold cosmo_eq. cbn [with_spectrum k_params k_model k_flat k_power]. rewrite P, Pw.
        pose proof (self_attr _ _ Ta) as Sa. pose proof (self_attr _ _ Tm) as Sm. unfold self_equal in Sa, Sm. rewrite Sa, Sm. cbn [rbind]. rewrite (kept_pdict d d' ND N' Q). cbn [andb].
        assert (TN : forall n, In n ("transfer_function"%string :: power_arrays) -> (veq (getattr p n) (getattr p n) = Ok true <-> no_nan (getattr p n))).
        { intros n I. cbn [In] in I. destruct I as [<-|I]; [|destruct (T n I) as (e & Td); exact (self_saved _ _ Td)].
          destruct (getattr p "transfer_function") as [| | | | | |] eqn:E; try (destruct TT as (dd & Td); [discriminate|]; exact (self_iff _ _ Td)).
          split; [intros _ x X; discriminate X|reflexivity]. }
        assert (PE : power_eq p p' = Ok true <-> forall n, In n ("transfer_function"%string :: power_arrays) -> no_nan (getattr p n)).
        { unfold power_eq. rewrite compare_attrs_iff. split.
          - intros C n I. apply TN; [exact I|]. rewrite <- (A n) at 2 by (right; exact I). apply C. cbn [power_arrays In] in I |- *. tauto.
          - intros C n I. assert (I' : In n ("transfer_function"%string :: power_arrays)) by (cbn [power_arrays In] in I |- *; tauto).
            rewrite (A n) by (right; exact I'). apply TN; auto. }
        rewrite <- PE. destruct (power_eq p p') as [x|e]; cbn [rbind]; split; congruence.
    Qed.
    (** Without the power spectrum the rest can be loaded if one asks for it, but
        not by default. *)
    Theorem C98_without_spectrum : b = false \/ k_power c = None -> valid d (k_flat c) ->
      (exists c', loaded false r (Some h) = Ok c' /\ cosmo_kept c c' /\ k_power c' = None) /\ loaded true r (Some h) = Err EKeyError.
    Proof.
      intros NP V. destruct whole_read as (d' & N' & Q & L). rewrite V in L. cbn [rbind] in L. split.
      - unfold loaded. rewrite L. cbn [rbind]. eexists. split; [reflexivity|]. split; [|reflexivity]. unfold cosmo_kept. cbn. repeat (split; [reflexivity|]). exists d, d'.
        split; [exact P|]. split; [reflexivity|]. apply kept_params; assumption.
      - unfold loaded. rewrite L. cbn [rbind]. pose proof (save_both _ _ _ _ _ _ _ SV) as S.
        assert (E : ps = None) by (destruct NP as [->| ->]; [reflexivity|destruct b; reflexivity]). rewrite E in S.
        pose proof (save_stored _ _ _ _ _ FR S) as St. rewrite (load_open _ _ _ (st_root _ _ _ St)). unfold power_rd.
        rewrite (st_absent _ _ _ St ["power_spectrum"%string]); [reflexivity|discriminate|]. intros x q I T (t & ->). unfold both_ops in I. rewrite app_nil_r in I.
        assert (X : op_path x = Some (r ++ "power_spectrum"%string :: t)) by (destruct x; cbn [target] in T; try discriminate T; rewrite <- app_assoc in T; exact T).
        destruct (cosmo_paths c r x _ I X) as (s & Y). apply app_inv_head in Y. discriminate.
    Qed.
    (** Parameters the constructor refuses are saved without complaint; the file
        cannot be loaded. *)
    Theorem C98_invalid e (w : bool) : check_parameters round10 d (truthy (k_flat c)) = Err e -> loaded w r (Some h) = Err e.
    Proof. intros V. destruct whole_read as (d' & N' & Q & L). rewrite V in L. unfold loaded. rewrite L. reflexivity. Qed.
  End Saved.

  (** A cosmology without parameters can be saved but not loaded. *)
  Theorem C98_no_parameters meta meta' b c r st h w : fresh r st -> save_cosmology meta meta' b c r st = (Some h, Ok tt) -> k_params c = None -> loaded w r (Some h) = Err EKeyError.
  Proof.
    intros FR SV P. pose proof (save_both _ _ _ _ _ _ _ SV) as S. pose proof (save_stored _ _ _ _ _ FR S) as St. unfold loaded. rewrite (load_open _ _ _ (st_root _ _ _ St)).
    unfold cosmo_rd, read_building. assert (RA : forall g n, (exists v, rd_attr h g n = Ok v) \/ rd_attr h g n = Err EKeyError).
    { intros g n. unfold rd_attr. destruct (hget h g) as [[a|]|]; auto. destruct (dget String.eqb a n); eauto. }
    destruct (RA (group r) "is_flat"%string) as [(v & ->)| ->]; [|reflexivity]. cbn [rbind]. destruct (RA (group r) "cosmological_model"%string) as [(m & ->)| ->]; [|reflexivity]. cbn [rbind].
    unfold read_params. replace (params_group r) with (r ++ ["cosmology"; "cosmological_parameters"]%string) by (unfold params_group, group; rewrite <- app_assoc; reflexivity).
    rewrite (st_absent _ _ _ St); [reflexivity|discriminate|]. intros x q I T (t & ->). unfold both_ops in I. apply in_app_or in I as [I|I].
    - unfold cosmo_ops, group in I. cbv beta zeta in I. rewrite P in I. inv_in I; try subst x; cbn [target] in T; try discriminate T; injection T as T; paths.
    - assert (X : op_path x = Some (r ++ "cosmology"%string :: "cosmological_parameters"%string :: t)) by (destruct x; cbn [target] in T; try discriminate T; rewrite <- app_assoc in T; exact T).
      destruct (if b then k_power c else None) as [p|]; [|destruct I]. apply in_app_or in I as [I|I].
      + apply open_ops_path in I as [->|(n & v' & -> & _)]; cbn [op_path] in X; injection X as X; apply app_self_nil in X; discriminate.
      + destruct (power_paths p r x _ I X) as (a & s & A & Y). apply app_inv_head in Y. injection Y as <- _. cbn in A. intuition discriminate.
  Qed.

  (** Where a cosmology is stored no other can be stored. *)
  Theorem C98_once meta meta' b c r h : hget h (group r) <> None -> exists st' e, save_cosmology meta meta' b c r (Some h) = (st', Err e).
  Proof.
    intros N. unfold save_cosmology, save. destruct (run_ops (open_ops meta r false ++ cosmo_ops c r) h) as [h1 [u|e]] eqn:R; [|eauto]. exfalso.
    rewrite run_app in R. destruct (run_ops (open_ops meta r false) h) as [h0 [v|e]] eqn:R0; [|discriminate]. unfold cosmo_ops in R. cbv beta zeta in R. rewrite <- app_comm_cons in R. cbn [run_ops] in R.
    assert (N0 : hget h0 (group r) <> None) by (eapply kept_there; eassumption).
    destruct (run_op (OGroup (group r)) h0) as [h2 x2] eqn:R1. destruct (run_taken (OGroup (group r)) h0 h2 x2 (group r) eq_refl) as (e & ->); [discriminate|exact N0|exact R1|discriminate R].
  Qed.

  (** ** Loading into an object *)
  Definition or_else (v w : pv F) : pv F := if is_none v then w else v.
  Lemma filled_part h r c : filled h r c = filled (restrict r ["cosmology"%string] h) r c.
  Proof.
    assert (H : forall s, hget (restrict r ["cosmology"%string] h) (r ++ "cosmology"%string :: s) = hget h (r ++ "cosmology"%string :: s)) by (intros s; rewrite hget_restrict, keep_below; reflexivity).
    assert (H1 : hget (restrict r ["cosmology"%string] h) (group r) = hget h (group r)) by apply (H []).
    assert (H2 : hget (restrict r ["cosmology"%string] h) (params_group r) = hget h (params_group r)).
    { unfold params_group, group. rewrite <- app_assoc. apply (H ["cosmological_parameters"%string]). }
    unfold filled. rewrite H1. destruct (hget h (group r)) as [[a|]|] eqn:G; try reflexivity.
    assert (RB : read_building (restrict r ["cosmology"%string] h) r = read_building h r).
    { unfold read_building, rd_attr. rewrite H1, G. unfold read_params. rewrite H2, children_restrict.
      - assert (A : forall n, attrs_of (restrict r ["cosmology"%string] h) (params_group r ++ [n]) = attrs_of h (params_group r ++ [n])) by (intros n; unfold attrs_of; rewrite !params_path, H; reflexivity).
        assert (E : forall l acc, fold_left (fun (acc : res pdict) n => d <- acc ;; p <- from_dict (attrs_of (restrict r ["cosmology"%string] h) (params_group r ++ [n])) ;; Ok (dset String.eqb d n p)) l acc =
                                  fold_left (fun (acc : res pdict) n => d <- acc ;; p <- from_dict (attrs_of h (params_group r ++ [n])) ;; Ok (dset String.eqb d n p)) l acc).
        { induction l as [|n l IH]; intros acc; [reflexivity|]. cbn [fold_left]. rewrite IH, A. reflexivity. }
        rewrite E. reflexivity.
      - intros n. rewrite params_path. apply keep_below. }
    rewrite RB. unfold populated. rewrite (populate_ext (restrict r ["cosmology"%string] h) h); [reflexivity| |].
    - apply children_restrict. intros n. unfold group. rewrite <- app_assoc. apply keep_below.
    - intros n. unfold group. rewrite <- app_assoc. apply (H [n]).
  Qed.
  Lemma populated_over h c r c0 : stored h r (cosmo_ops c r) -> (exists d, k_params c = Some d) ->
    populated h r c0 = mkCosmology (k_params c0) (k_flat c0) (k_model c0) (or_else (k_z c) (k_z c0)) (or_else (k_E c) (k_E c0)) (or_else (k_r c) (k_r c0)) (or_else (k_D c) (k_D c0)) (k_power c0).
  Proof.
    intros S (d & P). unfold populated.
    assert (X : forall n v w, In (n, v) (combine array_names [k_z c; k_E c; k_r c; k_D c]) -> getattr (combine array_names [k_z c0; k_E c0; k_r c0; k_D c0]) n = w ->
      getattr (populate h (group r) (combine array_names [k_z c0; k_E c0; k_r c0; k_D c0])) n = or_else v w).
    { intros n v w I G. rewrite populate_get, G. destruct (array_read h c r d S P n v I) as [A T]. unfold or_else. destruct (dat h (group r ++ [n])) as [e|] eqn:D.
      - rewrite <- A. destruct e; reflexivity.
      - rewrite <- A. reflexivity. }
    rewrite (X "z_grid"%string (k_z c) (k_z c0)), (X "dimensionless_hubble_array"%string (k_E c) (k_E c0)), (X "dimensionless_comoving_distance_array"%string (k_r c) (k_r c0)), (X "growth_factor_z"%string (k_D c) (k_D c0))
      by (try reflexivity; cbn; tauto). reflexivity.
  Qed.
  (** loadFromHDF5 on an object: its arrays are replaced, its parameters, flatness
      and model name are kept, if it has any. *)
  Theorem C98_load_into meta meta' b c c0 r st h d : fresh r st -> save_cosmology meta meta' b c r st = (Some h, Ok tt) -> k_params c = Some d -> NoDup (dkeys d) ->
    (forall e, k_params c0 = Some e -> valid e (or_else (k_flat c0) (k_flat c))) -> (k_params c0 = None -> valid d (or_else (k_flat c0) (k_flat c))) ->
    exists c', load_into round10 false c0 r (Some h) = Ok c' /\
      k_z c' = or_else (k_z c) (k_z c0) /\ k_E c' = or_else (k_E c) (k_E c0) /\ k_r c' = or_else (k_r c) (k_r c0) /\ k_D c' = or_else (k_D c) (k_D c0) /\
      k_flat c' = or_else (k_flat c0) (k_flat c) /\ k_model c' = or_else (k_model c0) (k_model c) /\ k_power c' = k_power c0 /\
      match k_params c0 with Some e => k_params c' = Some e | None => exists d', k_params c' = Some d' /\ params_kept d d' end.
  Proof.
    intros FR SV P ND V0 V1. pose proof (save_both _ _ _ _ _ _ _ SV) as S. pose proof (part_cosmo _ _ _ _ _ _ _ FR S) as Sp.
    destruct (building_read (cosmo_part r h) c r d Sp P ND (part_attrs _ _ _ _ _ _ _ FR S)) as (d' & R & N' & Q & _).
    unfold load_into. rewrite (load_open _ _ _ (st_root _ _ _ (save_stored _ _ _ _ _ FR S))). rewrite filled_part. fold (cosmo_part r h). unfold filled.
    pose proof (group_there (cosmo_part r h) c r Sp) as G. unfold grp in G. destruct (hget (cosmo_part r h) (group r)) as [[ag|]|]; try discriminate G. rewrite R. cbn [rbind].
    rewrite (populated_over _ c r c0 Sp (ex_intro _ d P)). cbn [k_params k_flat k_model k_z k_E k_r k_D k_power]. fold (or_else (k_flat c0) (k_flat c)). fold (or_else (k_model c0) (k_model c)).
    destruct (k_params c0) as [e|] eqn:E; cbn [k_params k_flat].
    - rewrite (V0 e eq_refl). cbn [rbind]. eexists. split; [reflexivity|]. cbn. repeat (split; [reflexivity|]). reflexivity.
    - rewrite (check_same round10 d d' _ Q), (V1 eq_refl). cbn [rbind]. eexists. split; [reflexivity|]. cbn. repeat (split; [reflexivity|]). exists d'. split; [reflexivity|]. apply kept_params; assumption.
  Qed.
  (** ** Comparison *)
  (** The arrays of a cosmology are not compared. *)
  Theorem C98_arrays_not_compared a b z E q D : cosmo_eq (mkCosmology (k_params a) (k_flat a) (k_model a) z E q D (k_power a)) b = cosmo_eq a b.
  Proof. reflexivity. Qed.
  Theorem C98_comparison_raises a b p : k_power a = None /\ k_power b = Some p \/ k_power a = Some p /\ k_power b = None -> exists e, cosmo_eq a b = Err e.
  Proof.
    intros H. unfold cosmo_eq. destruct (veq (k_model a) (k_model b)); cbn [rbind]; [|eauto]. destruct (veq (k_flat a) (k_flat b)); cbn [rbind]; [|eauto].
    destruct H as [[-> ->]|[-> ->]]; cbn; eauto.
  Qed.

  (** ** C99 *)
  Section Variation.
    Variable file : string -> option (hfile F).
    Implicit Types pars : coll F.
    (** The file that is read. *)
    Theorem C99_file pars dvar step : 
      match load_for round10 file pars dvar step with
      | Ok (c, _) =>
          (dvar = "central"%string \/ (exists p, dget String.eqb (params pars) dvar = Some p /\ is_cosmo p = false)) /\ loaded true [] (file "dvar_central_step_0"%string) = Ok c \/
          dvar <> "central"%string /\ (exists p, dget String.eqb (params pars) dvar = Some p /\ is_cosmo p = true) /\ loaded true [] (file (jobdir_name dvar step)) = Ok c
      | Err _ => True
      end.
    Proof.
      unfold load_for, used_variation. destruct (String.eqb_spec dvar "central") as [->|N]; cbn [rbind fst snd].
      - change (jobdir_name "central" 0) with "dvar_central_step_0"%string. destruct (loaded true [] (file "dvar_central_step_0"%string)) as [c|]; [|exact I]. cbn [rbind].
        destruct (pdict_eq _ _); [auto|]. destruct (rmapM _ _); cbn [rbind]; auto.
      - destruct (dget String.eqb (params pars) dvar) as [p|] eqn:D; [|exact I]. cbn [rbind]. destruct (is_cosmo p) eqn:C; cbn [fst snd].
        + destruct (loaded true [] (file (jobdir_name dvar step))) as [c|]; [|exact I]. cbn [rbind].
          assert (X : dvar <> "central"%string /\ (exists q, Some p = Some q /\ is_cosmo q = true) /\ (Ok c : res (cosmology F)) = Ok c) by eauto.
          destruct (pdict_eq _ _); [auto|]. destruct (rmapM _ _); cbn [rbind]; auto.
        + change (jobdir_name "central" 0) with "dvar_central_step_0"%string. destruct (loaded true [] (file "dvar_central_step_0"%string)) as [c|]; [|exact I]. cbn [rbind].
          assert (X : (dvar = "central"%string \/ (exists q, Some p = Some q /\ is_cosmo q = false)) /\ (Ok c : res (cosmology F)) = Ok c) by eauto.
          destruct (pdict_eq _ _); [auto|]. destruct (rmapM _ _); cbn [rbind]; auto.
    Qed.
    Theorem C99_unknown pars dvar step : dvar <> "central"%string -> dget String.eqb (params pars) dvar = None -> load_for round10 file pars dvar step = Err EKeyError.
    Proof. intros N D. unfold load_for, used_variation. destruct (String.eqb_spec dvar "central") as [->|_]; [congruence|]. rewrite D. reflexivity. Qed.

    (** What is logged: nothing if the parameters of the file are those of the run,
        else the parameters that differ; growth index aside. *)
    Definition agree (d e : @pdict F) : Prop :=
      length d = length e /\ forall n p, In (n, p) d -> exists q, dget String.eqb e n = Some q /\ pp_name p = pp_name q /\ fiducial p = fiducial q /\ is_cosmo p = is_cosmo q /\ current p = current q.
    Lemma par_eq_iff (p q : param F) : par_eq p q = true <-> pp_name p = pp_name q /\ fiducial p = fiducial q /\ is_cosmo p = is_cosmo q /\ current p = current q.
    Proof.
      unfold par_eq. rewrite !andb_true_iff, String.eqb_eq, Bool.eqb_true_iff. destruct (fdec (fiducial p) (fiducial q)), (fdec (current p) (current q)); intuition congruence.
    Qed.
    Lemma pdict_eq_iff (d e : @pdict F) : pdict_eq d e = true <-> agree d e.
    Proof.
      unfold pdict_eq, agree. rewrite andb_true_iff, Nat.eqb_eq, forallb_forall. split; intros [L H]; (split; [exact L|]).
      - intros n p I. specialize (H _ I). cbn [fst snd] in H. destruct (dget String.eqb e n) as [q|]; [|discriminate]. apply par_eq_iff in H. eauto.
      - intros [n p] I. cbn [fst snd]. destruct (H n p I) as (q & -> & E). apply par_eq_iff, E.
    Qed.
    Theorem C99_logged pars dvar step c log : load_for round10 file pars dvar step = Ok (c, log) ->
      exists d, k_params c = Some d /\
      match log with
      | None => agree d (cosmological pars)
      | Some l => ~ agree d (cosmological pars) /\
          forall n, In n l <-> n <> "gamma"%string /\ exists p q, In (n, p) d /\ dget String.eqb (params pars) n = Some q /\
             ~ (pp_name p = pp_name q /\ fiducial p = fiducial q /\ is_cosmo p = is_cosmo q /\ current p = current q)
      end.
    Proof.
      unfold load_for. destruct (used_variation pars dvar step) as [v|]; [|discriminate]. cbn [rbind]. destruct (loaded true [] _) as [c0|] eqn:L; [|discriminate]. cbn [rbind].
      assert (HP : exists d, k_params c0 = Some d).
      { unfold loaded in L. destruct (load (cosmo_rd round10) [] _) as [c1|] eqn:L1; [|discriminate]. cbn [rbind] in L. destruct (load power_rd [] _) as [p|]; [|discriminate]. injection L as <-. cbn.
        unfold load in L1. destruct (open_read _ _) as [h|]; [|discriminate]. cbn [rbind] in L1. unfold cosmo_rd in L1. destruct (read_building h []) as [[[f m] d]|] eqn:RB; [|discriminate]. cbn [rbind] in L1.
        destruct (check_parameters _ _ _); [|discriminate]. cbn [rbind] in L1. unfold filled in L1. destruct (hget h (group [])) as [[ag|]|]; try discriminate. rewrite RB in L1. cbn [rbind] in L1. injection L1 as <-. cbn. eauto. }
      destruct HP as (d & P). rewrite P. destruct (pdict_eq d (cosmological pars)) eqn:E.
      - intros X. injection X as <- <-. exists d. split; [exact P|]. apply pdict_eq_iff, E.
      - set (f := fun np : string * param F => if String.eqb (fst np) "gamma" then Ok [] else match dget String.eqb (params pars) (fst np) with Some q => Ok (if par_eq (snd np) q then [] else [fst np]) | None => Err EKeyError end).
        destruct (rmapM f d) as [l|] eqn:M; [|discriminate]. cbn [rbind]. intros X. injection X as <- <-. exists d. split; [exact P|]. split; [rewrite <- pdict_eq_iff, E; discriminate|].
        clear E P L. revert l M. induction d as [|[m p] d IH]; intros l M n.
        + injection M as <-. cbn. split; [intros []|]. intros (_ & p & q & [] & _).
        + cbn [rmapM] in M. destruct (f (m, p)) as [x|] eqn:Fx; [|discriminate]. cbn [rbind] in M. destruct (rmapM f d) as [l'|]; [|discriminate]. injection M as <-. cbn [concat]. rewrite in_app_iff.
          rewrite (IH l' eq_refl n). unfold f in Fx. cbn [fst snd] in Fx.
          assert (HX : In n x <-> n <> "gamma"%string /\ n = m /\ exists q, dget String.eqb (params pars) n = Some q /\ ~ (pp_name p = pp_name q /\ fiducial p = fiducial q /\ is_cosmo p = is_cosmo q /\ current p = current q)).
          { destruct (String.eqb_spec m "gamma") as [->|Nm]; [injection Fx as <-; cbn; intuition congruence|]. destruct (dget String.eqb (params pars) m) as [q|] eqn:Dq; [|discriminate]. injection Fx as <-.
            destruct (par_eq p q) eqn:Pe.
            - split; [intros []|]. intros (_ & -> & q' & Dq' & C). rewrite Dq in Dq'. injection Dq' as <-. apply par_eq_iff in Pe. contradiction.
            - split.
              + intros [<-|[]]. split; [exact Nm|]. split; [reflexivity|]. exists q. split; [exact Dq|]. rewrite <- par_eq_iff, Pe. discriminate.
              + intros (_ & -> & _). left. reflexivity. }
          rewrite HX. split.
          * intros [(N & -> & q & Dq & C)|(N & p' & q & I & Dq & C)]; (split; [exact N|]); [exists p, q|exists p', q]; (split; [|auto]); [left; reflexivity|right; exact I].
          * intros (N & p' & q & [I|I] & Dq & C); [injection I as <- <-; left; eauto 6|right; eauto 7].
    Qed.
    (** The file of a cosmology made with the parameters of the run. *)
    Theorem C99_own_file meta meta' c pars dvar step p :
      k_params c = Some (cosmological pars) -> NoDup (dkeys (params pars)) -> valid (cosmological pars) (k_flat c) -> k_power c = Some p ->
      (dvar = "central"%string \/ exists q, dget String.eqb (params pars) dvar = Some q) ->
      (forall name, (dvar = "central"%string \/ (exists q, dget String.eqb (params pars) dvar = Some q /\ is_cosmo q = false)) /\ name = "dvar_central_step_0"%string \/ dvar <> "central"%string /\ (exists q, dget String.eqb (params pars) dvar = Some q /\ is_cosmo q = true) /\ name = jobdir_name dvar step ->
         exists h, file name = Some h /\ save_cosmology meta meta' true c [] None = (Some h, Ok tt)) ->
      exists c', load_for round10 file pars dvar step = Ok (c', None) /\ cosmo_kept c c'.
    Proof.
      intros P ND V Pw KD Fi.
      assert (NC : NoDup (dkeys (cosmological pars))).
      { unfold cosmological, pfilter. clear - ND. induction (params pars) as [|[n p] d IH]; [constructor|]. cbn in ND. apply NoDup_cons_iff in ND as [N ND]. cbn [filter snd]. destruct (is_cosmo p); [|auto].
        cbn. constructor; [|auto]. intros I. apply N. unfold dkeys in I. apply in_map_iff in I as (x & E & I). apply filter_In in I as [I _]. apply in_map_iff. exists x. auto. }
      assert (X : exists v, used_variation pars dvar step = Ok v /\ exists h, file (jobdir_name (fst v) (snd v)) = Some h /\ save_cosmology meta meta' true c [] None = (Some h, Ok tt)).
      { unfold used_variation. destruct (String.eqb_spec dvar "central") as [->|N].
        - eexists. split; [reflexivity|]. apply Fi. auto.
        - destruct KD as [KD|(q & D)]; [congruence|]. rewrite D in *. cbn [rbind]. eexists. split; [reflexivity|]. destruct (is_cosmo q) eqn:C; apply Fi; [right|left]; eauto. }
      destruct X as (v & U & h & Fh & SV). unfold load_for. rewrite U. cbn [rbind]. rewrite Fh.
      destruct (C98_round_trip meta meta' true c [] None h _ (fresh_new _) SV P NC p eq_refl Pw V) as (c' & p' & L & CK & _). rewrite L. cbn [rbind].
      pose proof CK as (_ & _ & _ & _ & _ & _ & d & d' & Pd & Pd' & N' & KK). rewrite P in Pd. injection Pd as <-. rewrite Pd'.
      assert (E : pdict_eq d' (cosmological pars) = true).
      { apply pdict_eq_iff. split.
        - rewrite <- (map_length fst d'), <- (map_length fst (cosmological pars)). change (length (dkeys d') = length (dkeys (cosmological pars))).
          assert (I : forall n, In n (dkeys (cosmological pars)) <-> In n (dkeys d')).
          { intros n. assert (A : forall e : @pdict F, In n (dkeys e) <-> dget String.eqb e n <> None).
            { intros e. pose proof (dget_None _ String.eqb_spec e n) as X. split; [intros I E; apply X in E; contradiction|]. intros E. destruct (in_dec string_dec n (dkeys e)) as [Y|Y]; [exact Y|]. apply X in Y. contradiction. }
            rewrite !A. specialize (KK n). destruct (dget String.eqb (cosmological pars) n) as [x|]; [destruct KK as (q & -> & _)|rewrite KK]; split; congruence. }
          apply Nat.le_antisymm; apply NoDup_incl_length; try assumption; intros n; apply I.
        - intros n q I. apply (dget_NoDup_In _ String.eqb_spec _ _ _ N') in I. specialize (KK n). destruct (dget String.eqb (cosmological pars) n) as [x|]; [|congruence].
          destruct KK as (q' & D & Kp). rewrite D in I. injection I as ->. exists x. split; [reflexivity|]. destruct Kp as (A1 & A2 & A3 & A4 & _). auto. }
      rewrite E. eauto.
    Qed.
  End Variation.
End Props.
Print Assumptions C98_round_trip.
Print Assumptions C98_without_spectrum.
Print Assumptions C98_invalid.
Print Assumptions C98_no_parameters.
Print Assumptions C98_once.
Print Assumptions C98_load_into.
Print Assumptions C98_arrays_not_compared.
Print Assumptions C98_comparison_raises.
Print Assumptions C99_file.
Print Assumptions C99_unknown.
Print Assumptions C99_logged.
Print Assumptions C99_own_file.
