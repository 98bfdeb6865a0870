(** Properties C35-C38: parameters and their files. *)
From Verif Require Import Base SortLib StrLib FrameModel FrameLemmas EvalModel FsModel ParamModel OrdLib ParamFileModel EvalSpec EllLemmas StemModel
  ParamLemmas ParamLemmas2 StemLemmas StemLemmas3 CovLemmas.
From Coq Require Import Field Sorted Permutation Qcanon.
Close Scope Qc_scope.
Open Scope list_scope.

Section Props.
  Context {F : Type} {K : Fld F} {O : OFld (F := F)}.
  Add Field FldPP : (fth (F := F)).
  Open Scope fld_scope.
  Context (degen : list F -> list F -> F * F).

  (** ** C35 *)
  Theorem C35_value (p : param F) eps :
    (fiducial p <> 0 -> value_for p eps = fiducial p * (1 + eps * stem_factor p)) /\
    (fiducial p = 0 -> value_for p eps = eps * stem_factor p).
  Proof. rewrite value_for_eq. split; intros H; destruct (fdec (fiducial p) 0); congruence. Qed.
  Theorem C35_monotone (p : param F) a b : flt 0 (stem_factor p) -> fle 0 (fiducial p) -> flt a b -> flt (value_for p a) (value_for p b).
  Proof. exact (value_mono p a b). Qed.
  Theorem C35_monotone_negative_fiducial (p : param F) a b :
    flt 0 (stem_factor p) -> flt (fiducial p) 0 -> flt a b -> flt (value_for p b) (value_for p a).
  Proof. exact (value_anti p a b). Qed.
  (** Loaded displacements: distinct and non-zero up to sign. *)
  Theorem C35_ordered (p : param F) base c : (forall x, In x base -> x <> 0) -> NoDup (map fabs base) -> flt 0 (stem_factor p) ->
    let values := stem_values p (stem_disps (load_stem base c)) in
    length values = (2 * length base + 1)%nat /\ nth_error values (length base) = Some (fiducial p) /\
    (fle 0 (fiducial p) -> StronglySorted flt values) /\ (flt (fiducial p) 0 -> StronglySorted (fun a b => flt b a) values).
  Proof.
    intros Nz Nd Hf. cbn zeta. split; [apply stem_length|]. split; [apply stem_middle|].
    split; intros Hp; [apply (stem_increasing p base Nz Nd Hf Hp)|apply (stem_decreasing p base Nz Nd Hf Hp)].
  Qed.
  Theorem C35_distinct_values (p : param F) base c : (forall x, In x base -> x <> 0) -> NoDup (map fabs base) -> stem_factor p <> 0 ->
    NoDup (stem_values p (stem_disps (load_stem base c))).
  Proof. exact (fun Nz Nd Hf => stem_NoDup p base Nz Nd Hf). Qed.

  (** ** C36 *)
  Theorem C36_sum_to_one dvar step (c c1 : coll F) u : flat c = true -> dvar = "Omm"%string \/ dvar = "OmDE"%string ->
    update_step dvar step c = (c1, Ok u) ->
    exists m l, pget c1 "Omm" = Some m /\ pget c1 "OmDE" = Some l /\ current m + current l = 1.
  Proof. exact (update_flat dvar step c c1 u). Qed.
  (** Any sequence of updates, of any parameters, failing or not, when at most
      one of the two densities is free. *)
  Theorem C36_history l (c : coll F) : flat c = true ->
    (exists m l, pget c "Omm" = Some m /\ pget c "OmDE" = Some l /\ fiducial m + fiducial l = 1 /\ current m + current l = 1 /\
       (is_free m && is_free l = false)) ->
    exists m r, pget (run_updates l c) "Omm" = Some m /\ pget (run_updates l c) "OmDE" = Some r /\ current m + current r = 1.
  Proof. intros Hf H. destruct (flat_ok_run l c (conj Hf H)) as (_ & m & r & A & B & _ & C & _). exists m, r. auto. Qed.

  (** ** C37 *)
  (** The call at one step: what is displaced and which power spectrum is read. *)
  Theorem C37_one_step dvar step (c c1 : coll F) u : dvar <> "central"%string -> update_step dvar step c = (c1, Ok u) ->
    exists p eps, pget c dvar = Some p /\ is_free p = true /\ dget Z.eqb (stem_dict c) step = Some eps /\
      stem_disps c1 = stem_disps c /\ stem_dict c1 = stem_dict c /\ flat c1 = flat c /\
      pmm_source dvar step c1 = Ok (if is_cosmo p then (dvar, step) else ("central"%string, 0%Z)) /\
      forall n, pget c1 n =
        if String.eqb n dvar then Some (with_current p (value_for p eps))
        else if flat c && is_dens dvar && String.eqb n (partner dvar) then option_map (fun q => with_current q (1 - value_for p eps)) (pget c n)
        else pget c n.
  Proof.
    intros Hd H. destruct (update_displaced dvar step c c1 u Hd H) as (eps & Ee & A & B & C & p & Ep & Hn).
    destruct (update_ok dvar step c c1 u Hd H) as (p' & eps' & Ep' & Fp & _). assert (p' = p) by congruence. subst p'.
    exists p, eps. repeat (split; [assumption|]). split; [|exact Hn]. unfold pmm_source. rewrite (Hn dvar), String.eqb_refl.
    destruct (String.eqb_spec dvar "central"); [contradiction|]. cbn [with_current is_cosmo]. destruct (is_cosmo p); reflexivity.
  Qed.
  (** A whole run of one parameter. *)
  Theorem C37_run {A} compute dvar (fid : A) (c c' : coll F) d : NoDup (dkeys (params c)) ->
    (forall n p, pget c n = Some p -> current p = fiducial p) -> dvar <> "central"%string ->
    cls_variations compute dvar fid c = (c', Ok d) ->
    c' = c /\ exists h, d = (0%Z, fid) :: map (fun s => (s, h s)) (steps_of 7) /\
      forall s, (-7 <= s <= 7)%Z -> s <> 0%Z -> exists eps c1 src, dget Z.eqb (stem_dict c) s = Some eps /\ displaced_only dvar eps c c1 /\
        pmm_source dvar s c1 = Ok src /\ compute src c1 = Ok (h s).
  Proof.
    intros N Hf Hd H. destruct (variations_ok compute dvar fid c c' d N Hf Hd H) as (E & h & Ed & Hs). split; [exact E|]. exists h. split; [exact Ed|].
    intros s Hr Hz. apply Hs. apply (proj2 (steps_In 7 s)). split; [lia|exact Hz].
  Qed.
  (** All parameters one after the other. *)
  Theorem C37_all_parameters compute dvars fid (c c' : coll F) r : NoDup (dkeys (params c)) ->
    (forall n p, pget c n = Some p -> current p = fiducial p) -> ~ In "central"%string dvars ->
    derive_all degen compute dvars fid c = (c', Ok r) ->
    c' = c /\ dkeys r = dvars /\ forall dvar q, In (dvar, q) r -> derivatives_wrt degen compute dvar fid c = (c, Ok q).
  Proof.
    intros N Hf. revert r. induction dvars as [|d ds IH]; intros r Nc H; cbn [derive_all] in H.
    - injection H as <- <-. split; [reflexivity|]. split; [reflexivity|]. intros ? ? [].
    - destruct (derivatives_wrt degen compute d fid c) as [c1 [q|e]] eqn:E; [|discriminate].
      assert (E1 : c1 = c).
      { unfold derivatives_wrt in E. destruct (cls_variations compute d fid c) as [c2 [vs|e]] eqn:Ev; [|discriminate].
        destruct (variations_ok compute d fid c c2 vs N Hf) as [-> _]; [intros C; apply Nc; left; exact C|exact Ev|].
        injection E as <- _. reflexivity. }
      subst c1. destruct (derive_all degen compute ds fid c) as [c2 [rs|e]] eqn:Er; [|discriminate]. injection H as <- <-.
      destruct (IH rs) as (-> & Ek & Hq); [intros C; apply Nc; right; exact C|reflexivity|]. split; [reflexivity|].
      split; [cbn; f_equal; exact Ek|]. intros dvar q' [G|G]; [injection G as <- <-; exact E|apply Hq, G].
  Qed.
  (** Whatever happens, only current values differ: a reset restores everything. *)
  Theorem C37_reset_restores {A} compute dvar (fid : A) (c : coll F) : NoDup (dkeys (params c)) ->
    (forall n p, pget c n = Some p -> current p = fiducial p) -> reset_all (fst (cls_variations compute dvar fid c)) = c.
  Proof. intros N Hf. unfold cls_variations. rewrite vary_reset. apply fiducial_reset; assumption. Qed.

  (** ** C38 *)
  Definition same_param (p q : param F) : Prop :=
    pp_name p = pp_name q /\ fiducial p = fiducial q /\ current p = current q /\ is_cosmo p = is_cosmo q /\
    stem_factor p = stem_factor q /\ is_free p = is_free q /\ punits p = punits q /\ dmethod p = dmethod q /\
    (is_cosmo p = false -> pprobe p = pprobe q).
  Lemma kept_same p : same_param p (kept_par p).
  Proof. unfold same_param, kept_par. cbn. repeat (split; [reflexivity|]). intros ->. reflexivity. Qed.
  Lemma same_eq p q : same_param p q -> par_eq p q = true.
  Proof.
    intros (A & B & C & D & _). unfold par_eq. rewrite A, B, C, D, String.eqb_refl, eqb_reflx.
    destruct (fdec (fiducial q) (fiducial q)); [|contradiction]. destruct (fdec (current q) (current q)); [reflexivity|contradiction].
  Qed.
  Theorem C38_round_trip file (c : coll F) base s s' : loaded_from base c -> ~ In 0 base ->
    NoDup (dkeys (params c)) -> (forall n p, In (n, p) (params c) -> pp_name p = n) ->
    (forall n p, In (n, p) (params c) -> is_cosmo p = true \/ pprobe p <> None) ->
    write_params file c s = (s', Ok tt) ->
    exists c', load_params false file s' = Ok c' /\
      Forall2 (fun kp kq => fst kp = fst kq /\ same_param (snd kp) (snd kq) /\ par_eq (snd kp) (snd kq) = true) (params c) (params c') /\
      stem_disps c' = stem_disps c /\ stem_dict c' = stem_dict c /\ flat c' = flat c.
  Proof.
    intros Hl Hz N Hn Hp H. unfold write_params, write_plan in H. cbn [psteps pstep] in H.
    destruct (p_write file None s) as [s1 [u1|]] eqn:E1; [|discriminate]. destruct (p_write file (Some (to_json c)) s1) as [s2 [u2|]] eqn:E2; [|discriminate].
    injection H as <-. assert (R : p_read s2 file = Ok (Some (to_json c))).
    { unfold p_write in E2. destruct (negb _); [discriminate|].
      assert (G : s2 = dset sl_eqb s1 file (NFile (Some (to_json c)))).
      { destruct file as [|x file]; [discriminate|]. destruct (lookup s1 (x :: file)) as [[|]|]; [discriminate| |]; injection E2 as <- _; reflexivity. }
      unfold p_read, lookup. rewrite G, (dget_dset_same _ sl_eqb_spec). reflexivity. }
    unfold load_params. rewrite R. cbn [rbind]. rewrite load_written by (split; [exact N|intros n p Hi; split; [eapply Hn; exact Hi|eapply Hp; exact Hi]]).
    eexists. split; [reflexivity|]. cbn [params load_stem flat].
    destruct (reloaded base c (mkColl (keep_dict false (params c)) [] [] (flat c)) Hz Hl) as [A B]. split; [|split; [exact A|split; [exact B|reflexivity]]].
    unfold keep_dict. cbn [negb orb]. rewrite filter_all by reflexivity. clear. induction (params c) as [|[n p] d IH]; constructor; [|exact IH].
    cbn [fst snd]. split; [reflexivity|]. split; [apply kept_same|]. apply same_eq, kept_same.
  Qed.
  (** Reading with only_cosmological keeps exactly the cosmological ones. *)
  Theorem C38_only_cosmological (c : coll F) : NoDup (dkeys (params c)) ->
    (forall n p, In (n, p) (params c) -> pp_name p = n /\ (is_cosmo p = true \/ pprobe p <> None)) ->
    exists c', from_json true (to_json c) = Ok c' /\
      Forall2 (fun kp kq => fst kp = fst kq /\ same_param (snd kp) (snd kq)) (cosmological c) (params c').
  Proof.
    intros N Hn. rewrite load_written by (split; [exact N|exact Hn]). eexists. split; [reflexivity|]. cbn [params load_stem].
    unfold keep_dict, cosmological, pfilter. cbn [negb orb]. induction (filter _ (params c)) as [|[n p] d IH]; constructor; [|exact IH].
    split; [reflexivity|apply kept_same].
  Qed.
  (** A crash while writing leaves a file that cannot be read, never one that
      reads as something else. *)
  Theorem C38_interrupted_write file (c : coll F) s k oc : (k < 2)%nat ->
    let s' := fst (psteps (firstn k (write_plan file c)) s) in
    s' = s \/ load_params oc file s' = Err EValueError.
  Proof.
    intros Hk. destruct k as [|[|k]]; [left; reflexivity| |lia]. cbn [write_plan firstn psteps pstep].
    destruct (p_write file None s) as [s1 [u1|e]] eqn:E1; cbn [fst].
    - right. unfold p_write in E1. destruct (negb _); [discriminate|].
      assert (G : s1 = dset sl_eqb s file (NFile None)).
      { destruct file as [|x file]; [discriminate|]. destruct (lookup s (x :: file)) as [[|]|]; [discriminate| |]; injection E1 as <- _; reflexivity. }
      unfold load_params, p_read, lookup. rewrite G, (dget_dset_same _ sl_eqb_spec). reflexivity.
    - left. unfold p_write in E1. destruct (negb _); [injection E1 as <- _; reflexivity|].
      destruct file as [|x file]; [injection E1 as <- _; reflexivity|]. destruct (lookup s (x :: file)) as [[|]|]; [injection E1 as <- _; reflexivity|discriminate|discriminate].
  Qed.
End Props.

(** Examples and refutations over the rationals. *)
Section Examples.

  Definition par name fid free cosmo probe : param Qc := mkPar name fid fid cosmo probe (qz 1) free "" "None" "SteM".
  Definition ex_base : list Qc := [qq 1 10; qq 1 20; qq 1 5].
  Definition ex_coll : coll Qc :=
    load_stem ex_base (mkColl [("Omm"%string, par "Omm" (qq 3 10) true true None); ("OmDE"%string, par "OmDE" (qq 7 10) false true None);
                    ("b0"%string, par "b0" (qz 2) true false (Some "PhotometricGalaxy"%string))] [] [] true).
  Definition seven_base : list Qc := map (fun n => qq (Z.of_nat n) 100) [1; 2; 3; 4; 5; 6; 7].
  Definition ex_coll7 : coll Qc := load_stem seven_base ex_coll.

  Example C35_ex : (forall x, In x ex_base -> x <> fz) /\ NoDup (map fabs ex_base) /\
    map this (stem_values (par "Omm" (qq 3 10) true true None) (stem_disps ex_coll)) =
      map this [qq 6 25; qq 27 100; qq 57 200; qq 3 10; qq 63 200; qq 33 100; qq 9 25].
  Proof.
    split; [|split].
    - intros x [<-|[<-|[<-|[]]]] C; discriminate C.
    - repeat constructor; cbn; intros C; repeat destruct C as [C|C]; try discriminate C; exact C.
    - vm_compute. reflexivity.
  Qed.
  Example C36_ex : exists c1, update_step "Omm" 2 ex_coll = (c1, Ok tt) /\
    option_map (fun p => this (current p)) (pget c1 "Omm") = Some (this (qq 33 100)) /\
    option_map (fun p => this (current p)) (pget c1 "OmDE") = Some (this (qq 67 100)).
  Proof. eexists. split; [vm_compute; reflexivity|split; vm_compute; reflexivity]. Qed.
  Example C36_history_ex : exists m l, pget ex_coll "Omm" = Some m /\ pget ex_coll "OmDE" = Some l /\
    fadd (fiducial m) (fiducial l) = fo /\ fadd (current m) (current l) = fo /\ (is_free m && is_free l = false).
  Proof. do 2 eexists. split; [reflexivity|]. split; [reflexivity|]. split; [apply Qc_is_canon; reflexivity|]. split; [apply Qc_is_canon; reflexivity|reflexivity]. Qed.

  (** When both densities are free the update is refused, but only after the
      parameter was displaced. *)
  Definition both_free : coll Qc :=
    load_stem ex_base (mkColl [("Omm"%string, par "Omm" (qq 3 10) true true None); ("OmDE"%string, par "OmDE" (qq 7 10) true true None)] [] [] true).
  Theorem C36_refused_update_displaces : exists (c c1 : coll Qc) e m l m1 l1, flat c = true /\
    pget c "Omm" = Some m /\ pget c "OmDE" = Some l /\ fadd (current m) (current l) = fo /\
    update_step "Omm" 1 c = (c1, Err e) /\
    pget c1 "Omm" = Some m1 /\ pget c1 "OmDE" = Some l1 /\ fadd (current m1) (current l1) <> fo.
  Proof.
    exists both_free. do 6 eexists. split; [reflexivity|]. split; [reflexivity|]. split; [reflexivity|].
    split; [apply Qc_is_canon; reflexivity|]. split; [vm_compute; reflexivity|]. split; [reflexivity|]. split; [reflexivity|]. intros C. apply (f_equal this) in C. vm_compute in C. discriminate C.
  Qed.

  (** C37: a run that succeeds. *)
  Definition show_compute (src : string * Z) (c : coll Qc) : res (string * Z * list (string * QArith_base.Q)) :=
    Ok (src, map (fun kv => (fst kv, this (current (snd kv)))) (params c)).
  Example C37_ex : exists d, cls_variations show_compute "Omm" (("central"%string, 0%Z), []) ex_coll7 = (ex_coll7, Ok d) /\
    dget Z.eqb d 7%Z = Some (("Omm"%string, 7%Z), [("Omm"%string, this (qq 321 1000)); ("OmDE"%string, this (qq 679 1000)); ("b0"%string, this (qz 2))]).
  Proof. eexists. split; vm_compute; reflexivity. Qed.
  (** An exception leaves the parameter displaced, and a later run for another
      parameter is computed at that displaced value. *)
  Definition fails_at (n : Z) (src : string * Z) (c : coll Qc) : res (list (string * QArith_base.Q)) :=
    if String.eqb (fst src) "Omm" && Z.eqb (snd src) n then Err EException else Ok (map (fun kv => (fst kv, this (current (snd kv)))) (params c)).
  Theorem C37_after_an_error_refuted : exists (c c1 c2 : coll Qc) e d v w,
    (forall n p, In (n, p) (params c) -> current p = fiducial p) /\
    cls_variations (fails_at 3) "Omm" [] c = (c1, Err e) /\
    (exists p, pget c1 "Omm" = Some p /\ current p <> fiducial p) /\
    cls_variations (fails_at 3) "b0" [] c1 = (c2, Ok d) /\
    dget Z.eqb d (-7)%Z = Some v /\ dget String.eqb v "Omm"%string = Some w /\ w <> this (qq 3 10).
  Proof.
    exists ex_coll7. do 6 eexists. split; [|split; [vm_compute; reflexivity|split; [|split; [vm_compute; reflexivity|split; [reflexivity|split; [reflexivity|]]]]]].
    - intros n p [H|[H|[H|[]]]]; injection H as <- <-; reflexivity.
    - eexists. split; [reflexivity|]. intros C. apply (f_equal this) in C. vm_compute in C. discriminate C.
    - discriminate.
  Qed.

  (** C38. *)
  Definition ex_fs : pfs (F := Qc) := [(["run"]%string, NDir)].
  Example C38_ex : exists s', write_params ["run"; "p.json"]%string ex_coll ex_fs = (s', Ok tt) /\
    loaded_from ex_base ex_coll /\ ~ In (fz : Qc) ex_base /\ NoDup (dkeys (params ex_coll)) /\
    (forall n p, In (n, p) (params ex_coll) -> pp_name p = n /\ (is_cosmo p = true \/ pprobe p <> None)).
  Proof.
    eexists. split; [reflexivity|]. split; [split; reflexivity|]. split; [intros [C|[C|[C|[]]]]; discriminate C|]. split.
    - repeat constructor; cbn; intros C; repeat destruct C as [C|C]; try discriminate C; exact C.
    - intros n p [H|[H|[H|[]]]]; injection H as <- <-; (split; [reflexivity|]); first [left; reflexivity|right; discriminate].
  Qed.
  (** A zero displacement is lost. *)
  Theorem C38_zero_displacement_refuted : exists (c c' : coll Qc) base, loaded_from base c /\ from_json false (to_json c) = Ok c' /\
    length (stem_disps c) = 4 /\ length (stem_disps c') = 2.
  Proof.
    exists (load_stem [qz 0; qq 1 10] (mkColl [] [] [] true)). eexists. exists [qz 0; qq 1 10]. split; [split; reflexivity|]. split; [vm_compute; reflexivity|split; vm_compute; reflexivity].
  Qed.
  (** A parameter stored under another key than its name changes its key; two
      keys with one parameter name become one. *)
  Theorem C38_key_differs_from_name_refuted : exists (c c' : coll Qc), NoDup (dkeys (params c)) /\ from_json false (to_json c) = Ok c' /\
    length (params c) = 2 /\ length (params c') = 1.
  Proof.
    exists (mkColl [("a"%string, par "x" (qz 1) true true None); ("b"%string, par "x" (qz 2) true true None)] [] [] true). eexists.
    split; [repeat constructor; cbn; intros C; repeat destruct C as [C|C]; try discriminate C; exact C|]. split; [vm_compute; reflexivity|split; reflexivity].
  Qed.
  (** The description, and the probe of a cosmological parameter, are not
      written. *)
  Theorem C38_description_refuted : exists (p q : param Qc), from_dict (to_dict p) = Ok q /\ pdescr p <> pdescr q /\ pprobe p <> pprobe q.
  Proof.
    exists (mkPar "h" (qq 7 10) (qq 7 10) true (Some "WL"%string) (qz 1) true "Hubble parameter" "None" "SteM"). eexists.
    split; [reflexivity|]. split; discriminate.
  Qed.
End Examples.

Print Assumptions C35_value.
Print Assumptions C35_monotone.
Print Assumptions C35_monotone_negative_fiducial.
Print Assumptions C35_ordered.
Print Assumptions C35_distinct_values.
Print Assumptions C36_sum_to_one.
Print Assumptions C36_history.
Print Assumptions C37_one_step.
Print Assumptions C37_run.
Print Assumptions C37_all_parameters.
Print Assumptions C37_reset_restores.
Print Assumptions C38_round_trip.
Print Assumptions C38_only_cosmological.
Print Assumptions C38_interrupted_write.
Print Assumptions C36_refused_update_displaces.
Print Assumptions C37_after_an_error_refuted.
Print Assumptions C38_zero_displacement_refuted.
Print Assumptions C38_key_differs_from_name_refuted.
Print Assumptions C38_description_refuted.
