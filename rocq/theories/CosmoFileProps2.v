(** Files of cosmologies, continued: the checks over the real numbers, variations
    of nuisance parameters, what goes wrong (C98, C99). *)
From Coq Require Import Reals Lra QArith Qcanon.
From Verif Require Import Base SortLib StrLib FrameModel FrameLemmas FsModel ParamModel ParamFileModel KeyModel NameModel H5Model H5Lemmas H5Lemmas2 H5Lemmas3 H5Props H5Props2 ParamLemmas2 CosmoFileModel CosmoFileLemmas CosmoFileProps RealInst CosmoModel.
Close Scope Qc_scope. Close Scope Q_scope. Close Scope R_scope.
Open Scope list_scope.

(** The checks made when a file is loaded are those of the constructor. *)
Lemma abs_ge2_iff (x : R) : abs_ge2 x = true <-> (2 <= Rabs x)%R.
Proof.
  unfold abs_ge2, two, fleb. rewrite orb_true_iff. change (fadd fo fo) with (1 + 1)%R. change (fopp (1 + 1)%R) with (- (1 + 1))%R.
  destruct (fle_dec (1 + 1)%R x) as [A|A]; change ((1 + 1 <= x)%R) in A || change (~ (1 + 1 <= x)%R) in A;
  destruct (fle_dec x (- (1 + 1))%R) as [B|B]; change ((x <= - (1 + 1))%R) in B || change (~ (x <= - (1 + 1))%R) in B;
  unfold Rabs; destruct (Rcase_abs x); split; intros; try lra; try tauto; try (destruct H; discriminate).
Qed.
Theorem C98_checks (d : cpars) (f : bool) : check_parameters (round_to 10) d f = check_cosmo d f.
Proof.
  assert (G : forall (x : R) (A : Type) (a b : A), (if ge1 x then a else b) = if Rle_dec 1 x then a else b).
  { intros x A a b. unfold ge1, fleb. change (@fo R R_Fld) with 1%R. destruct (fle_dec 1%R x) as [P|P], (Rle_dec 1 x) as [Q|Q]; try reflexivity; contradiction. }
  assert (H : forall (x : R) (A : Type) (a b : A), (if abs_ge2 x then a else b) = if Rle_dec 2 (Rabs x) then a else b).
  { intros x A a b. pose proof (abs_ge2_iff x) as I. destruct (abs_ge2 x), (Rle_dec 2 (Rabs x)); try reflexivity; [exfalso; apply n, I; reflexivity|exfalso; assert (false = true) by (apply I; assumption); discriminate]. }
  assert (Or : forall (a b : bool) (A : Type) (x y : A), (if a || b then x else y) = if a then x else if b then x else y) by (intros [] b A x y; reflexivity).
  unfold check_parameters, check_cosmo.
  destruct (dget String.eqb d "w0") as [p|]; [rewrite Or, !G|]; (destruct (dget String.eqb d "wa") as [q|]; [rewrite Or, !H|]).
  all: repeat match goal with |- context [if Rle_dec ?a ?b then _ else _] => destruct (Rle_dec a b); [reflexivity|] end; cbn [rbind].
  all: destruct f; [|reflexivity]; unfold OmK, cur, current_of, dgetr, rmap; destruct (dget String.eqb d "Omm") as [m|]; [|reflexivity]; cbn [rbind]; destruct (dget String.eqb d "OmDE") as [l|]; [|reflexivity]; cbn [rbind].
  all: change (fsub fo (fadd (current m) (current l))) with (1 - (current m + current l))%R; change (@fz R R_Fld) with 0%R.
  all: destruct (fdec (round_to 10 (1 - (current m + current l))) 0%R) as [E|E], (Req_EM_T (round_to 10 (1 - (current m + current l))) 0) as [E'|E']; try reflexivity; contradiction.
Qed.

Section More.
  Context {F : Type} {K : Fld F} {O : OFld (F := F)}.
  Variable round10 : F -> F.

  (** Varying a nuisance parameter leaves the cosmological ones alone, so the
      central file is the right one. *)
  Lemma filter_dset (d : @pdict F) n p q : dget String.eqb d n = Some p -> is_cosmo p = false -> is_cosmo q = false -> pfilter is_cosmo (dset String.eqb d n q) = pfilter is_cosmo d.
  Proof.
    intros D A B. induction d as [|[m x] d IH]; [discriminate|]. cbn [dget dset] in *. destruct (String.eqb_spec m n) as [->|N].
    - injection D as ->. unfold pfilter. cbn [filter snd]. rewrite A, B. reflexivity.
    - unfold pfilter in *. cbn [filter snd]. rewrite (IH D). reflexivity.
  Qed.
  Theorem C99_nuisance (file : string -> option (hfile F)) meta meta' (c : cosmology F) (pars pars' : coll F) dvar step p q h :
    k_params c = Some (cosmological pars) -> NoDup (dkeys (params pars)) -> check_parameters round10 (cosmological pars) (truthy (k_flat c)) = Ok tt -> k_power c = Some p ->
    dget String.eqb (params pars) dvar = Some q -> is_cosmo q = false -> ~ In dvar ["central"; "Omm"; "OmDE"]%string -> update_step dvar step pars = (pars', Ok tt) ->
    file "dvar_central_step_0"%string = Some h -> save_cosmology meta meta' true c [] None = (Some h, Ok tt) ->
    exists c', load_for round10 file pars' dvar step = Ok (c', None) /\ cosmo_kept c c'.
  Proof.
    intros P ND V Pw D Nu Nd U Fh SV.
    assert (U' : exists q', params pars' = dset String.eqb (params pars) dvar q' /\ is_cosmo q' = false).
    { unfold update_step in U. destruct (String.eqb_spec dvar "central") as [->|_]; [exfalso; apply Nd; left; reflexivity|]. unfold pget in U. rewrite D in U. destruct (negb (is_free q)); [discriminate|].
      destruct (dget Z.eqb (stem_dict pars) step) as [eps|]; [|discriminate].
      destruct (String.eqb_spec dvar "Omm") as [->|_]; [exfalso; apply Nd; right; left; reflexivity|]. destruct (String.eqb_spec dvar "OmDE") as [->|_]; [exfalso; apply Nd; right; right; left; reflexivity|].
      cbn [orb] in U. rewrite andb_false_r in U. injection U as <-. exists (displaced q eps). split; [reflexivity|exact Nu]. }
    destruct U' as (q' & E & Nq). assert (EC : cosmological pars' = cosmological pars) by (unfold cosmological; rewrite E; exact (filter_dset _ _ _ _ D Nu Nq)).
    assert (D' : dget String.eqb (params pars') dvar = Some q') by (rewrite E; apply (dget_dset_same _ String.eqb_spec)).
    apply (C99_own_file round10 file meta meta' c pars' dvar step p).
    - rewrite EC. exact P.
    - rewrite E. apply (NoDup_dset _ String.eqb_spec). exact ND.
    - rewrite EC. exact V.
    - exact Pw.
    - right. eauto.
    - intros name [[_ ->]|(_ & (x & Dx & Cx) & _)]; [eauto|]. rewrite D' in Dx. injection Dx as <-. congruence.
  Qed.

  (** ** Expectations that fail *)
  Lemma fz_neq_fo : fz <> (fo : F).
  Proof. intros E. destruct fth as [_ N _ _]. apply N. symmetry. exact E. Qed.
  Definition a_par (n : string) (v : F) : param F := mkPar n v v true None fo true "" "" "SteM".
  Definition a_grid : pv F := VArr (mkArr [2] [Some fz; Some fo]).
  Definition b_grid : pv F := VArr (mkArr [2] [Some fo; Some fo]).
  Definition a_spectrum : obj F := setattr (setattr (setattr (setattr new_power "z_grid" a_grid) "k_grid" a_grid) "lin_p_mm_z_k" a_grid) "nonlin_p_mm_z_k" a_grid.
  Definition a_cosmology (v : F) (z : pv F) (s : option (obj F)) : cosmology F := mkCosmology (Some [("h"%string, a_par "h" v)]) (VBool false) (VStr "CPL") z VNone VNone VNone s.

  (** Saved without its power spectrum a cosmology is not loaded by default. *)
  Theorem C98_spectrum_refuted : forall meta meta', exists (c : cosmology F) h, save_cosmology meta meta' true c [] None = (Some h, Ok tt) /\ load_cosmology round10 true [] (Some h) = Err EKeyError.
  Proof. intros meta meta'. exists (a_cosmology fo a_grid None). eexists. split; reflexivity. Qed.
  (** Without a redshift grid it is not saved; what is left in the file prevents
      saving it again with one. *)
  Theorem C98_no_grid_refuted : forall meta meta', exists (c c1 : cosmology F) h, save_cosmology meta meta' true c [] None = (Some h, Err ETypeError) /\ k_z c1 <> VNone /\
    (exists h1, save_cosmology meta meta' true c1 [] None = (Some h1, Ok tt)) /\ exists h1, save_cosmology meta meta' true c1 [] (Some h) = (Some h1, Err EValueError).
  Proof.
    intros meta meta'. exists (a_cosmology fo VNone None), (a_cosmology fo a_grid None). eexists. split; [reflexivity|]. split; [discriminate|]. split; eexists; reflexivity.
  Qed.
  Theorem C98_no_parameters_refuted : forall meta meta', exists (c : cosmology F) h, save_cosmology meta meta' true c [] None = (Some h, Ok tt) /\ load_cosmology round10 false [] (Some h) = Err EKeyError.
  Proof. intros meta meta'. exists (mkCosmology None (VBool true) (VStr "CPL") a_grid VNone VNone VNone None). eexists. split; reflexivity. Qed.
  (** Loading into a cosmology gives one with its old parameters and the arrays
      of the file. *)
  Theorem C98_load_into_refuted : forall meta meta', exists (c c0 : cosmology F) h c', save_cosmology meta meta' true c [] None = (Some h, Ok tt) /\ load_into round10 false c0 [] (Some h) = Ok c' /\
    k_params c' = k_params c0 /\ k_params c' <> k_params c /\ k_z c' = k_z c /\ k_z c' <> k_z c0.
  Proof.
    intros meta meta'. set (c := a_cosmology fo b_grid (Some a_spectrum)). set (c0 := a_cosmology fz a_grid None).
    assert (S : exists h, save_cosmology meta meta' true c [] None = (Some h, Ok tt)) by (eexists; vm_compute; reflexivity). destruct S as (h & S).
    destruct (C98_load_into round10 meta meta' true c c0 [] None h _ (fresh_new _) S eq_refl) as (c' & L & Z & _ & _ & _ & _ & _ & _ & P).
    - repeat constructor. intros [].
    - intros e E. injection E as <-. reflexivity.
    - discriminate.
    - exists c, c0, h, c'. split; [exact S|]. split; [exact L|]. cbn in P. rewrite P, Z. cbn. split; [reflexivity|]. split; [|split; [reflexivity|]]; intros E; injection E; intros; apply fz_neq_fo; congruence.
  Qed.
  (** Two cosmologies over different redshifts compare equal. *)
  Theorem C98_equality_refuted : exists c c' : cosmology F, k_z c <> k_z c' /\ cosmo_eq c c' = Ok true.
  Proof.
    exists (a_cosmology fo a_grid None), (a_cosmology fo b_grid None). split.
    - cbn. intros E. injection E. intros. apply fz_neq_fo. congruence.
    - cbn. unfold pdict_eq. cbn. rewrite (proj2 (par_eq_iff _ _)); [reflexivity|auto].
  Qed.
  (** A file with other values than those of the run is used all the same. *)
  Theorem C99_inconsistent_refuted : forall meta meta', exists (c : cosmology F) (pars : coll F) h c' e, save_cosmology meta meta' true c [] None = (Some h, Ok tt) /\
    load_for round10 (fun _ => Some h) pars "central" 0 = Ok (c', Some ["h"%string]) /\ k_params c' = Some [("h"%string, e)] /\
    exists q, dget String.eqb (params pars) "h" = Some q /\ current e <> current q.
  Proof.
    intros meta meta'. set (c := a_cosmology fo a_grid (Some a_spectrum)). set (pars := mkColl [("h"%string, a_par "h" fz)] [] [] false).
    assert (S : exists h, save_cosmology meta meta' true c [] None = (Some h, Ok tt)) by (eexists; vm_compute; reflexivity). destruct S as (h & S).
    destruct (C98_round_trip round10 meta meta' true c [] None h _ (fresh_new _) S eq_refl) with (p := a_spectrum) as (c' & p' & L & KK & _); try reflexivity.
    - repeat constructor. intros [].
    - destruct KK as (_ & _ & _ & _ & _ & _ & d & d' & Pd & Pd' & N' & KK). injection Pd as <-.
      assert (D : exists e, d' = [("h"%string, e)] /\ param_kept (a_par "h" fo) e).
      { pose proof (KK "h"%string) as H. cbn in H. destruct H as (e & De & Ke). exists e. split; [|exact Ke].
        assert (A : forall n q, In (n, q) d' -> n = "h"%string).
        { intros n q I. specialize (KK n). cbn [dget] in KK. destruct (String.eqb_spec "h" n) as [|E]; [auto|]. apply (dget_NoDup_In _ String.eqb_spec _ _ _ N') in I. congruence. }
        destruct d' as [|[n q] d']; [discriminate|]. assert (n = "h"%string) by (apply (A n q); left; reflexivity). subst n. cbn in De. injection De as ->. f_equal.
        destruct d' as [|[n q] d']; [reflexivity|]. assert (n = "h"%string) by (apply (A n q); right; left; reflexivity). subst n. cbn in N'. apply NoDup_cons_iff in N' as [X _]. destruct X. left. reflexivity. }
      destruct D as (e & -> & Ke). exists c, pars, h, c', e. split; [exact S|]. destruct Ke as (_ & Fe & Ce & _). cbn in Fe, Ce.
      assert (N : par_eq e (a_par "h" fz) = false).
      { destruct (par_eq e (a_par "h" fz)) eqn:E; [|reflexivity]. apply par_eq_iff in E as (_ & E & _). cbn in E. destruct fz_neq_fo. congruence. }
      split; [|split; [exact Pd'|]].
      + unfold load_for. cbn [used_variation String.eqb Ascii.eqb Bool.eqb rbind fst snd]. rewrite L. cbn [rbind]. rewrite Pd'. unfold pdict_eq, pars, cosmological, pfilter.
        cbn [params filter snd a_par is_cosmo length Nat.eqb forallb fst dget String.eqb Ascii.eqb Bool.eqb]. change (mkPar "h" fz fz true None fo true "" "" "SteM") with (a_par "h" fz). rewrite N. cbn [andb rmapM fst snd].
        cbn [String.eqb Ascii.eqb Bool.eqb dget]. rewrite N. reflexivity.
      + eexists. split; [reflexivity|]. cbn. intros X. apply fz_neq_fo. congruence.
  Qed.
  (** A file with a parameter unknown to the run is refused, with the growth index
      it is not. *)
  Theorem C99_unknown_parameter file (pars : coll F) dvar step c d n p : used_variation pars dvar step = Ok ("central"%string, 0%Z) -> load_cosmology round10 true [] (file "dvar_central_step_0"%string) = Ok c ->
    k_params c = Some d -> In (n, p) d -> n <> "gamma"%string -> dget String.eqb (params pars) n = None -> exists e, load_for round10 file pars dvar step = Err e.
  Proof.
    intros U L P I N D. unfold load_for. rewrite U. cbn [rbind fst snd]. change (jobdir_name "central" 0) with "dvar_central_step_0"%string. rewrite L. cbn [rbind]. rewrite P.
    destruct (pdict_eq d (cosmological pars)) eqn:E.
    - exfalso. apply pdict_eq_iff in E as [_ E]. destruct (E n p I) as (q & Dq & _). apply (dget_In _ String.eqb_spec) in Dq. unfold cosmological, pfilter in Dq. apply filter_In in Dq as [Iq _].
      apply (dget_None _ String.eqb_spec) in D. apply D. apply in_map_iff. exists (n, q). auto.
    - clear E P L U. match goal with |- exists e, (l <- rmapM ?f d ;; _) = _ => set (g := f) end. assert (X : exists e, rmapM g d = Err e); [|destruct X as (e & ->); exists e; reflexivity].
      induction d as [|[m x] d IH]; [destruct I|]. cbn [rmapM]. destruct (g (m, x)) as [y|e] eqn:G; cbn [rbind]; [|eauto]. destruct I as [I|I].
      + injection I as -> ->. unfold g in G. cbn [fst snd] in G. destruct (String.eqb_spec n "gamma"); [contradiction|]. rewrite D in G. discriminate.
      + destruct (IH I) as (e & ->). exists e. reflexivity.
  Qed.
End More.

(** ** Instances (rational numbers) *)
Definition ex_pars : coll Qc :=
  load_stem [qq 1 100] (mkColl [("Omm"%string, mkPar "Omm" (qq 3 10) (qq 3 10) true None (qz 1) true "" "" "SteM"); ("OmDE"%string, mkPar "OmDE" (qq 7 10) (qq 7 10) true None (qz 1) false "" "" "SteM");
    ("w0"%string, mkPar "w0" (qz (-1)) (qz (-1)) true None (qz 1) true "" "" "SteM"); ("bg0"%string, mkPar "bg0" (qz 2) (qz 2) false (Some "PhotometricGalaxy"%string) (qz 1) true "" "" "SteM")] [] [] true).
Definition ex_cosmo : cosmology Qc := mkCosmology (Some (cosmological ex_pars)) (VBool true) (VStr "CPL") a_grid b_grid VNone VNone (Some a_spectrum).
Example C98_instance : fresh [] (None : option (hfile Qc)) /\ (exists h, save_cosmology ("t", "u")%string ("v", "w")%string true ex_cosmo [] None = (Some h, Ok tt)) /\ NoDup (dkeys (cosmological ex_pars)) /\
  check_parameters (fun x : Qc => x) (cosmological ex_pars) true = Ok tt /\
  (forall n, In n ("transfer_function"%string :: power_arrays) -> no_nan (getattr (a_spectrum : obj Qc) n)) /\
  check_parameters (fun x : Qc => x) [("w0"%string, a_par "w0" (qz 2))] false = Err EDomain.
Proof.
  split; [apply fresh_new|]. split; [eexists; vm_compute; reflexivity|]. split; [cbn; repeat constructor; cbn; intuition discriminate|]. split; [vm_compute; reflexivity|]. split; [|vm_compute; reflexivity].
  intros n I. cbn in I. unfold no_nan. repeat (destruct I as [<-|I]; [cbn; intros a E; try discriminate E; injection E as <-; cbn; intuition discriminate|]). destruct I.
Qed.
Example C99_instance : NoDup (dkeys (params ex_pars)) /\ (exists h, save_cosmology ("t", "u")%string ("v", "w")%string true ex_cosmo [] None = (Some h, Ok tt)) /\
  (exists p', update_step "bg0" 1 ex_pars = (p', Ok tt)) /\ (exists p', update_step "w0" (-1) ex_pars = (p', Ok tt)) /\
  exists h c', load_for (fun x : Qc => x) (fun n => if String.eqb n "dvar_central_step_0" then Some h else None) ex_pars "bg0" 1 = Ok (c', None).
Proof.
  split; [cbn; repeat constructor; cbn; intuition discriminate|]. split; [eexists; vm_compute; reflexivity|]. split; [eexists; vm_compute; reflexivity|]. split; [eexists; vm_compute; reflexivity|].
  exists (match save_cosmology ("t", "u")%string ("v", "w")%string true ex_cosmo [] None with (Some h, _) => h | _ => [] end). eexists. vm_compute. reflexivity.
Qed.
Print Assumptions C98_checks.
Print Assumptions C99_nuisance.
Print Assumptions C98_spectrum_refuted.
Print Assumptions C98_no_grid_refuted.
Print Assumptions C98_no_parameters_refuted.
Print Assumptions C98_load_into_refuted.
Print Assumptions C98_equality_refuted.
Print Assumptions C99_inconsistent_refuted.
Print Assumptions C99_unknown_parameter.
