(** C121: what the stages read in a new and in an existing run directory. *)
From Verif Require Import Base SortLib RerunModel.
Open Scope string_scope.
Open Scope list_scope.

Section Props.
  Context {T D P Z : Type} (pars_of : T -> D -> res P) (grid_of : T -> Z).
  Notation forecast := (forecast pars_of grid_of).
  Notation rundir := (rundir T D P Z).
  Notation args := (args T D).

  Ltac step H := match type of H with
    | rbind ?x _ = Ok _ => let E := fresh "E" in destruct x eqn:E; cbn [rbind] in H; [|discriminate H]
    | Err _ = Ok _ => discriminate H
    end.
  Lemma file_get (d : dict string T) n t : file d n = Ok t <-> dget String.eqb d n = Some t.
  Proof. unfold file. destruct (dget String.eqb d n); split; congruence. Qed.

  (** The stages of a run, on the directory that it starts from. *)
  Lemma forecast_spec (a : args) old r : forecast a old = Ok r -> exists t p r0,
    load_forecast pars_of a old = Ok (t, p) /\ r0 = prepare_dir a t p old /\
    d_files r = d_files r0 /\ d_pars r = d_pars r0 /\ d_data r = d_data r0 /\
    d_meta r = Some (mkMeta (match old with None => Some (a_run_id a) | Some _ => None end) []) /\
    (if a_power a then exists c, dget String.eqb (a_tasks a) "PowerSpectrum" = Some c /\ d_power r = Some (mkPower p (d_pars r0) c) else d_power r = d_power r0) /\
    (if a_angular a then
       exists c f tf z w n s, dget String.eqb (a_tasks a) "Angular" = Some c /\ dget String.eqb (d_files r0) "Fisher" = Some f /\ dget String.eqb (d_files r0) "forecast" = Some tf /\
         (if a_power a then exists c0, dget String.eqb (d_files r0) "PowerSpectrum" = Some c0 /\ z = grid_of c0 else exists w0, d_power r0 = Some w0 /\ z = grid_of (w_config w0)) /\
         d_power r = Some w /\ n = mkDensity t (a_data a) z /\ d_density r = Some n /\ s = mkSpectra p (d_pars r0) tf (d_data r0) c w n /\ d_spectra r = Some s /\ d_noise r = Some (mkNoise f tf (d_data r0) s)
     else d_density r = d_density r0 /\ d_spectra r = d_spectra r0 /\ d_noise r = d_noise r0).
  Proof.
    unfold RerunModel.forecast. intros H. step H. destruct a0 as [t p]. exists t, p, (prepare_dir a t p old). split; [reflexivity|]. split; [reflexivity|].
    set (r0 := prepare_dir a t p old) in *. set (m := mkMeta _ _).
    assert (M : write_meta a (match old with None => true | Some _ => false end) r0 = mkDir (d_files r0) (d_pars r0) (d_data r0) (d_power r0) (d_density r0) (d_spectra r0) (d_noise r0) (Some m)) by (unfold write_meta, m; destruct old; reflexivity).
    rewrite M in H. clear M E. destruct (a_angular a).
    - unfold compute_densities in H. destruct (a_power a).
      + cbn [d_files d_pars d_data d_power d_density d_spectra d_noise d_meta rbind] in H. repeat (step H). cbn [rbind] in *.
        destruct (file (d_files r0) "PowerSpectrum") as [c0|] eqn:Q; cbn [rbind] in E; [|discriminate]. injection E as <-.
        unfold run_power in E0. cbn [d_files d_pars d_data d_power d_density d_spectra d_noise d_meta] in E0. destruct (file (a_tasks a) "PowerSpectrum") as [c1|] eqn:Q1; cbn [rbind] in E0; [|discriminate]. injection E0 as <-.
        unfold run_angular in E1. cbn [d_files d_pars d_data d_power d_density d_spectra d_noise d_meta] in E1. destruct (file (a_tasks a) "Angular") as [c2|] eqn:Q2; cbn [rbind] in E1; [|discriminate]. destruct (file (d_files r0) "forecast") as [tf|] eqn:Q3; cbn [rbind done] in E1; [|discriminate]. injection E1 as <-.
        unfold compute_noise in H. cbn [d_files d_pars d_data d_power d_density d_spectra d_noise d_meta] in H. destruct (file (d_files r0) "Fisher") as [f|] eqn:Q4; cbn [rbind] in H; [|discriminate]. rewrite Q3 in H. cbn [rbind done] in H. injection H as <-.
        cbn [d_files d_pars d_data d_power d_density d_spectra d_noise d_meta]. repeat (split; [reflexivity|]). split; [exists c1; split; [apply file_get; exact Q1|reflexivity]|].
        exists c2, f, tf, (grid_of c0). do 3 eexists. split; [apply file_get; exact Q2|]. split; [apply file_get; exact Q4|]. split; [apply file_get; exact Q3|]. split; [exists c0; split; [apply file_get; exact Q|reflexivity]|]. repeat (split; [reflexivity|]). reflexivity.
      + cbn [d_files d_pars d_data d_power d_density d_spectra d_noise d_meta rbind] in H. destruct (d_power r0) as [w0|] eqn:W; cbn [done rbind] in H; [|discriminate].
        unfold run_angular in H. cbn [d_files d_pars d_data d_power d_density d_spectra d_noise d_meta] in H. destruct (file (a_tasks a) "Angular") as [c2|] eqn:Q2; cbn [rbind] in H; [|discriminate]. destruct (file (d_files r0) "forecast") as [tf|] eqn:Q3; cbn [rbind done] in H; [|discriminate].
        unfold compute_noise in H. cbn [d_files d_pars d_data d_power d_density d_spectra d_noise d_meta] in H. destruct (file (d_files r0) "Fisher") as [f|] eqn:Q4; cbn [rbind] in H; [|discriminate]. rewrite Q3 in H. cbn [rbind done] in H. injection H as <-.
        cbn [d_files d_pars d_data d_power d_density d_spectra d_noise d_meta]. repeat (split; [reflexivity|]).
        exists c2, f, tf, (grid_of (w_config w0)). do 3 eexists. split; [apply file_get; exact Q2|]. split; [apply file_get; exact Q4|]. split; [apply file_get; exact Q3|]. split; [exists w0; split; reflexivity|]. repeat (split; [reflexivity|]). reflexivity.
    - cbn [rbind] in H. destruct (a_power a).
      + unfold run_power in H. cbn [d_files d_pars d_data d_power d_density d_spectra d_noise d_meta] in H. destruct (file (a_tasks a) "PowerSpectrum") as [c1|] eqn:Q1; cbn [rbind] in H; [|discriminate]. injection H as <-.
        cbn [d_files d_pars d_data d_power d_density d_spectra d_noise d_meta]. repeat (split; [reflexivity|]). split; [exists c1; split; [apply file_get; exact Q1|reflexivity]|]. auto.
      + cbn [rbind] in H. injection H as <-. cbn [d_files d_pars d_data d_power d_density d_spectra d_noise d_meta]. repeat (split; [reflexivity|]). auto.
  Qed.

  (** ** A new run directory *)
  Theorem C121_new (a : args) r : forecast a None = Ok r -> a_power a = true -> a_angular a = true ->
    exists t p cp ca cf, a_forecast a = Some t /\ pars_of t (a_data a) = Ok p /\
      dget String.eqb (a_tasks a) "PowerSpectrum" = Some cp /\ dget String.eqb (a_tasks a) "Angular" = Some ca /\ dget String.eqb (a_tasks a) "Fisher" = Some cf /\
      d_power r = Some (mkPower p p cp) /\ d_density r = Some (mkDensity t (a_data a) (grid_of cp)) /\
      d_spectra r = Some (mkSpectra p p t (a_data a) ca (mkPower p p cp) (mkDensity t (a_data a) (grid_of cp))) /\
      d_noise r = Some (mkNoise cf t (a_data a) (mkSpectra p p t (a_data a) ca (mkPower p p cp) (mkDensity t (a_data a) (grid_of cp)))) /\
      d_files r = ("forecast", t) :: a_tasks a /\ d_pars r = p /\ d_data r = a_data a /\ exists x, d_meta r = Some (mkMeta (Some (a_run_id a)) x).
  Proof.
    intros H Hp Ha. destruct (forecast_spec a None r H) as (t & p & r0 & L & R0 & F & Pp & Dd & M & W & S). rewrite Hp in W, S. rewrite Ha in S. cbn [prepare_dir] in R0. subst r0. cbn [d_files d_pars d_data] in *.
    unfold load_forecast in L. destruct (a_forecast a) as [t'|]; cbn [rbind] in L; [|discriminate]. destruct (pars_of t' (a_data a)) as [p'|] eqn:Ep; cbn [rbind] in L; [|discriminate]. injection L as -> ->.
    destruct W as (cp & Gp & W). destruct S as (ca & cf & tf & z & w & n & s & Ga & Gf & Gt & (c0 & G0 & ->) & Ew & -> & En & -> & Es & Ee). cbn [dget] in Gf, Gt, G0. rewrite String.eqb_refl in Gt. injection Gt as <-.
    change (String.eqb "forecast" "Fisher") with false in Gf. change (String.eqb "forecast" "PowerSpectrum") with false in G0. cbv iota in Gf, G0. rewrite Gp in G0. injection G0 as <-. rewrite W in Ew. injection Ew as <-.
    exists t, p, cp, ca, cf. repeat (split; [first [reflexivity|assumption]|]). eexists. exact M.
  Qed.
  Theorem C121_no_forecast (a : args) : a_forecast a = None -> forecast a None = Err ETypeError.
  Proof. intros E. unfold RerunModel.forecast, load_forecast. rewrite E. reflexivity. Qed.

  (** ** An existing one *)
  (** Inputs of the run directory stay; they are the forecast configuration and the
      parameters of every result, whatever forecast configuration is given. *)
  Theorem C121_existing (a : args) r0 r : forecast a (Some r0) = Ok r ->
    d_files r = d_files r0 /\ d_pars r = d_pars r0 /\ d_data r = d_data r0 /\
    exists t, dget String.eqb (d_files r0) "forecast" = Some t /\
    (a_power a = true -> exists w, d_power r = Some w /\ w_pars w = d_pars r0 /\ dget String.eqb (a_tasks a) "PowerSpectrum" = Some (w_config w) /\ pars_of t (a_data a) = Ok (w_jobs w)) /\
    (a_power a = false -> d_power r = d_power r0) /\
    (a_angular a = true -> exists n s e, d_density r = Some n /\ d_spectra r = Some s /\ d_noise r = Some e /\
       n_forecast n = t /\ c_forecast s = t /\ e_forecast e = t /\ c_pars s = d_pars r0 /\ dget String.eqb (a_tasks a) "Angular" = Some (c_config s) /\
       d_power r = Some (c_power s) /\ c_density s = n /\ e_spectra e = s /\ dget String.eqb (d_files r0) "Fisher" = Some (e_fisher e) /\ c_data s = d_data r0 /\ e_data e = d_data r0) /\
    (a_angular a = false -> d_density r = d_density r0 /\ d_spectra r = d_spectra r0 /\ d_noise r = d_noise r0).
  Proof.
    intros H. destruct (forecast_spec a _ r H) as (t & p & r1 & L & R0 & F & Pp & Dd & M & W & S). cbn [prepare_dir] in R0. subst r1. repeat (split; [assumption|]).
    unfold load_forecast in L. destruct (file (d_files r0) "forecast") as [t'|] eqn:Q; cbn [rbind] in L; [|discriminate]. destruct (pars_of t' (a_data a)) as [p'|] eqn:Ep; cbn [rbind] in L; [|discriminate]. injection L as -> ->. apply file_get in Q. exists t. split; [exact Q|].
    split; [|split; [|split]]; intros E; rewrite E in *.
    - destruct W as (c & G & W). eexists. split; [exact W|]. cbn. auto.
    - exact W.
    - destruct S as (ca & cf & tf & z & w & n & s & Ga & Gf & Gt & Gz & Ew & En0 & En & Es0 & Es & Ee). rewrite Q in Gt. injection Gt as <-. exists n, s. eexists. split; [exact En|]. split; [exact Es|]. split; [exact Ee|]. subst s n. cbn. repeat (split; [first [reflexivity|assumption]|]). reflexivity.
    - exact S.
  Qed.
  (** The same options again change nothing but the metadata. *)
  Theorem C121_rerun (a a' : args) r r' : forecast a None = Ok r -> a_power a = true -> a_angular a = true ->
    a_tasks a' = a_tasks a -> a_data a' = a_data a -> forecast a' (Some r) = Ok r' ->
    d_files r' = d_files r /\ d_pars r' = d_pars r /\ d_data r' = d_data r /\ d_power r' = d_power r /\ d_density r' = d_density r /\ d_spectra r' = d_spectra r /\ d_noise r' = d_noise r.
  Proof.
    intros H Hp Ha Et Ed H'. destruct (C121_new a r H Hp Ha) as (t & p & cp & ca & cf & Ft & Ep & Gp & Ga & Gf & Rw & Rn & Rs & Re & Rf & Rp & Rd & _).
    destruct (forecast_spec a' _ r' H') as (t' & p' & r1 & L & R0 & F & Pp & Dd & M & W & S). cbn [prepare_dir] in R0. subst r1. repeat (split; [assumption|]).
    unfold load_forecast in L. rewrite Rf in L. unfold file in L. cbn [dget] in L. rewrite String.eqb_refl in L. cbn [rbind] in L. rewrite Ed, Ep in L. injection L as <- <-.
    assert (Wr : d_power r' = d_power r). { destruct (a_power a'); [|exact W]. destruct W as (c & G & W). rewrite Et, Gp in G. injection G as <-. rewrite W, Rw, Rp. reflexivity. }
    split; [exact Wr|]. destruct (a_angular a'); [|exact S]. destruct S as (ca' & cf' & tf & z & w & n & s & Ga' & Gf' & Gt & Gz & Ew & -> & En & -> & Es & Ee).
    rewrite Et, Ga in Ga'. injection Ga' as <-. rewrite Rf in Gf', Gt. cbn [dget] in Gf', Gt. rewrite String.eqb_refl in Gt. injection Gt as <-. change (String.eqb "forecast" "Fisher") with false in Gf'. cbv iota in Gf'. rewrite Gf in Gf'. injection Gf' as <-.
    assert (Ez : z = grid_of cp). { destruct (a_power a'). - destruct Gz as (c0 & G0 & ->). rewrite Rf in G0. cbn [dget] in G0. change (String.eqb "forecast" "PowerSpectrum") with false in G0. cbv iota in G0. rewrite Gp in G0. injection G0 as <-. reflexivity. - destruct Gz as (w0 & G0 & ->). rewrite Rw in G0. injection G0 as <-. reflexivity. }
    rewrite Wr, Rw in Ew. injection Ew as <-. rewrite En, Es, Ee, Rn, Rs, Re, Ez, Rp, Rd, Ed. auto.
  Qed.
  (** Densities and power spectra are on the same grid when the spectra are computed
      alone. *)
  Theorem C121_grid_alone (a : args) r0 r : forecast a (Some r0) = Ok r -> a_power a = false -> a_angular a = true ->
    exists s, d_spectra r = Some s /\ n_grid (c_density s) = grid_of (w_config (c_power s)).
  Proof.
    intros H Hp Ha. destruct (forecast_spec a _ r H) as (t & p & r1 & L & R0 & F & Pp & Dd & M & W & S). cbn [prepare_dir] in R0. subst r1. rewrite Hp in *. rewrite Ha in S.
    destruct S as (ca' & cf' & tf & z & w & n & s & Ga' & Gf' & Gt & (w0 & G0 & ->) & Ew & -> & En & -> & Es & Ee). eexists. split; [exact Es|]. cbn. rewrite W, G0 in Ew. injection Ew as <-. reflexivity.
  Qed.
  (** With the power spectra as well they need not be: the grid of the densities is that
      of the stored configuration, the power spectra have that of the given one. *)
  Theorem C121_grid_refuted (a : args) r0 r c0 c1 : forecast a (Some r0) = Ok r -> a_power a = true -> a_angular a = true ->
    dget String.eqb (d_files r0) "PowerSpectrum" = Some c0 -> dget String.eqb (a_tasks a) "PowerSpectrum" = Some c1 ->
    exists s, d_spectra r = Some s /\ n_grid (c_density s) = grid_of c0 /\ grid_of (w_config (c_power s)) = grid_of c1.
  Proof.
    intros H Hp Ha G0 G1. destruct (forecast_spec a _ r H) as (t & p & r1 & L & R0 & F & Pp & Dd & M & W & S). cbn [prepare_dir] in R0. subst r1. rewrite Hp in *. rewrite Ha in S. destruct W as (c & G & W).
    destruct S as (ca' & cf' & tf & z & w & n & s & Ga' & Gf' & Gt & (c' & G' & ->) & Ew & -> & En & -> & Es & Ee). eexists. split; [exact Es|]. cbn. rewrite W in Ew. injection Ew as <-. cbn. rewrite G0 in G'. rewrite G1 in G. injection G' as <-. injection G as <-. auto.
  Qed.
  (** The densities and the list of jobs are those of the input data of the command
      line, the spectra and the noise use those of the run directory. *)
  Theorem C121_data_refuted (a : args) r0 r : forecast a (Some r0) = Ok r -> a_angular a = true -> a_data a <> d_data r0 ->
    exists s t, d_spectra r = Some s /\ n_data (c_density s) <> c_data s /\ dget String.eqb (d_files r0) "forecast" = Some t /\ pars_of t (a_data a) = Ok (c_jobs s) /\ c_pars s = d_pars r0.
  Proof.
    intros H Ha N. destruct (forecast_spec a _ r H) as (t & p & r1 & L & R0 & F & Pp & Dd & M & W & S). cbn [prepare_dir] in R0. subst r1. rewrite Ha in S.
    destruct S as (ca' & cf' & tf & z & w & n & s & Ga' & Gf' & Gt & Gz & Ew & -> & En & -> & Es & Ee). eexists. exists t. split; [exact Es|]. cbn. split; [exact N|].
    unfold load_forecast in L. destruct (file (d_files r0) "forecast") as [t'|] eqn:Q; cbn [rbind] in L; [|discriminate]. destruct (pars_of t' (a_data a)) as [p'|] eqn:Ep; cbn [rbind] in L; [|discriminate]. injection L as -> ->. apply file_get in Q. auto.
  Qed.
  (** The name of the run is lost, external directories are never recorded. *)
  Theorem C121_metadata_refuted (a : args) old r : forecast a old = Ok r ->
    exists m, d_meta r = Some m /\ m_external m = [] /\ (forall r0, old = Some r0 -> m_run_id m = None).
  Proof. intros H. destruct (forecast_spec a _ r H) as (t & p & r1 & _ & _ & _ & _ & _ & M & _). eexists. split; [exact M|]. split; [reflexivity|]. intros r0 ->. reflexivity. Qed.
End Props.

(** ** An instance: configurations are numbers, the grid of one is its last digit *)
Definition exPars (t d : nat) : res (nat * nat) := Ok (t, d).
Definition exA : args nat nat := mkArgs (Some 10) [("PowerSpectrum", 21); ("Angular", 31); ("Derivative", 41); ("Fisher", 51)] 7 "run" true true [("Derivative", "other")].
Definition exB : args nat nat := mkArgs None [("PowerSpectrum", 22); ("Angular", 32); ("Derivative", 42); ("Fisher", 52)] 8 "run" true true [].
Example C121_instance :
  exists r, forecast exPars (fun c => c mod 10) exA None = Ok r /\ d_power r = Some (mkPower (10, 7) (10, 7) 21) /\ d_density r = Some (mkDensity 10 7 1) /\
  d_meta r = Some (mkMeta (Some "run") []) /\
  (exists r', forecast exPars (fun c => c mod 10) exB (Some r) = Ok r' /\
    d_spectra r' = Some (mkSpectra (10, 8) (10, 7) 10 7 32 (mkPower (10, 8) (10, 7) 22) (mkDensity 10 8 1)) /\ d_meta r' = Some (mkMeta None []) /\
    option_map e_fisher (d_noise r') = Some 51) /\
  forecast exPars (fun c => c mod 10) exB None = Err ETypeError.
Proof. eexists. split; [vm_compute; reflexivity|]. repeat (split; [vm_compute; reflexivity|]). split; [|reflexivity]. eexists. split; [vm_compute; reflexivity|]. repeat split. Qed.

Print Assumptions C121_new.
Print Assumptions C121_no_forecast.
Print Assumptions C121_existing.
Print Assumptions C121_rerun.
Print Assumptions C121_grid_alone.
Print Assumptions C121_grid_refuted.
Print Assumptions C121_data_refuted.
Print Assumptions C121_metadata_refuted.
