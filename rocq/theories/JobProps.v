(** C119: the jobs of a batch run. *)
From Verif Require Import Base SortLib StrLib ParamModel NameModel NameLemmas StemModel ParamLemmas ParamLemmas2 StemProps JobModel.
From Verif Require LinalgLemmas.
From Coq Require Import Qcanon.
Open Scope list_scope.

Section C119.
  Context {F : Type} {K : Fld F} {O : OFld (F := F)}.
  Implicit Types c : coll F.

  (** Parameters that the directories can name, at most nine displacements. *)
  Definition nameable c : Prop := NoDup (dkeys (params c)) /\ (forall n, In n (dkeys (params c)) -> alnum n /\ n <> "central"%string) /\ exists n, (n <= 9)%nat /\ dkeys (stem_dict c) = steps_of n.

  Lemma stage_ok {A} (run : string -> res A) jobs : forall done d, NoDup (map dir_of jobs) -> stage run jobs done = Ok d ->
    (forall j, In j jobs -> exists a, run (dir_of j) = Ok a /\ dget String.eqb d (dir_of j) = Some a) /\
    (forall n, ~ In n (map dir_of jobs) -> dget String.eqb d n = dget String.eqb done n).
  Proof.
    induction jobs as [|j jobs IH]; intros done d N H; cbn [stage] in H.
    - injection H as <-. split; [intros j []|reflexivity].
    - destruct (run (dir_of j)) as [a|e] eqn:E; cbn [rbind] in H; [|discriminate]. cbn [map] in N. inversion N as [|x l Hx Hl]; subst.
      destruct (IH _ _ Hl H) as [I1 I2]. split.
      + intros k [<-|Hk]; [|apply I1, Hk]. exists a. split; [exact E|]. rewrite (I2 _ Hx). apply (dget_dset_same _ String.eqb_spec).
      + intros n Hn. cbn [map] in Hn. rewrite I2 by (intros X; apply Hn; right; exact X). apply (dget_dset_other _ String.eqb_spec). intros X. apply Hn. left. exact X.
  Qed.
  Lemma stage_all {A} (run : string -> res A) jobs : forall done, (forall j, In j jobs -> exists a, run (dir_of j) = Ok a) -> exists d, stage run jobs done = Ok d.
  Proof.
    induction jobs as [|j jobs IH]; intros done H; cbn [stage]; [eexists; reflexivity|]. destruct (H j (or_introl eq_refl)) as [a ->]. cbn [rbind]. apply IH. intros k Hk. apply H. right. exact Hk.
  Qed.
  Lemma jobs_In d steps v s : In (v, s) (jobs_of (F := F) d steps) <-> (v = "central"%string /\ s = 0%Z) \/ (exists p, In (v, p) d /\ dmethod p = "SteM"%string /\ In s steps).
  Proof.
    unfold jobs_of, by_stem. cbn [In]. rewrite in_flat_map. split.
    - intros [E|([n p] & I & J)]; [injection E as <- <-; left; auto|]. apply filter_In in I. cbn [fst snd] in *. destruct I as [I M]. apply String.eqb_eq in M. apply in_map_iff in J. destruct J as (t & E & J). injection E as <- <-. right. exists p. auto.
    - intros [[-> ->]|(p & I & M & J)]; [left; reflexivity|]. right. exists (v, p). split; [apply filter_In; split; [exact I|apply String.eqb_eq, M]|]. apply in_map_iff. exists s. auto.
  Qed.
  Lemma sub_In f (d : pdict (F := F)) n p : In (n, p) (pfilter f d) <-> In (n, p) d /\ f p = true.
  Proof. unfold pfilter. rewrite filter_In. reflexivity. Qed.
  Lemma sub_keys f (d : pdict (F := F)) : NoDup (dkeys d) -> NoDup (dkeys (filter f d)).
  Proof.
    unfold dkeys. induction d as [|[n p] d IH]; intros N; [constructor|]. cbn [map fst] in N. inversion N as [|x l Hx Hl]; subst. cbn [filter]. destruct (f (n, p)); [|apply IH, Hl]. cbn [map fst]. constructor; [|apply IH, Hl].
    intros I. apply Hx. apply in_map_iff in I. destruct I as (y & E & I). apply filter_In in I. apply in_map_iff. exists y. tauto.
  Qed.
  Lemma steps_ok n s : (n <= 9)%nat -> In s (steps_of n) -> (Z.abs s <= 9)%Z /\ s <> 0%Z.
  Proof. intros H I. apply steps_In in I. lia. Qed.

  (** Which jobs there are: the central one and, for each free parameter derived
      by SteM (cosmological, for the power spectra), one per step. *)
  Theorem C119_jobs c v s :
    (In (v, s) (pmm_jobs c) <-> (v = "central"%string /\ s = 0%Z) \/ (exists p, In (v, p) (params c) /\ is_free p = true /\ is_cosmo p = true /\ dmethod p = "SteM"%string /\ In s (dkeys (stem_dict c)))) /\
    (In (v, s) (cl_jobs c) <-> (v = "central"%string /\ s = 0%Z) \/ (exists p, In (v, p) (params c) /\ is_free p = true /\ dmethod p = "SteM"%string /\ In s (dkeys (stem_dict c)))) /\
    (In v (der_jobs c) <-> exists p, In (v, p) (params c) /\ is_free p = true).
  Proof.
    unfold pmm_jobs, cl_jobs, der_jobs, free_cosmological, free_physical, cosmological. rewrite !jobs_In. split; [|split].
    - split; (intros [H|(p & H)]; [left; exact H|right; exists p]); rewrite !sub_In in *; tauto.
    - split; (intros [H|(p & H)]; [left; exact H|right; exists p]); rewrite !sub_In in *; tauto.
    - unfold derivative_dir, dkeys. rewrite map_id, in_map_iff. split; [intros ([n p] & E & I)|intros (p & I)]; [cbn in E; subst n; exists p|exists (v, p); split; [reflexivity|]]; apply sub_In; assumption.
  Qed.

  (** Each job has its own directory, whose name gives back its variation. *)
  Lemma flat_NoDup (d : pdict (F := F)) steps : NoDup (dkeys d) -> NoDup steps -> ~ In 0%Z steps -> NoDup (jobs_of d steps).
  Proof.
    intros N S Z. constructor.
    - intros I. apply in_flat_map in I. destruct I as (kv & _ & I). apply in_map_iff in I. destruct I as (t & E & I). injection E as _ ->. contradiction.
    - unfold by_stem. apply (sub_keys (fun kv => String.eqb (dmethod (snd kv)) "SteM")) in N. induction (filter _ d) as [|[n p] l IH]; [constructor|]. cbn [dkeys map fst] in N. inversion N as [|x m Hx Hm]; subst. cbn [flat_map fst].
      apply LinalgLemmas.NoDup_app_intro; [|apply IH, Hm|].
      + apply FinFun.Injective_map_NoDup; [intros a b E; injection E; auto|exact S].
      + intros [v t] I J. apply in_map_iff in I. destruct I as (t' & E & _). injection E as E1 E2. apply in_flat_map in J. destruct J as ([m q] & J & L). apply in_map_iff in L. destruct L as (t3 & E & _). cbn [fst] in E. injection E as E3 E4. apply Hx. apply in_map_iff. exists (m, q). split; [cbn; congruence|exact J].
  Qed.

  Lemma central_alnum : alnum "central". Proof. split; [discriminate|reflexivity]. Qed.
  Lemma job_names c v s : nameable c -> In (v, s) (cl_jobs c) -> alnum v /\ (Z.abs s <= 9)%Z.
  Proof.
    intros (N & A & n & Hn & E) I. apply C119_jobs in I. destruct I as [[-> ->]|(p & I & _ & _ & J)]; [split; [exact central_alnum|lia]|].
    split; [apply A; apply in_map_iff; exists (v, p); auto|]. rewrite E in J. apply (steps_ok n); assumption.
  Qed.
  Lemma pmm_in_cl c j : In j (pmm_jobs c) -> In j (cl_jobs c).
  Proof. destruct j as [v s]. intros I. apply C119_jobs in I. apply C119_jobs. destruct I as [I|(p & I)]; [left; exact I|right; exists p; tauto]. Qed.
  Lemma dirs_NoDup (l : list (string * Z)) : NoDup l -> (forall v s, In (v, s) l -> alnum v /\ (Z.abs s <= 9)%Z) -> NoDup (map dir_of l).
  Proof.
    induction l as [|[v s] l IH]; intros N H; [constructor|]. inversion N as [|x m Hx Hm]; subst. cbn [map]. constructor.
    - intros I. apply in_map_iff in I. destruct I as ([v' s'] & E & I). destruct (H v s (or_introl eq_refl)) as [A B]. destruct (H v' s' (or_intror I)) as [A' B']. unfold dir_of in E. cbn [fst snd] in E.
      destruct (C43_distinct_names v' s' v s A' A B' B E) as [-> ->]. contradiction.
    - apply IH; [exact Hm|]. intros v' s' I. apply H. right. exact I.
  Qed.
  Theorem C119_directories c : nameable c ->
    NoDup (map dir_of (pmm_jobs c)) /\ NoDup (map dir_of (cl_jobs c)) /\ NoDup (der_jobs c) /\
    (forall j, In j (pmm_jobs c) \/ In j (cl_jobs c) -> parse_jobdir (dir_of j) = Ok j).
  Proof.
    intros W. pose proof W as (N & A & n & Hn & E).
    assert (S : NoDup (dkeys (stem_dict c)) /\ ~ In 0%Z (dkeys (stem_dict c))) by (rewrite E; split; [apply steps_NoDup|intros I; apply steps_In in I; lia]). destruct S as [S0 S1].
    split; [|split; [|split]].
    - apply dirs_NoDup; [apply flat_NoDup; [unfold free_cosmological, cosmological, pfilter; do 2 apply sub_keys; exact N|exact S0|exact S1]|]. intros v s I. apply (job_names c); [exact W|]. apply pmm_in_cl, I.
    - apply dirs_NoDup; [apply flat_NoDup; [unfold free_physical, pfilter; apply sub_keys; exact N|exact S0|exact S1]|]. intros v s I. apply (job_names c); assumption.
    - unfold der_jobs, derivative_dir. rewrite map_id. unfold free_physical, pfilter. apply sub_keys. exact N.
    - intros [v s] I. assert (J : In (v, s) (cl_jobs c)) by (destruct I as [I|I]; [apply pmm_in_cl, I|exact I]). destruct (job_names c v s W J) as [Av B]. unfold dir_of. cbn [fst snd]. apply C43_round_trip; assumption.
  Qed.

  Section Run.
    Context {A B : Type} (solve : pdict (F := F) -> res A) (spectra : A -> A -> coll F -> res B).
    Lemma varied_job c v s : nameable c -> In (v, s) (cl_jobs c) ->
      varied c (dir_of (v, s)) = match update_step v s c with (c1, Ok _) => Ok (v, s, c1) | (_, Err e) => Err e end.
    Proof. intros W I. unfold varied. rewrite (proj2 (proj2 (proj2 (C119_directories c W)))) by (right; exact I). cbn [rbind fst snd]. reflexivity. Qed.
    Lemma source_job c v s c1 u : nameable c -> In (v, s) (cl_jobs c) -> update_step v s c = (c1, Ok u) ->
      exists src, pmm_source v s c1 = Ok src /\ In src (pmm_jobs c).
    Proof.
      intros W I U. pose proof W as (N & Al & _). unfold pmm_source. destruct (String.eqb_spec v "central") as [->|Nc]; [eexists; split; [reflexivity|left; reflexivity]|].
      pose proof I as I'. apply C119_jobs in I'. destruct I' as [[X _]|(p & Ip & Fp & Mp & Sp)]; [contradiction|].
      destruct (update_ok v s c c1 u Nc U) as (q & eps & G & _ & _ & H). assert (q = p) by (pose proof (@dget_NoDup_In _ _ String.eqb String.eqb_spec _ _ _ N Ip) as G'; unfold pget in G; congruence). subst q.
      assert (X : exists q, pget c1 v = Some q /\ is_cosmo q = is_cosmo p).
      { cbv zeta in H. destruct (flat c && is_dens v).
        - destruct H as (l & _ & _ & _ & ->). unfold pget, pset, with_params. cbn [params]. assert (Np : partner v <> v) by (unfold partner; destruct (String.eqb_spec v "Omm") as [->|?]; [discriminate|congruence]).
          rewrite (dget_dset_other _ String.eqb_spec) by congruence. rewrite (dget_dset_same _ String.eqb_spec). eexists. split; reflexivity.
        - subst c1. unfold pget, pset, with_params. cbn [params]. rewrite (dget_dset_same _ String.eqb_spec). eexists. split; reflexivity. }
      destruct X as (q & -> & Cq). rewrite Cq. destruct (is_cosmo p) eqn:Cp; eexists; (split; [reflexivity|]).
      - apply C119_jobs. right. exists p. auto.
      - left. reflexivity.
    Qed.

    (** Whatever the first stage computed, every job of the second finds the power
        spectrum of its variation, or the central one for a nuisance parameter. *)
    Theorem C119_found c pmm v s c1 u : nameable c -> stage (pmm_job solve c) (pmm_jobs c) [] = Ok pmm -> In (v, s) (cl_jobs c) -> update_step v s c = (c1, Ok u) ->
      exists src a f, pmm_source v s c1 = Ok src /\ In src (pmm_jobs c) /\ dget String.eqb pmm (dir_of src) = Some a /\ dget String.eqb pmm "dvar_central_step_0" = Some f /\
        cl_job spectra pmm c (dir_of (v, s)) = spectra a f c1.
    Proof.
      intros W H I U. destruct (source_job c v s c1 u W I U) as (src & P & J). destruct (C119_directories c W) as (D1 & _ & _ & R). destruct (stage_ok _ _ _ _ D1 H) as [G _].
      destruct (G src J) as (a & _ & Ga). destruct (G ("central"%string, 0%Z) (or_introl eq_refl)) as (f & _ & Gf). exists src, a, f. split; [exact P|]. split; [exact J|]. split; [exact Ga|]. split; [exact Gf|].
      unfold cl_job. rewrite (varied_job c v s W I), U. cbn [rbind fst snd]. rewrite P. cbn [rbind]. unfold found. rewrite Ga, Gf. reflexivity.
    Qed.
    (** What is in the directories after the two stages. *)
    Theorem C119_content c pmm cls : nameable c -> run_stages solve spectra c = Ok (pmm, cls) ->
      (forall v s, In (v, s) (pmm_jobs c) -> exists c1 u a, update_step v s c = (c1, Ok u) /\ solve (cosmological c1) = Ok a /\ dget String.eqb pmm (dir_of (v, s)) = Some a) /\
      (forall v s, In (v, s) (cl_jobs c) -> exists c1 u src a f b, update_step v s c = (c1, Ok u) /\ pmm_source v s c1 = Ok src /\ In src (pmm_jobs c) /\
         dget String.eqb pmm (dir_of src) = Some a /\ dget String.eqb pmm "dvar_central_step_0" = Some f /\ spectra a f c1 = Ok b /\ dget String.eqb cls (dir_of (v, s)) = Some b) /\
      (forall n, ~ In n (map dir_of (pmm_jobs c)) -> dget String.eqb pmm n = None) /\ (forall n, ~ In n (map dir_of (cl_jobs c)) -> dget String.eqb cls n = None).
    Proof.
      intros W H. unfold run_stages in H. destruct (stage (pmm_job solve c) _ _) as [pmm'|] eqn:E1; cbn [rbind] in H; [|discriminate].
      destruct (stage (cl_job spectra pmm' c) _ _) as [cls'|] eqn:E2; cbn [rbind] in H; [|discriminate]. injection H as -> ->.
      destruct (C119_directories c W) as (D1 & D2 & _ & R). destruct (stage_ok _ _ _ _ D1 E1) as [G1 N1]. destruct (stage_ok _ _ _ _ D2 E2) as [G2 N2]. split; [|split; [|split; assumption]].
      - intros v s I. destruct (G1 _ I) as (a & J & Ga). unfold pmm_job in J. rewrite (varied_job c v s W (pmm_in_cl _ _ I)) in J. destruct (update_step v s c) as [c1 [u|e]]; cbn [rbind snd] in J; [|discriminate]. exists c1, u, a. auto.
      - intros v s I. destruct (G2 _ I) as (b & J & Gb). pose proof J as J'. unfold cl_job in J. rewrite (varied_job c v s W I) in J. destruct (update_step v s c) as [c1 [u|e]] eqn:U; cbn [rbind] in J; [|discriminate]. clear J.
        destruct (C119_found c pmm v s c1 u W E1 I U) as (src & a & f & P & Q & Ga & Gf & C). exists c1, u, src, a, f, b. rewrite C in J'. repeat split; assumption.
    Qed.

    Lemma vary_run (compute : string * Z -> coll F -> res B) (g : Z -> option B) v c : NoDup (dkeys (params c)) -> at_fiducial c -> forall steps acc, NoDup steps ->
      (forall s, In s steps -> exists c1 u src a, update_step v s c = (c1, Ok u) /\ pmm_source v s c1 = Ok src /\ compute src c1 = Ok a /\ g s = Some a) ->
      exists d, vary compute v steps acc c = (c, Ok d) /\ (forall s, In s steps -> dget Z.eqb d s = g s) /\ (forall s, ~ In s steps -> dget Z.eqb d s = dget Z.eqb acc s).
    Proof.
      intros N Hf. induction steps as [|s steps IH]; intros acc Ns H; cbn [vary].
      - exists acc. split; [reflexivity|]. split; [intros s []|reflexivity].
      - destruct (H s (or_introl eq_refl)) as (c1 & u & src & a & U & P & C & G). inversion Ns as [|x l Hx Hl]; subst. pose proof (update_reset v s c) as E. rewrite U in *. cbn [fst] in E. rewrite P. cbn [rbind]. rewrite C, E, (fiducial_reset c N Hf).
        destruct (IH (dset Z.eqb acc s a) Hl (fun t Ht => H t (or_intror Ht))) as (d & V & D1 & D2). exists d. split; [exact V|]. split.
        + intros t [<-|Ht]; [|apply D1, Ht]. rewrite (D2 _ Hx), (dget_dset_same _ Z.eqb_spec). symmetry. exact G.
        + intros t Ht. rewrite D2 by (intros X; apply Ht; right; exact X). apply (dget_dset_other _ Z.eqb_spec). intros X. apply Ht. left. exact X.
    Qed.
    (** The directories hold the spectra that the computation in memory has for
        the same power spectra. *)
    Theorem C119_in_memory c pmm cls f fid v p : nameable c -> at_fiducial c -> run_stages solve spectra c = Ok (pmm, cls) -> dget String.eqb pmm "dvar_central_step_0" = Some f ->
      In (v, p) (params c) -> is_free p = true -> dmethod p = "SteM"%string -> (forall s, In s seven -> In s (dkeys (stem_dict c))) ->
      exists d, cls_variations (in_memory spectra pmm f) v fid c = (c, Ok d) /\ dget Z.eqb d 0%Z = Some fid /\
        forall s, In s seven -> exists b, dget Z.eqb d s = Some b /\ dget String.eqb cls (jobdir_name v s) = Some b.
    Proof.
      intros W Hf H Hc I Fp Mp Sv. destruct (C119_content c pmm cls W H) as (_ & C2 & _). pose proof W as (N & _).
      assert (J : forall s, In s seven -> In (v, s) (cl_jobs c)) by (intros s Hs; apply C119_jobs; right; exists p; auto).
      destruct (vary_run (in_memory spectra pmm f) (fun s => dget String.eqb cls (dir_of (v, s))) v c N Hf seven [(0%Z, fid)] (steps_NoDup 7)) as (d & V & D1 & D2).
      - intros s Hs. destruct (C2 v s (J s Hs)) as (c1 & u & src & a & f' & b & U & P & _ & Ga & Gf & S & Gb). exists c1, u, src, b. split; [exact U|]. split; [exact P|]. split; [|exact Gb].
        unfold in_memory, found. rewrite Ga. cbn [rbind]. congruence.
      - exists d. split; [exact V|]. split; [rewrite D2 by (intros X; apply steps_In in X; lia); reflexivity|]. intros s Hs. rewrite (D1 s Hs). destruct (C2 v s (J s Hs)) as (c1 & u & src & a & f' & b & _ & _ & _ & _ & _ & _ & Gb). exists b. split; exact Gb.
    Qed.
    (** With fewer than seven displacements only the jobs work. *)
    Theorem C119_few_refuted c n compute (fid : B) v p : v <> "central"%string -> pget c v = Some p -> is_free p = true -> dkeys (stem_dict c) = steps_of n -> (n < 7)%nat ->
      snd (cls_variations compute v fid c) = Err EKeyError.
    Proof.
      intros Nc G Fp E Hn. unfold cls_variations. change seven with ((-7)%Z :: tl seven). cbn [vary]. unfold update_step. destruct (String.eqb_spec v "central"); [contradiction|]. rewrite G, Fp. cbn [negb].
      rewrite (proj2 (dget_None _ Z.eqb_spec (stem_dict c) (-7)%Z)); [reflexivity|]. rewrite E. intros X. apply steps_In in X. lia.
    Qed.
    (** With more than nine, the directory of a step of two digits gets the results of
        another step. *)
    Theorem C119_many_refuted c v s pmm : alnum v -> (10 <= Z.abs s)%Z -> exists t, t <> s /\ (Z.abs t <= 9)%Z /\
      pmm_job solve c (dir_of (v, s)) = pmm_job solve c (dir_of (v, t)) /\ cl_job spectra pmm c (dir_of (v, s)) = cl_job spectra pmm c (dir_of (v, t)).
    Proof.
      intros Av Hs. destruct (C43_two_digits_refuted v s Av Hs) as (t & P & Nt & Ht). assert (Ht' : (Z.abs t <= 9)%Z) by lia. exists t. split; [exact Nt|]. split; [exact Ht'|].
      pose proof (proj2 (C43_round_trip v t Av) Ht') as Q. unfold pmm_job, cl_job, varied, dir_of. cbn [fst snd]. rewrite P, Q. split; reflexivity.
    Qed.
  End Run.

  (** The script of a job does not depend on the jobs before it. *)
  Theorem C119_scripts main venv config rundir dirs n d : nth_error dirs n = Some d ->
    nth_error (scripts main venv config rundir dirs []) n = Some ("#!/bin/bash" ++ nl ++ nl ++ "cd " ++ d ++ nl ++ match venv with Some v => "source " ++ v ++ "/bin/activate" ++ nl | None => "" end ++
      main ++ " --workdir " ++ d ++ " --logfile logfile_" ++ main ++ ".log --main_config " ++ config ++ " --rundir " ++ rundir ++ nl)%string.
  Proof.
    assert (X : forall dirs pars n d, (pars = [] \/ exists a b e g, pars = [("workdir", a); ("logfile", b); ("main_config", e); ("rundir", g)]%string) -> nth_error dirs n = Some d ->
      nth_error (scripts main venv config rundir dirs pars) n = Some (script main venv d [("workdir", d); ("logfile", "logfile_" ++ main ++ ".log"); ("main_config", config); ("rundir", rundir)]%string)).
    { clear. induction dirs as [|x dirs IH]; intros pars n d P H; [destruct n; discriminate|]. cbn [scripts].
      assert (E : fill pars x ("logfile_" ++ main ++ ".log") config rundir = [("workdir", x); ("logfile", "logfile_" ++ main ++ ".log"); ("main_config", config); ("rundir", rundir)]%string).
      { destruct P as [->|(a & b & e & g & ->)]; reflexivity. }
      rewrite E. destruct n as [|n]; cbn [nth_error] in *; [injection H as ->; reflexivity|]. apply IH; [right; repeat eexists|exact H]. }
    intros H. rewrite (X dirs [] n d (or_introl eq_refl) H). unfold script. cbn [fold_left fst snd]. do 2 f_equal. rewrite !sapp_assoc. cbn [String.append]. reflexivity.
  Qed.
End C119.

Section Examples.
  Definition xpar (n : string) (x : Z) (cosmo : bool) (m : string) : param Qc := mkPar n (qz x) (qz x) cosmo (if cosmo then None else Some "WL"%string) (qz 1) true "" "" m.
  Definition xcoll : coll Qc := mkColl [("h"%string, xpar "h" 2 true "SteM"); ("b1"%string, xpar "b1" 3 false "SteM"); ("ns"%string, xpar "ns" 1 true "analytic")] [] (map (fun s => (s, qz s)) (steps_of 7)) false.
  Definition xsolve (d : pdict (F := Qc)) : res (list Qc) := Ok (map (fun kv => current (snd kv)) d).
  Definition xspectra (a f : list Qc) (c : coll Qc) : res (list Qc) := Ok (a ++ f ++ map (fun kv => current (snd kv)) (params c)).
  Example C119_instance : nameable xcoll /\ at_fiducial xcoll /\ (forall s, In s seven -> In s (dkeys (stem_dict xcoll))) /\
    (exists pmm cls, run_stages xsolve xspectra xcoll = Ok (pmm, cls) /\ length pmm = 15%nat /\ length cls = 29%nat /\
       dget String.eqb pmm "dvar_h_step_p_1" = Some [qz 4; qz 1] /\ dget String.eqb pmm "dvar_b1_step_p_1" = None /\
       dget String.eqb cls "dvar_b1_step_m_2" = Some [qz 2; qz 1; qz 2; qz 1; qz 2; qz (-3); qz 1]) /\
    der_jobs xcoll = ["h"; "b1"; "ns"]%string.
  Proof.
    split; [|split; [|split; [|split; [|reflexivity]]]].
    - split; [|split].
      + repeat (constructor; [cbn; intuition discriminate|]). constructor.
      + intros n [<-|[<-|[<-|[]]]]; (split; [split; [discriminate|reflexivity]|discriminate]).
      + exists 7%nat. split; [lia|reflexivity].
    - intros n p H. apply (dget_In _ String.eqb_spec) in H. destruct H as [E|[E|[E|[]]]]; injection E as <- <-; reflexivity.
    - intros s H. exact H.
    - destruct (run_stages xsolve xspectra xcoll) as [[pmm cls]|] eqn:E; [|exfalso; revert E; vm_compute; discriminate].
      exists pmm, cls. split; [reflexivity|]. revert E. vm_compute. intros E. injection E as <- <-. repeat split; reflexivity.
  Qed.
  Example C119_scripts_ex : nth_error (scripts "compute_pmm" None "/r/main_config.json" "/r" ["/r/a"; "/r/b"]%string []) 1 =
    Some ("#!/bin/bash" ++ nl ++ nl ++ "cd /r/b" ++ nl ++ "compute_pmm --workdir /r/b --logfile logfile_compute_pmm.log --main_config /r/main_config.json --rundir /r" ++ nl)%string.
  Proof. reflexivity. Qed.
  Example C119_many_ex : parse_jobdir (dir_of ("h"%string, 12%Z)) = Ok ("h"%string, 1%Z). Proof. reflexivity. Qed.
End Examples.

Print Assumptions C119_jobs.
Print Assumptions C119_directories.
Print Assumptions C119_found.
Print Assumptions C119_content.
Print Assumptions C119_in_memory.
Print Assumptions C119_few_refuted.
Print Assumptions C119_many_refuted.
Print Assumptions C119_scripts.
