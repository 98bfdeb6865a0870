(** Model of what the stages of job_submitter read in a new and in an existing run
    directory: seyfert/main/task_runners.py:399-412, 426-472, 492-616 (ForecastRunner),
    182, 217, 253, 279 (the configurations of the stages), 90-97 (the copy for the job),
    bin/compute_pmm:26-50, bin/compute_cls:36-65, seyfert/main/cl_core.py:42-52, 108-119,
    seyfert/utils/workspace.py:78-87, 129-161.

    A run directory holds the copies of its input files and, for each result, the
    inputs it was computed from.  Simplifications: a path stands for the content it
    leads to (C93, C94), so resolving it does nothing; a stage computes all its jobs
    (C119) or raises; execution is interactive or batch.  Left out: derivatives and
    Fisher matrices, which read the results below and the stored forecast configuration;
    the host, the executor and the times of the metadata. *)
From Verif Require Import Base SortLib.
Open Scope string_scope.
Open Scope list_scope.

Section Rerun.
  (** Contents of configuration files, of the directory of input data, collections of
      parameters and grids in redshift. *)
  Context {T D P Z : Type}.
  (** ForecastConfig(...).loadPhysicalParametersFromJSONConfig(): the parameters of
      the file, those of the probes with the input data. *)
  Context (pars_of : T -> D -> res P).
  (** PowerSpectrumConfig(...).z_grid. *)
  Context (grid_of : T -> Z).

  (** w_jobs, c_jobs: the parameters whose variations have jobs; w_pars, c_pars: those
      the jobs read. *)
  Record power := mkPower { w_jobs : P; w_pars : P; w_config : T }.
  Record density := mkDensity { n_forecast : T; n_data : D; n_grid : Z }.
  Record spectra := mkSpectra { c_jobs : P; c_pars : P; c_forecast : T; c_data : D; c_config : T; c_power : power; c_density : density }.
  Record noise := mkNoise { e_fisher : T; e_forecast : T; e_data : D; e_spectra : spectra }.
  Record metadata := mkMeta { m_run_id : option string; m_external : list (string * string) }.
  Record rundir := mkDir {
    d_files : dict string T; d_pars : P; d_data : D;
    d_power : option power; d_density : option density; d_spectra : option spectra; d_noise : option noise;
    d_meta : option metadata }.

  (** Options of the command line; the configurations of the stages have defaults. *)
  Record args := mkArgs {
    a_forecast : option T; a_tasks : dict string T; a_data : D; a_run_id : string;
    a_power : bool; a_angular : bool; a_external : list (string * string) }.

  Definition file (d : dict string T) (n : string) : res T := match dget String.eqb d n with Some t => Ok t | None => Err EKeyError end.
  Definition done {A} (o : option A) : res A := match o with Some a => Ok a | None => Err EFileNotFound end.

  (** 430-447 loadForecastConfiguration: the file of the run directory, if there is
      one; the input data are those of the command line in both cases. *)
  Definition load_forecast (a : args) (r : option rundir) : res (T * P) :=
    t <- match r with
         | Some r => file (d_files r) "forecast"
         | None => match a_forecast a with Some t => Ok t | None => Err ETypeError end
         end ;;
    p <- pars_of t (a_data a) ;; Ok (t, p).
  (** 465-472, 500-507 prepareWorkspace, createInputFilesDir; workspace.py:228-253. *)
  Definition prepare_dir (a : args) (t : T) (p : P) (r : option rundir) : rundir :=
    match r with
    | Some r => r
    | None => mkDir (("forecast", t) :: a_tasks a) p (a_data a) None None None None None
    end.
  (** 528-535, 614-616: the metadata of this run replace the file.  self.run_id is set
      for new directories only, self.external_dirs never. *)
  Definition write_meta (a : args) (new : bool) (r : rundir) : rundir :=
    mkDir (d_files r) (d_pars r) (d_data r) (d_power r) (d_density r) (d_spectra r) (d_noise r)
      (Some (mkMeta (if new then Some (a_run_id a) else None) [])).

  (** 537-552 computeDensities: with the configuration of the runner. *)
  Definition compute_densities (a : args) (t : T) (r : rundir) : res rundir :=
    z <- (if a_power a then c <- file (d_files r) "PowerSpectrum" ;; Ok (grid_of c)
          else w <- done (d_power r) ;; Ok (grid_of (w_config w))) ;;
    Ok (mkDir (d_files r) (d_pars r) (d_data r) (d_power r) (Some (mkDensity t (a_data a) z)) (d_spectra r) (d_noise r) (d_meta r)).
  (** 186-194, 74-84 The jobs are those of the parameters of the runner.
      compute_pmm: the configuration written beside the job is that of the command
      line, the parameters are those of the run directory. *)
  Definition run_power (a : args) (p : P) (r : rundir) : res rundir :=
    c <- file (a_tasks a) "PowerSpectrum" ;;
    Ok (mkDir (d_files r) (d_pars r) (d_data r) (Some (mkPower p (d_pars r) c)) (d_density r) (d_spectra r) (d_noise r) (d_meta r)).
  (** compute_cls: also the forecast configuration of the run directory. *)
  Definition run_angular (a : args) (p : P) (r : rundir) : res rundir :=
    c <- file (a_tasks a) "Angular" ;;
    t <- file (d_files r) "forecast" ;;
    w <- done (d_power r) ;;
    n <- done (d_density r) ;;
    Ok (mkDir (d_files r) (d_pars r) (d_data r) (d_power r) (d_density r) (Some (mkSpectra p (d_pars r) t (d_data r) c w n)) (d_noise r) (d_meta r)).
  (** 554-560 computeDeltaCls, cl_core.py:108-119. *)
  Definition compute_noise (r : rundir) : res rundir :=
    f <- file (d_files r) "Fisher" ;;
    t <- file (d_files r) "forecast" ;;
    s <- done (d_spectra r) ;;
    Ok (mkDir (d_files r) (d_pars r) (d_data r) (d_power r) (d_density r) (d_spectra r) (Some (mkNoise f t (d_data r) s)) (d_meta r)).
  (** 399-412 doForecast, 562-577 run. *)
  Definition forecast (a : args) (old : option rundir) : res rundir :=
    tp <- load_forecast a old ;;
    let (t, p) := (tp : T * P) in
    let r := write_meta a (match old with None => true | Some _ => false end) (prepare_dir a t p old) in
    r <- (if a_angular a then compute_densities a t r else Ok r) ;;
    r <- (if a_power a then run_power a p r else Ok r) ;;
    if a_angular a then r <- run_angular a p r ;; compute_noise r else Ok r.
End Rerun.
Arguments power : clear implicits.
Arguments density : clear implicits.
Arguments spectra : clear implicits.
Arguments noise : clear implicits.
Arguments rundir : clear implicits.
Arguments args : clear implicits.
