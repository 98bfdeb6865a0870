(** Model of the jobs of a batch run: seyfert/main/task_runners.py:86-117,
    186-270 (directories and scripts of the stages), bin/compute_pmm:26-50 and
    bin/compute_cls:36-65 (what a job computes).

    A job that fails ends the stage with its exception; in the code the exception
    is then one of the submission.  Left out: logging, the copied configuration
    files, the time in the name of a script, the file mode, and the computations,
    which are parameters. *)
From Verif Require Import Base SortLib StrLib ParamModel NameModel StemModel.
Open Scope list_scope.

Section Job.
  Context {F : Type} {K : Fld F} {O : OFld (F := F)}.

  (** ** Directories *)
  (** 186-194, 222-235 createJobDirStructure. *)
  Definition by_stem (d : pdict (F := F)) : pdict (F := F) := filter (fun kv => String.eqb (dmethod (snd kv)) "SteM") d.
  Definition jobs_of (d : pdict (F := F)) (steps : list Z) : list (string * Z) :=
    ("central"%string, 0%Z) :: flat_map (fun kv => map (fun s => (fst kv, s)) steps) (by_stem d).
  Definition pmm_jobs (c : coll F) : list (string * Z) := jobs_of (free_cosmological c) (dkeys (stem_dict c)).
  Definition cl_jobs (c : coll F) : list (string * Z) := jobs_of (free_physical c) (dkeys (stem_dict c)).
  (** 258-264. *)
  Definition der_jobs (c : coll F) : list string := map derivative_dir (dkeys (free_physical c)).
  (** 204-205, 243-244 getJobDirName. *)
  Definition dir_of (j : string * Z) : string := jobdir_name (fst j) (snd j).

  (** ** Computations *)
  (** What is in the directories of a stage; a second job of the same directory
      writes the same file. *)
  Fixpoint stage {A} (run : string -> res A) (jobs : list (string * Z)) (done : dict string A) : res (dict string A) :=
    match jobs with
    | [] => Ok done
    | j :: r => a <- run (dir_of j) ;; stage run r (dset String.eqb done (dir_of j) a)
    end.
  Definition found {A} (d : dict string A) (n : string) : res A := match dget String.eqb d n with Some a => Ok a | None => Err EFileNotFound end.

  Section Run.
    (** [solve]: the cosmology with these parameters; [spectra cosmo fiducial c]:
        the spectra. *)
    Context {A B : Type} (solve : pdict (F := F) -> res A) (spectra : A -> A -> coll F -> res B).
    (** The parameters of a job: those of the run, varied as the name of its
        directory says. *)
    Definition varied (c : coll F) (dirname : string) : res (string * Z * coll F) :=
      ds <- parse_jobdir dirname ;;
      match update_step (fst ds) (snd ds) c with (c1, Ok _) => Ok (ds, c1) | (_, Err e) => Err e end.
    (** bin/compute_pmm:26-50. *)
    Definition pmm_job (c : coll F) (dirname : string) : res A :=
      v <- varied c dirname ;; solve (cosmological (snd v)).
    (** bin/compute_cls:36-65. *)
    Definition cl_job (pmm : dict string A) (c : coll F) (dirname : string) : res B :=
      v <- varied c dirname ;;
      src <- pmm_source (fst (fst v)) (snd (fst v)) (snd v) ;;
      a <- found pmm (dir_of src) ;;
      f <- found pmm (dir_of ("central"%string, 0%Z)) ;;
      spectra a f (snd v).
    (** The stages PowerSpectrum and Angular of a run. *)
    Definition run_stages (c : coll F) : res (dict string A * dict string B) :=
      pmm <- stage (pmm_job c) (pmm_jobs c) [] ;;
      cls <- stage (cl_job pmm c) (cl_jobs c) [] ;;
      Ok (pmm, cls).
    (** cl_core.py:87-100 with the fiducial cosmology of seyfert_core.py: the spectra of a
        variation in memory, to be used with [vary]. *)
    Definition in_memory (pmm : dict string A) (f : A) (src : string * Z) (c : coll F) : res B :=
      a <- found pmm (dir_of src) ;; spectra a f c.
  End Run.

  (** ** Scripts *)
  (** 99-117 writeJobShellScript: the dictionary of the runner is shared by its jobs. *)
  Definition nl : string := String (ascii_of_nat 10) "".
  Definition fill (pars : dict string string) (dir logfile config rundir : string) : dict string string :=
    dset String.eqb (dset String.eqb (dset String.eqb (dset String.eqb pars "workdir" dir) "logfile" logfile) "main_config" config) "rundir" rundir.
  Definition script (main : string) (venv : option string) (dir : string) (pars : dict string string) : string :=
    ("#!/bin/bash" ++ nl ++ nl ++ "cd " ++ dir ++ nl ++
     match venv with Some v => "source " ++ v ++ "/bin/activate" ++ nl | None => "" end ++
     fold_left (fun s kv => s ++ " --" ++ fst kv ++ " " ++ snd kv) pars main ++ nl)%string.
  Fixpoint scripts (main : string) (venv : option string) (config rundir : string) (dirs : list string) (pars : dict string string) : list string :=
    match dirs with
    | [] => []
    | d :: r =>
        let p := fill pars d ("logfile_" ++ main ++ ".log")%string config rundir in
        script main venv d p :: scripts main venv config rundir r p
    end.
End Job.
