(** Model of setting up a run directory: seyfert/utils/workspace.py:60-66,
    126-161, 201-226, 228-253 (reading the table of input files, external
    directories, input files) and seyfert/main/seyfert_core.py:24-63
    (prepare_workspace).

    Simplifications: the texts of paths in JSON are the paths; reading a file
    that is no table of input files as one raises ValueError (json would accept
    some); ForecastConfig's reading of the forecast file is its reading of the
    content ([T]) with an abstract function giving the parameters; default
    directories of the package are paths of their own. *)
From Verif Require Import Base SortLib StrLib FrameModel EvalModel FsModel LinkModel.
Open Scope string_scope.
Open Scope list_scope.

Section Prep.
  (** Contents of configuration files and collections of parameters. *)
  Context {T P : Type}.
  Inductive content := CConf (t : T) | CPars (p : P) | CTable (d : dict string gpath).
  Notation state := (lfs content).
  Context (L : nat) (cwd : path).

  Definition sbind {A B} (m : state * res A) (k : A -> state -> state * res B) : state * res B :=
    match m with (s, Ok a) => k a s | (s, Err e) => (s, Err e) end.

  (** workspace.py:228-253 createInputFilesDir.  The loop carries the table. *)
  Fixpoint copy_all (rd : gpath) (files : dict string gpath) (d : dict string gpath) (s : state) : state * res (dict string gpath) :=
    match files with
    | [] => (s, Ok d)
    | (name, src) :: r =>
        let dst := g_sub rd ["input_files_dir"; g_name src] in
        sbind (lcopy L cwd src dst s) (fun _ s1 => copy_all rd r (dset String.eqb d name (relpath cwd dst rd)) s1)
    end.
  (** input_data_dir.resolve(). *)
  Definition resolved (s : state) (g : gpath) : gpath :=
    mkG true (match locate L cwd s g with Ok p => p | Err _ => abspath cwd g end).
  Definition create_input_files (rd : gpath) (files : dict string gpath) (pars : P) (data_dir : gpath) (s : state) : state * res unit :=
    sbind (lmkdir L cwd (g_sub rd ["input_files_dir"]) s) (fun _ s1 =>
    sbind (copy_all rd files [] s1) (fun d s2 =>
    let pf := g_sub rd ["input_files_dir"; "params.json"] in
    sbind (lwrite L cwd pf (CPars pars) s2) (fun _ s3 =>
    let d1 := dset String.eqb d "params" (relpath cwd pf rd) in
    let d2 := dset String.eqb d1 "input_data_dir" (resolved s3 data_dir) in
    lwrite L cwd (g_sub rd ["input_files_dict.json"]) (CTable d2) s3))).

  (** 60-64 theInputFilesDict, filesystem_utils.py:72-75. *)
  Definition input_table (s : state) (rd : gpath) : res (dict string gpath) :=
    c <- lread L cwd s (g_sub rd ["input_files_dict.json"]) ;;
    match c with CTable d => Ok d | _ => Err EValueError end.
  (** 138-143 getTaskJSONPath, 126-127 getForecastConfigFilePath and 155-156
      getParamsJSONFile (the names "forecast" and "params"). *)
  Definition input_path (s : state) (rd : gpath) (name : string) : res gpath :=
    d <- input_table s rd ;; g <- dget_str d name ;; Ok (g_join rd g).
  (** 129-136 getInputDataDirPath; [dflt] is default_seyfert_input_data_dir. *)
  Definition input_data_dir (dflt : gpath) (s : state) (rd : gpath) : res gpath :=
    g <- input_path s rd "input_data_dir" ;; Ok (if lisdir L cwd s g then g else dflt).

  Definition task_names : list string := ["PowerSpectrum"; "Angular"; "Derivative"; "Fisher"].
  (** 219-226 createSymlink. *)
  Definition create_symlink (rd src dst : gpath) (relative : bool) (s : state) : state * res unit :=
    if lexists L cwd s src then lsymlink L cwd (if relative then relpath cwd src rd else src) dst s
    else (s, Err EFileNotFound).
  (** 201-217 symlinkToExternalDirs. *)
  Fixpoint link_each (rd : gpath) (relative delta : bool) (ext : dict string gpath) (s : state) : state * res unit :=
    match ext with
    | [] => (s, Ok tt)
    | (key, dir) :: r =>
        if lexists L cwd s (g_sub rd [key]) then link_each rd relative delta r s
        else sbind (create_symlink rd dir (g_sub rd [key]) relative s) (fun _ s1 =>
             sbind (if String.eqb key "Angular" && delta
                    then create_symlink rd (g_sub (g_parent dir) ["delta_cls.h5"]) (g_sub rd ["delta_cls.h5"]) relative s1
                    else (s1, Ok tt)) (fun _ s2 => link_each rd relative delta r s2))
    end.
  Definition symlink_to_external (rd : gpath) (ext : dict string gpath) (relative delta : bool) (s : state) : state * res unit :=
    if forallb (fun k => smem k task_names) (dkeys ext) then link_each rd relative delta ext s else (s, Err EKeyError).

  (** seyfert_core.py:24-63 prepare_workspace.  The arguments: the five
      configuration files (defaults already filled in), the data directory, the
      run directory, and the external directories.  ForecastConfig reads the
      forecast file ([pars_of] its parameters). *)
  Record prep_args := mkPrep {
    a_files : dict string gpath; a_data : gpath; a_workdir : gpath;
    a_power : option gpath; a_angular : option gpath; a_derivative : option gpath }.
  Context (pars_of : T -> res P).
  Definition prepare (a : prep_args) (s : state) : state * res P :=
    match (f <- dget_str (a_files a) "forecast" ;; c <- lread L cwd s f ;;
           match c with CConf t => pars_of t | _ => Err EValueError end) with
    | Err e => (s, Err e)
    | Ok pars =>
        let rd := a_workdir a in
        sbind (lmkdirs L cwd rd s) (fun _ s1 =>
        sbind (create_input_files rd (a_files a) pars (a_data a) s1) (fun _ s2 =>
        sbind (match a_power a with None => lmkdir L cwd (g_sub rd ["PowerSpectrum"]) s2 | Some _ => (s2, Ok tt) end) (fun _ s3 =>
        let ext := (match a_angular a with Some g => [("Angular", g)] | None => [] end)
                ++ (match a_derivative a with Some g => [("Derivative", g)] | None => [] end) in
        sbind (symlink_to_external rd ext true false s3) (fun _ s4 => (s4, Ok pars)))))
    end.
  (** workspace.py:163-164 getPowerSpectrumFile. *)
  Definition power_file (rd : gpath) (jobdir : string) : gpath := g_sub rd ["PowerSpectrum"; jobdir; "p_mm.h5"].
End Prep.
Arguments content : clear implicits.
