(** Model of seyfert/main/orchestration.py:19-63: the directory of the
    configurations of several runs, as it is made and as it is read.

    A directory holds its subdirectories, with the names and texts of their files,
    in the order in which they are listed, which the file system chooses; files
    beside them are ignored, except external_dirs.json.  None of the names to be made
    is taken by a file, and the files given are not those in the directory itself. *)
From Verif Require Import Base SortLib StrLib FrameModel NameModel.
Open Scope list_scope.

Definition ext_map := list (string * option string).
Record cfg_dir := mkCfg { subdirs : dict string (dict string string); ext_file : option ext_map }.
(** A file given on the command line: its name and, if it exists, its text. *)
Definition given := option (string * option string).

(** 31-36: one subdirectory. *)
Definition add_config (s : dict string (dict string string)) (name : string) (g : given) : dict string (dict string string) * res unit :=
  let s := if dmem String.eqb s name then s else dset String.eqb s name [] in
  match g with
  | None => (s, Ok tt)
  | Some (_, None) => (s, Err EFileNotFound)
  | Some (f, Some text) =>
      (dset String.eqb s name (dset String.eqb (match dget String.eqb s name with Some d => d | None => [] end) f text), Ok tt)
  end.
Fixpoint add_configs (s : dict string (dict string string)) (l : list (string * given)) : dict string (dict string string) * res unit :=
  match l with
  | [] => (s, Ok tt)
  | (n, g) :: l => match add_config s n g with (s, Ok _) => add_configs s l | (s, Err e) => (s, Err e) end
  end.
(** 19-45 create_config_dir_tree; [old] is the directory if it exists. *)
Definition create_tree (old : option cfg_dir) (pmm cl der fish results : given) : cfg_dir * res unit :=
  let d := match old with Some d => d | None => mkCfg [] None end in
  let (s, r) := add_configs (subdirs d) [("fcfg", None); ("pmm_cfg", pmm); ("cl_cfg", cl); ("der_cfg", der); ("fish_cfg", fish); ("res_cfg", results)]%string in
  match r with
  | Err e => (mkCfg s (ext_file d), Err e)
  | Ok _ => (mkCfg s (Some [("pmm_dir", None); ("cl_dir", None); ("der_dir", None)]%string), Ok tt)
  end.

(** What is read: a file of a subdirectory, several of them, or the external
    directories. *)
Inductive entry := One (sub file : string) | Many (l : list (string * string)) | Ext (m : ext_map).
(** 50-58. *)
Definition read_subdir (n : string) (fs : dict string string) : res entry :=
  if smem n ["fcfg"; "fish_cfg"; "cl_cfg"]%string then Ok (Many (map (pair n) (filter (ends ".json") (dkeys fs))))
  else match dkeys fs with [] => Err EIndexError | f :: _ => Ok (One n f) end.
Fixpoint read_subdirs (l : dict string (dict string string)) (acc : dict string entry) : res (dict string entry) :=
  match l with
  | [] => Ok acc
  | (n, fs) :: l => v <- read_subdir n fs ;; read_subdirs l (dset String.eqb acc n v)
  end.
(** 48-63 get_configs; the division of a text by a text is a TypeError. *)
Definition get_configs (is_path : bool) (d : cfg_dir) : res (dict string entry) :=
  c <- read_subdirs (subdirs d) [] ;;
  if is_path
  then match ext_file d with None => Err EFileNotFound | Some m => Ok (dset String.eqb c "ext_dirs"%string (Ext m)) end
  else Err ETypeError.
