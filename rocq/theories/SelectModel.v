(** Model of seyfert/utils/dir_explorer.py: which run directories are taken for
    a collection of results, and what their names say.

    A directory is a list of entries.  A link is given with the path it finally
    leads to and whether that is a directory.  An additional pattern is the
    function that gives the named groups re.search finds in a name, if it
    matches.  Left out: logging, loadRunMetadata (C65). *)
From Verif Require Import Base SortLib StrLib FrameModel NameModel FsModel BatchModel WsModel.
Open Scope string_scope.
Open Scope list_scope.

Inductive node := File (n : string) | Dir (n : string) (l : list node) | Link (n : string) (target : path) (isdir : bool).
Definition n_name (x : node) : string := match x with File n => n | Dir n _ => n | Link n _ _ => n end.
(** is_dir follows links. *)
Definition n_isdir (x : node) : bool := match x with File _ => false | Dir _ _ => true | Link _ _ b => b end.
(** x.resolve().name *)
Definition n_resolved (x : node) : string := match x with Link _ t _ => path_name t | _ => n_name x end.

(** Named groups of a match; a group that took no part is None. *)
Definition groups := dict string (option string).
Definition pattern := string -> option groups.

(** (optimistic|pessimistic): the word at the beginning, and the rest. *)
Definition scenario_at (s : string) : option (string * string) :=
  match strip_prefix "optimistic" s with
  | Some r => Some ("optimistic", r)
  | None => match strip_prefix "pessimistic" s with Some r => Some ("pessimistic", r) | None => None end
  end.
(** 17-21: the three patterns, matched at the beginning.  "_" is not a digit, so
    [0-9]+ takes all digits. *)
Definition re_run : pattern := fun s =>
  match strip_prefix "run_" s with
  | None => None
  | Some r => match scenario_at r with None => None | Some (sc, _) => Some [("scenario", Some sc)] end
  end.
Definition re_file : pattern := fun s =>
  match scenario_at s with
  | None => None
  | Some (sc, r) =>
      match strip_prefix "_" r with
      | None => None
      | Some r =>
          let (d, r) := span is_digit r in
          if nonempty d && starts "_sp_bins_" r then Some [("scenario", Some sc); ("nbins", Some d)] else None
      end
  end.
Definition re_id : pattern := fun s =>
  match strip_prefix "scenario_" s with
  | None => None
  | Some r =>
      match scenario_at r with
      | None => None
      | Some (sc, r) =>
          match strip_prefix "__n_sp_bins_" r with
          | None => None
          | Some r => let (d, _) := span is_digit r in
                      if nonempty d then Some [("scenario", Some sc); ("nbins", Some d)] else None
          end
      end
  end.
Definition base_regexps : list pattern := [re_run; re_file; re_id].

(** 23-35 getMandatoryDirectoryMatches: at most one match. *)
Fixpoint mandatory (l : list pattern) (name : string) : list (option groups) :=
  match l with
  | [] => []
  | p :: l' => match p name with Some g => [Some g] | None => mandatory l' name end
  end.
(** 37-42 getDirMatches. *)
Definition dir_matches (adds : list pattern) (name : string) : list (option groups) :=
  mandatory base_regexps name ++ map (fun p => p name) adds.

Record request := mkReq { r_adds : list pattern; r_filters : list (string -> bool); r_with : list string; r_without : list string }.
(** 44-60 directoryFilter. *)
Definition is_some {A} (o : option A) : bool := match o with Some _ => true | None => false end.
Definition dir_filter (q : request) (name : string) (ms : list (option groups)) : bool :=
  match ms with
  | [] => false
  | _ => forallb (fun b => b)
           (map is_some ms ++ map (fun f => f name) (r_filters q) ++ map (fun c => occurs c name) (r_with q)
            ++ map (fun c => negb (occurs c name)) (r_without q))
  end.
(** 62-66 getMatchesGroupsDictionary. *)
Definition groups_of (ms : list (option groups)) : groups :=
  fold_left (fun d m => match m with Some g => dupdate String.eqb d g | None => d end) ms [].

(** A candidate: its path, the name the patterns see, the name the filters see. *)
Definition cand := (path * (string * string))%type.
Definition take_cand (q : request) (d : dict path groups) (c : cand) : dict path groups :=
  let ms := dir_matches (r_adds q) (fst (snd c)) in
  if dir_filter q (snd (snd c)) ms then dset sl_eqb d (fst c) (groups_of ms) else d.
Definition take_all (q : request) (cs : list cand) : dict path groups := fold_left (take_cand q) cs [].

(** 80-86: the entries of the directory. *)
Definition flat_cands (root : path) (l : list node) : list cand :=
  map (fun x => (root ++ [n_name x], (n_resolved x, n_name x))) (filter n_isdir l).
(** 71-79: os.walk gives the directories of a directory, then descends into those
    that are no links. *)
Definition level (p : path) (l : list node) : list cand :=
  map (fun x => (p ++ [n_name x], (n_name x, n_name x))) (filter n_isdir l).
Fixpoint below (p : path) (x : node) : list cand :=
  match x with
  | Dir n l => level (p ++ [n]) l ++ flat_map (below (p ++ [n])) l
  | _ => []
  end.
Definition walk (p : path) (l : list node) : list cand := level p l ++ flat_map (below p) l.
(** 68-88 selectDirectories; [root] is the root path as given, [resolved] the path
    it leads to, [l] its entries if it is a directory. *)
Definition select_dirs (recursive : bool) (root resolved : path) (l : option (list node)) (q : request) : res (dict path groups) :=
  match recursive, l with
  | true, None => Ok []
  | true, Some l => Ok (take_all q (walk resolved l))
  | false, None => Err EFileNotFound
  | false, Some l => Ok (take_all q (flat_cands root l))
  end.
(** 90-98 selectWorkspaces: one work space per directory, in the same order. *)
Definition select_workspaces recursive root resolved l q : res (list path) :=
  rmap (@dkeys _ _) (select_dirs recursive root resolved l q).
