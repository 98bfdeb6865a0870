(** Model of how a workspace finds the results of earlier tasks:
    seyfert/utils/workspace.py:102-124, 163-191 and
    seyfert/utils/filesystem_utils.py:138-146.

    Simplifications: the order in which a directory lists its entries is the
    order of the list (the theorems hold for every list); an entry of a task
    directory is a regular file or a directory of which only the names of its
    entries matter; a missing task directory is not modelled. *)
From Verif Require Import Base SortLib StrLib FrameModel NameModel.
Open Scope string_scope.
Open Scope list_scope.

(** The entries of a task directory: [None] is a regular file, [Some fs] a
    directory and the names in it. *)
Definition entries := list (string * option (list string)).
(** [d for d in dir.iterdir() if d.is_dir()] *)
Definition dirs_in (D : entries) : list string :=
  map fst (filter (fun e => match snd e with Some _ => true | None => false end) D).
(** [w in s] for texts. *)
Fixpoint occurs (w s : string) : bool :=
  starts w s || match s with EmptyString => false | String _ r => occurs w r end.

(** The pattern cl_derivatives*.h5 of glob. *)
Definition is_der_file (f : string) : bool :=
  match strip_prefix "cl_derivatives" f with Some r => ends ".h5" r | None => false end.
(** All the (directory, name) pairs two levels down. *)
Definition listing_of (D : entries) : listing :=
  flat_map (fun e => match snd e with Some fs => map (pair (fst e)) fs | None => [] end) D.
(** filesystem_utils.py:138-146 get_file_from_dir_with_pattern. *)
Definition file_with (D : entries) (dir : string) (pattern : string -> bool) : res (string * string) :=
  match filter (fun df => String.eqb (fst df) dir && pattern (snd df)) (listing_of D) with
  | [x] => Ok x
  | _ => Err EException
  end.

Definition pair_dec (a b : string * string) : {a = b} + {a <> b}.
Proof. decide equality; apply string_dec. Defined.

Section Ws.
  Context {SO : SetOrder}.
  (** 102-105 collectPmmVariationParams. *)
  Definition pmm_params (D : entries) : res (list string) :=
    l <- rmapM (fun d => ds <- parse_jobdir d ;; Ok (fst ds)) (dirs_in D) ;; Ok (set_of l).
  (** 107-114 collectClVariationParams. *)
  Definition cl_params (D : entries) : res (list string) :=
    l <- rmapM (fun d => ds <- parse_jobdir d ;; Ok (fst ds)) (filter (fun d => negb (occurs "central" d)) (dirs_in D)) ;;
    Ok (set_of l).
  (** 116-119 collectDerivativeParams. *)
  Definition der_params (D : entries) : list string := set_of (map parse_derivative_dir (dirs_in D)).
  (** 121-124 collectFisherParamsPairs; a set of pairs, its order left as the
      directory's. *)
  Definition fisher_pairs (D : entries) : res (list (string * string)) :=
    l <- rmapM parse_fisher_dir (dirs_in D) ;;
    Ok (nodup pair_dec l).
  (** 166-169 getClFile, 171-174 getClDerivativeFile. *)
  Definition get_cl_file (D : entries) (dvar : string) (step : Z) : res (string * string) :=
    cl_file (listing_of D) dvar step.
  Definition get_der_file (D : entries) (dvar : string) : res (string * string) :=
    file_with D (derivative_dir dvar) is_der_file.
  (** 176-182 collectClDerivativeFiles: the items of the dictionary. *)
  Definition der_files (D : entries) : res (dict string (string * string)) :=
    rmapM (fun d => f <- get_der_file D d ;; Ok (d, f)) (der_params D).
End Ws.

Definition sz_eqb (a b : string * Z) : bool := String.eqb (fst a) (fst b) && Z.eqb (snd a) (snd b).
(** 184-191 collectClVariationDirectories: the glob also returns regular files. *)
Definition cl_dirs (D : entries) : res (dict (string * Z) string) :=
  fold_left (fun acc d => m <- acc ;; ds <- parse_jobdir d ;;
               Ok (if String.eqb (fst ds) "central" then m else dset sz_eqb m ds d))
    (filter (starts "dvar_") (map fst D)) (Ok []).
