(** Model of probe-pair keys (seyfert/utils/shortcuts.py:28-266) and data
    vectors (seyfert/fisher/datavector.py), with the probe names of
    seyfert/__init__.py:5-17.

    Simplifications: ClKey(..., infer_kind=False), never used in the project,
    is left out, so a key always has a kind; the warning-free class hierarchy
    of mappings is a list of bindings. *)
From Verif Require Import Base StrLib SortLib FrameModel.
Open Scope string_scope.

(** __init__.py:5-7. *)
Definition long_names := ["PhotometricGalaxy"; "SpectroscopicGalaxy"; "Lensing"; "Void"].
Definition short_names := ["ph"; "sp"; "wl"; "vd"].
Definition alias_names := ["GCph"; "GCsp"; "WL"; "V"].

Inductive kind := Long | Short | Alias.
Definition kind_eqb (a b : kind) : bool :=
  match a, b with Long, Long | Short, Short | Alias, Alias => true | _, _ => false end.
Definition names (k : kind) := match k with Long => long_names | Short => short_names | Alias => alias_names end.
(** __init__.py:10-17 and shortcuts.py:18-25: the six translation dictionaries,
    each a zip of two of the name lists (or such a zip inverted). *)
Definition transl (k k' : kind) : dict string string := combine (names k) (names k').

(** What may be passed as a key: a str, a tuple of str, or something else. *)
Inductive rawkey := RStr (s : string) | RTup (l : list string) | ROther.
Definition raw_eqb (a b : rawkey) : bool :=
  match a, b with
  | RStr s, RStr t => String.eqb s t
  | RTup l, RTup m => sl_eqb l m
  | _, _ => false
  end.

(** shortcuts.py:45-65.  [kmatch] holds the two groups of the regex match. *)
Record clkey := mkKey { kkey : rawkey; kkind : kind; kmatch : option (string * string) }.

(** 28-31: re.compile(...).match looks for a prefix of the text; the
    alternatives are tried in order, the second group within the first. *)
Definition long_alts := ["PhotometricGalaxy"; "SpectroscopicGalaxy"; "Lensing"; "Void"].
Definition short_alts := ["ph"; "sp"; "wl"; "vd"].
Definition alias_alts := ["WL"; "GCph"; "GCsp"; "V"].
Definition match_pair (alts : list string) (sep s : string) : option (string * string) :=
  find (fun pq => starts (fst pq ++ sep ++ snd pq) s) (list_prod alts alts).
Definition long_match := match_pair long_alts "_".
Definition short_match := match_pair short_alts "".
Definition alias_match (s : string) : option string := find (fun p => starts p s) alias_alts.

(** 157-181 inferKind (a tuple of str; elements of another type raise TypeError). *)
Definition infer_kind (r : rawkey) : res (kind * option (string * string)) :=
  match r with
  | RStr s =>
      match long_match s with
      | Some m => Ok (Long, Some m)
      | None => match short_match s with Some m => Ok (Short, Some m) | None => Err EKeyError end
      end
  | RTup [p1; p2] =>
      match alias_match p1 with
      | None => Err EKeyError
      | Some _ => match alias_match p2 with None => Err EKeyError | Some _ => Ok (Alias, None) end
      end
  | _ => Err EKeyError
  end.
(** 50-65 __init__ with a raw key. *)
Definition clkey_of (r : rawkey) : res clkey :=
  km <- infer_kind r ;; Ok (mkKey r (fst km) (snd km)).

(** 108-119 toParts. *)
Definition to_parts (c : clkey) : res (string * string) :=
  match kkind c with
  | Alias => match kkey c with RTup [p; q] => Ok (p, q) | _ => Err EValueError end
  | _ => match kmatch c with Some m => Ok m | None => Err EAttributeError end
  end.
(** 121-138 fromParts. *)
Definition from_parts (p1 p2 : string) (k : kind) : res clkey :=
  let key := match k with
             | Long => RStr (p1 ++ "_" ++ p2)
             | Short => RStr (p1 ++ p2)
             | Alias => RTup [p1; p2]
             end in
  c <- clkey_of key ;;
  if kind_eqb (kkind c) k then Ok c else Err EValueError.
(** 187-190 getReverseKey. *)
Definition reverse_key (c : clkey) : res clkey :=
  pq <- to_parts c ;; from_parts (snd pq) (fst pq) (kkind c).
(** 192-204 transformTo (copying re-infers the kind from the raw key, 79-83). *)
Definition dgetr {V} (d : dict string V) (k : string) : res V :=
  match dget String.eqb d k with Some v => Ok v | None => Err EKeyError end.
Definition transform_to (k : kind) (c : clkey) : res clkey :=
  if kind_eqb k (kkind c) then clkey_of (kkey c)
  else
    pq <- to_parts c ;;
    p <- dgetr (transl (kkind c) k) (fst pq) ;;
    q <- dgetr (transl (kkind c) k) (snd pq) ;;
    from_parts p q k.
(** 206-222 the shorthands. *)
Definition to_short_raw (c : clkey) : res rawkey := rmap kkey (transform_to Short c).
Definition to_long_raw (c : clkey) : res rawkey := rmap kkey (transform_to Long c).
Definition to_tuple_raw (c : clkey) : res (string * string) :=
  t <- transform_to Alias c ;; to_parts t.
(** 85-88 equivalentTo, 76-77 __eq__ on two keys. *)
Definition equivalent_to (a b : clkey) : res bool :=
  t <- transform_to (kkind b) a ;; Ok (raw_eqb (kkey t) (kkey b) && kind_eqb (kkind t) (kkind b)).
(** 67-71 __hash__: the short raw key is what is hashed (distinct texts are
    taken to have distinct hashes, which does not change dictionary lookups). *)
Definition key_hash (c : clkey) : res rawkey := to_short_raw c.
(** 90-94 is_auto_correlation. *)
Definition is_auto (c : clkey) : res bool := pq <- to_parts c ;; Ok (String.eqb (fst pq) (snd pq)).

(** 224-232 toFisherStringRepr (kind="alias"). *)
Definition to_fisher_repr (c : clkey) : res string :=
  t <- (if kind_eqb Alias (kkind c) then Ok c else transform_to Alias c) ;;
  pq <- to_parts t ;;
  Ok (if String.eqb (fst pq) (snd pq) then fst pq else "XC(" ++ fst pq ++ "," ++ snd pq ++ ")").
(** 140-155 fromFisherStringRepr. *)
Definition from_fisher_repr (s : string) : res clkey :=
  match alias_match s with
  | Some p => from_parts p p Alias
  | None =>
      match find (fun pq => starts ("XC(" ++ fst pq ++ "," ++ snd pq ++ ")") s) (list_prod alias_alts alias_alts) with
      | None => Err EException
      | Some (p, q) => from_parts p q Alias
      end
  end.

(** ** Dictionaries keyed by ClKey objects *)
Section KDict.
  Context {V : Type}.
  (** Python's dict: the hash must agree, then stored == searched. *)
  Fixpoint kd_find (d : list (clkey * V)) (h : rawkey) (k : clkey) : res V :=
    match d with
    | [] => Err EKeyError
    | (k', v) :: d' =>
        match key_hash k' with
        | Ok h' => if raw_eqb h' h
                   then (e <- equivalent_to k' k ;; if e then Ok v else kd_find d' h k)
                   else kd_find d' h k
        | Err _ => kd_find d' h k
        end
    end.
  Definition kd_get (d : list (clkey * V)) (k : clkey) : res V := h <- key_hash k ;; kd_find d h k.
  Fixpoint kd_put (d : list (clkey * V)) (h : rawkey) (k : clkey) (v : V) : res (list (clkey * V)) :=
    match d with
    | [] => Ok [(k, v)]
    | (k', v') :: d' =>
        let rest := (r <- kd_put d' h k v ;; Ok ((k', v') :: r)) in
        match key_hash k' with
        | Ok h' => if raw_eqb h' h
                   then (e <- equivalent_to k' k ;; if e then Ok ((k', v) :: d') else rest)
                   else rest
        | Err _ => rest
        end
    end.
  Definition kd_set (d : list (clkey * V)) (k : clkey) (v : V) : res (list (clkey * V)) :=
    h <- key_hash k ;; kd_put d h k v.

  (** 236-240 SmartKeyDict.__init__ from a dict with raw keys. *)
  Fixpoint smart_fill (d : list (rawkey * V)) (acc : list (clkey * V)) : res (list (clkey * V)) :=
    match d with
    | [] => Ok acc
    | (r, v) :: d' => k <- clkey_of r ;; acc' <- kd_set acc k v ;; smart_fill d' acc'
    end.
  Definition smart_of (d : list (rawkey * V)) : res (list (clkey * V)) := smart_fill d [].
  (** 253-261 __getitem__; [tr] is reversed_key_transform. *)
  Definition smart_get (tr : V -> V) (d : list (clkey * V)) (k : clkey) : res V :=
    match kd_get d k with
    | Err EKeyError => rk <- reverse_key k ;; v <- kd_get d rk ;; Ok (tr v)
    | r => r
    end.
  Definition smart_get_raw (tr : V -> V) (d : list (clkey * V)) (r : rawkey) : res V :=
    k <- clkey_of r ;; smart_get tr d k.
End KDict.

(** ** Data vectors: a list of keys (datavector.py:10-29). *)
Definition dvec := list clkey.
(** 95-96 getNameFromEntries. *)
Definition dv_name (d : dvec) : res string :=
  l <- rmapM to_fisher_repr d ;; Ok ("[" ++ join "+" l ++ "]").
(** 18-29 __init__: the name is computed on construction. *)
Definition dv_make (d : list clkey) : res dvec := _ <- dv_name d ;; Ok d.
Definition dv_of (l : list rawkey) : res dvec := d <- rmapM clkey_of l ;; dv_make d.
(** 43-44 __eq__: zip stops at the shorter one; all() stops at the first False. *)
Fixpoint dv_eq (a b : dvec) : res bool :=
  match a, b with
  | x :: a', y :: b' => e <- equivalent_to x y ;; if e then dv_eq a' b' else Ok false
  | _, _ => Ok true
  end.
(** 58-63 fromName. *)
Definition dv_from_name (s : string) : res dvec :=
  d <- rmapM from_fisher_repr (split_char "+" (remove_char "]" (remove_char "[" s))) ;; dv_make d.
(** 72-76 fromBriefString. *)
Definition tuple_key (r : rawkey) : res clkey :=
  c <- clkey_of r ;; pq <- to_tuple_raw c ;; clkey_of (RTup [fst pq; snd pq]).
Definition dv_from_brief (s : string) : res dvec :=
  d <- rmapM (fun p => tuple_key (RStr p)) (split_char "_" s) ;; dv_make d.
(** 81-84 toBriefString. *)
Definition raw_text (r : rawkey) : res string := match r with RStr s => Ok s | _ => Err ETypeError end.
Definition dv_brief (d : dvec) : res string :=
  l <- rmapM (fun c => r <- to_short_raw c ;; c' <- clkey_of r ;; raw_text (kkey c')) d ;; Ok (join "_" l).
(** 78-79 toString = repr of the data vector of short keys (31-32): the name,
    ": ", and the repr of the list of raw keys.  repr of a str is the text in
    single quotes (true of texts without quotes and backslashes). *)
Definition repr_str (s : string) : string := "'" ++ s ++ "'".
Definition dv_to_string (d : dvec) : res string :=
  sh <- rmapM (fun c => r <- to_short_raw c ;; clkey_of r) d ;;
  n <- dv_name sh ;;
  l <- rmapM (fun c => raw_text (kkey c)) sh ;;
  Ok (n ++ ": [" ++ join ", " (map repr_str l) ++ "]").
(** 65-70 fromString: name, elements = s.split(":") raises ValueError unless
    there is exactly one colon; re.findall([a-z]{4}) scans left to right. *)
Fixpoint findall4 (s : string) : list string :=
  match s with
  | String a ((String b (String c (String d r))) as t) =>
      if is_lower a && is_lower b && is_lower c && is_lower d
      then String a (String b (String c (String d ""))) :: findall4 r
      else findall4 t
  | _ => []
  end.
Definition dv_from_string (s : string) : res dvec :=
  match split_char ":" s with
  | [_; elements] => d <- rmapM (fun p => tuple_key (RStr p)) (findall4 elements) ;; dv_make d
  | _ => Err EValueError
  end.
(** 46-48 is_single_autocorrelation. *)
Definition is_single_auto (d : dvec) : res bool :=
  match d with [c] => is_auto c | _ => Ok false end.
(** 98-105 getInvolvedAutoCorrelationProbes (a set). *)
Definition involved_probes {SO : SetOrder} (d : dvec) : res (list string) :=
  l <- rmapM (fun c => a <- is_auto c ;; if a then (pq <- to_tuple_raw c ;; Ok [fst pq]) else Ok []) d ;;
  Ok (set_of (concat l)).
