(** Model of the dictionaries of spectra seyfert/base_structs/cl_dict.py with the
    mapping they are built on, seyfert/base_structs/generic_dict.py:8-45, and
    seyfert/utils/general_utils.py:112-122.

    A key is a text, a tuple of texts or something else ([rawkey]).  Left out:
    __repr__, __eq__ (which compares arrays), DictLike (C64). *)
From Verif Require Import Base StrLib SortLib FrameModel KeyModel.
Open Scope string_scope.
Open Scope list_scope.

Definition comb (p q : string) : string := (p ++ "_" ++ q)%string.
(** general_utils.py:116-122. *)
Definition reverse_text (s : string) : res string :=
  match split_char "_" s with [p; q] => Ok (comb q p) | _ => Err EValueError end.

Section Flex.
  Context {V : Type} (tr : V -> V).
  Definition base := dict rawkey V.

  (** generic_dict.py:11-14: what the constructor is given. *)
  Inductive source := SDict (d : base) | SSame (d : base) | SNone.
  Definition fx_new (s : source) : base := match s with SDict d => d | _ => [] end.
  (** 23-27 __setitem__, __delitem__, 44-45 update. *)
  Definition fx_set (d : base) (k : rawkey) (v : V) : base := dset raw_eqb d k v.
  Definition fx_del (d : base) (k : rawkey) : res base :=
    if dmem raw_eqb d k then Ok (filter (fun kv => negb (raw_eqb (fst kv) k)) d) else Err EKeyError.
  Definition fx_update (d e : base) : base := dupdate raw_eqb d e.

  Definition here (d : base) (k : rawkey) : res V := match dget raw_eqb d k with Some v => Ok v | None => Err EKeyError end.
  (** cl_dict.py:28-34. *)
  Definition full (p : string) : res string := dgetr (transl Alias Long) p.
  Definition alias (p : string) : res string := dgetr (transl Long Alias) p.
  (** 40-58 FlexDict.__getitem__. *)
  Definition fx_get (d : base) (k : rawkey) : res V :=
    match dget raw_eqb d k with
    | Some v => Ok v
    | None =>
        match k with
        | RStr s => r <- reverse_text s ;; rmap tr (here d (RStr r))
        | RTup [p; q] =>
            p <- full p ;; q <- full q ;;
            match here d (RStr (comb p q)) with
            | Ok v => Ok v
            | Err _ => rmap tr (here d (RStr (comb q p)))
            end
        | RTup _ => Err EValueError
        | ROther => Err ETypeError
        end
    end.
  (** Mapping.__contains__: KeyError means no. *)
  Definition contains (get : base -> rawkey -> res V) (d : base) (k : rawkey) : res bool :=
    match get d k with Ok _ => Ok true | Err EKeyError => Ok false | Err e => Err e end.
  (** 60-70 tuple_key_to_str_key. *)
  Definition to_text (d : base) (k : rawkey) : res string :=
    match k with
    | RTup [p; q] =>
        p <- full p ;; q <- full q ;;
        b <- contains fx_get d (RStr (comb p q)) ;;
        if b then Ok (comb p q) else reverse_text (comb p q)
    | _ => Err EValueError
    end.
  (** 72-77 str_key_to_tuple_key, 36-38 tuple_keys. *)
  Definition to_tuple (k : rawkey) : res (string * string) :=
    match k with
    | RStr s => match split_char "_" s with
                | [p; q] => a <- alias p ;; b <- alias q ;; Ok (a, b)
                | _ => Err EValueError
                end
    | _ => Err EAttributeError
    end.
  Definition tuple_keys (d : base) : res (list (string * string)) := rmapM to_tuple (dkeys d).

  (** 88-98 TupleSmartDict.__getitem__; a text unpacks into two letters. *)
  Definition ts_get (d : base) (k : rawkey) : res V :=
    match dget raw_eqb d k with
    | Some v => Ok v
    | None =>
        match k with
        | RTup [p; q] => rmap tr (here d (RTup [q; p]))
        | RStr (String a (String b EmptyString)) => rmap tr (here d (RTup [String b ""; String a ""]))
        | ROther => Err ETypeError
        | _ => Err EValueError
        end
    end.
End Flex.
(** 80-85, 101-102: arrays by multipole and two bins, with their transposition. *)
Definition array3 (F : Type) := (nat -> nat -> nat -> F)%type.
Definition transposed {F} (a : array3 F) : array3 F := fun l i j => a l j i.
