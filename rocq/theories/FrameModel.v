(** pandas DataFrames with string labels, Python sets of strings, numpy scalars.
    These are the library operations that seyfert/fisher/fisher_matrix.py and
    fisher_evaluator.py call; no SEYFERT code is transcribed here except
    [invert_dataframe].

    A frame is a list of row labels, a list of column labels and a function from
    labels to entries; [None] is NaN.  Labels are assumed unique (every theorem
    carries that as a hypothesis); the entry function carries no meaning outside
    the labels. *)
From Verif Require Import Base SortLib MatInv.
From Coq Require Import Permutation.

(** A Python set is a duplicate-free list in iteration order.  The order of a
    freshly built set is arbitrary: [ord] picks it, and the theorems quantify
    over every such choice. *)
Class SetOrder := {
  ord : list string -> list string;
  ord_perm : forall l, Permutation (ord l) l
}.
Definition sdup : list string -> list string := nodup string_dec.
Definition set_of {SO : SetOrder} (l : list string) : list string := ord (sdup l).
Definition set_union {SO : SetOrder} (a b : list string) : list string := ord (sdup (a ++ b)).
Definition set_diff {SO : SetOrder} (a b : list string) : list string :=
  ord (filter (fun x => negb (smem x b)) a).
Definition subsetb (a b : list string) : bool := forallb (fun x => smem x b) a.
Definition set_eqb (a b : list string) : bool := subsetb a b && subsetb b a.

(** Square roots, for numpy's sqrt. *)
Class SqrtFld (F : Type) {K : Fld F} {O : OFld (F := F)} := {
  fsqrt : F -> F;
  fsqrt_nonneg : forall x, fle fz x -> fle fz (fsqrt x);
  fsqrt_sq : forall x, fle fz x -> fmul (fsqrt x) (fsqrt x) = x
}.
(** np.sqrt gives NaN on negative numbers. *)
Definition np_sqrt {F} {K : Fld F} {O : OFld (F := F)} {S : SqrtFld F} (x : F) : option F :=
  if fle_dec fz x then Some (fsqrt x) else None.

Section Frame.
  Context {F : Type} {K : Fld F}.
  Open Scope fld_scope.

  Record frame := mkF { ix : list string; cx : list string; ce : string -> string -> option F }.

  (** df.at[a,b], NaN when a label is absent (used by alignment only). *)
  Definition f_get (f : frame) (a b : string) : option F :=
    if smem a (ix f) && smem b (cx f) then ce f a b else None.
  Definition lift2 (op : F -> F -> F) (x y : option F) : option F :=
    match x, y with Some a, Some b => Some (op a b) | _, _ => None end.

  Fixpoint sl_eqb (l m : list string) : bool :=
    match l, m with
    | [], [] => true
    | x :: l', y :: m' => String.eqb x y && sl_eqb l' m'
    | _, _ => false
    end.
  (** Outer join of two indexes: unchanged when equal, else the sorted union. *)
  Definition ijoin (l m : list string) : list string :=
    if sl_eqb l m then l else ssort (sdup (l ++ m)).
  (** df1 <op> df2. *)
  Definition f_op (op : F -> F -> F) (f g : frame) : frame :=
    mkF (ijoin (ix f) (ix g)) (ijoin (cx f) (cx g))
        (fun a b => lift2 op (f_get f a b) (f_get g a b)).
  (** df1.add(df2, fill_value=0): a cell missing (or NaN) on one side counts 0,
      on both sides NaN. *)
  Definition f_addfill (f g : frame) : frame :=
    mkF (ijoin (ix f) (ix g)) (ijoin (cx f) (cx g))
        (fun a b => match f_get f a b, f_get g a b with
                    | None, None => None
                    | Some x, None => Some (x + 0)
                    | None, Some y => Some (0 + y)
                    | Some x, Some y => Some (x + y)
                    end).
  (** df.loc[rows, cols] with lists (or sets) of labels. *)
  Definition f_loc (f : frame) (rows cols : list string) : res frame :=
    if subsetb rows (ix f) && subsetb cols (cx f) then Ok (mkF rows cols (ce f)) else Err EKeyError.
  (** df.drop(l, axis=0), df.drop(l, axis=1). *)
  Definition f_drop0 (l : list string) (f : frame) : res frame :=
    if subsetb l (ix f) then Ok (mkF (filter (fun x => negb (smem x l)) (ix f)) (cx f) (ce f)) else Err EKeyError.
  Definition f_drop1 (l : list string) (f : frame) : res frame :=
    if subsetb l (cx f) then Ok (mkF (ix f) (filter (fun x => negb (smem x l)) (cx f)) (ce f)) else Err EKeyError.
  (** df.sort_index(axis=0), df.sort_index(axis=1). *)
  Definition f_sort0 (f : frame) : frame := mkF (ssort (ix f)) (cx f) (ce f).
  Definition f_sort1 (f : frame) : frame := mkF (ix f) (ssort (cx f)) (ce f).
  (** df[c] = x and df.loc[r] = x with a scalar: overwrite or append. *)
  Definition f_setcol (c : string) (x : F) (f : frame) : frame :=
    mkF (ix f) (if smem c (cx f) then cx f else cx f ++ [c])
        (fun a b => if String.eqb b c then Some x else ce f a b).
  Definition f_setrow (r : string) (x : F) (f : frame) : frame :=
    mkF (if smem r (ix f) then ix f else ix f ++ [r]) (cx f)
        (fun a b => if String.eqb a r then Some x else ce f a b).
  (** df.loc[r, c] = x: enlarges the frame, new cells are NaN. *)
  Definition f_setcell (r c : string) (x : F) (f : frame) : frame :=
    mkF (if smem r (ix f) then ix f else ix f ++ [r]) (if smem c (cx f) then cx f else cx f ++ [c])
        (fun a b => if String.eqb a r && String.eqb b c then Some x else f_get f a b).

  Fixpoint pos (a : string) (l : list string) : nat :=
    match l with [] => 0 | x :: l' => if String.eqb x a then 0 else S (pos a l') end.

  (** fisher_utils.py:81-82 [invert_dataframe]: the array is inverted by
      position and relabelled with the frame's own rows and columns.  A
      non-square or singular array raises LinAlgError; an array containing NaN
      gives NaN everywhere. *)
  Definition invert_dataframe (f : frame) : res frame :=
    let n := length (ix f) in
    let P := fun i j => ce f (nth i (ix f) EmptyString) (nth j (cx f) EmptyString) in
    if negb (Nat.eqb n (length (cx f))) then Err ELinAlg
    else if forallb (fun i => forallb (fun j => match P i j with Some _ => true | None => false end)
                                      (seq 0 n)) (seq 0 n)
    then match mat_inv n (fun i j => match P i j with Some x => x | None => 0 end) with
         | None => Err ELinAlg
         | Some B => Ok (mkF (ix f) (cx f) (fun a b => Some (B (pos a (ix f)) (pos b (cx f)))))
         end
    else Ok (mkF (ix f) (cx f) (fun _ _ => None)).
End Frame.
Arguments frame : clear implicits.
