(** Model of seyfert/fisher/linalg_tools.py (whole file except
    [transition_matrix], which calls numpy's pinv).

    A numpy matrix is a shape and an entry function; entries outside the shape
    carry no meaning.  Vectors are lists.  Entries live in a field (doubles are
    not modelled). *)
From Verif Require Import Base.
Set Implicit Arguments.

Section M.
  Context {F : Type} {K : Fld F}.
  Open Scope fld_scope.

  Record mat := mkMat { nr : nat; nc : nat; ent : nat -> nat -> F }.

  (** linalg_tools.py:21-28 [_get_idxs_by]: np.indices((n,n)) flattened in
      Fortran order lists the pairs (i,j) with i running fastest; the mask keeps
      those satisfying the predicate, in that order. *)
  Definition all_idxs (nrows ncols : nat) : list (nat * nat) :=
    flat_map (fun j => map (fun i => (i, j)) (seq 0 nrows)) (seq 0 ncols).
  Definition get_idxs_by (p : nat -> nat -> bool) (n : nat) : list (nat * nat) :=
    filter (fun ij => p (fst ij) (snd ij)) (all_idxs n n).

  (** linalg_tools.py:31-32, 35-36, 39-40. *)
  Definition triu_idxs_by_col (n : nat) := get_idxs_by Nat.leb n.
  Definition tril_idxs_by_col (n : nat) := get_idxs_by (fun x y => Nat.leb y x) n.
  Definition diag_idxs (n : nat) := get_idxs_by Nat.eqb n.

  (** linalg_tools.py:5-18 [get_enumeration_map].  The dict comprehension binds
      the pair at position idx of the flattened index list to idx. *)
  Definition get_enumeration_map (shape : nat * nat) (symm : bool) : res (dict (nat * nat) nat) :=
    let '(nA, nB) := shape in
    if symm then
      if negb (Nat.eqb nA nB) then Err EException
      else Ok (combine (triu_idxs_by_col nA) (seq 0 (length (triu_idxs_by_col nA))))
    else Ok (combine (all_idxs nA nB) (seq 0 (length (all_idxs nA nB)))).

  (** linalg_tools.py:43-51 [vecp]. *)
  Definition vecp (A : mat) : res (list F) :=
    if negb (Nat.eqb (nr A) (nc A)) then Err EException
    else Ok (map (fun ij => ent A (fst ij) (snd ij)) (triu_idxs_by_col (nr A))).

  (** linalg_tools.py:54-64 [unvecp].  p = int(0.5*(sqrt(1+8 len v)-1)) with an
      exact square root.  The fancy assignment result[i,j] = v raises
      ValueError unless v has as many entries as there are index pairs (the
      broadcast of a length-one v to another number of pairs cannot occur: it
      gives p = 1 and one pair).  Adding the transpose doubles the diagonal,
      which is then halved. *)
  Definition triangular_root (n : nat) : nat := (Nat.sqrt (8 * n + 1) - 1) / 2.
  Definition ftwo : F := 1 + 1.
  Definition upd2 (f : nat -> nat -> F) (i j : nat) (x : F) : nat -> nat -> F :=
    fun a b => if Nat.eqb a i && Nat.eqb b j then x else f a b.
  Definition assign_idxs (f : nat -> nat -> F) (idx : list (nat * nat)) (v : list F) :=
    fold_left (fun g ijx => upd2 g (fst (fst ijx)) (snd (fst ijx)) (snd ijx)) (combine idx v) f.
  Definition unvecp (v : list F) : res mat :=
    let p := triangular_root (length v) in
    let idx := triu_idxs_by_col p in
    if negb (Nat.eqb (length idx) (length v)) then Err EValueError
    else
      let r := assign_idxs (fun _ _ => 0) idx v in
      let s := fun i j => r i j + r j i in
      Ok (mkMat p p (fun i j => if Nat.eqb i j then s i j / ftwo else s i j)).

  (** linalg_tools.py:67-68 [vec]: Fortran-order ravel. *)
  Definition vec (A : mat) : list F :=
    map (fun ij => ent A (fst ij) (snd ij)) (all_idxs (nr A) (nc A)).

  (** linalg_tools.py:71-74 [unvec]: reshape raises ValueError unless the
      length is n*n for n = int(sqrt(len v)). *)
  Definition unvec (v : list F) : res mat :=
    let n := Nat.sqrt (length v) in
    if negb (Nat.eqb (n * n) (length v)) then Err EValueError
    else Ok (mkMat n n (fun i j => nth (j * n + i) v 0)).

  Definition eye (n : nat) : mat := mkMat n n (fun i j => if Nat.eqb i j then 1 else 0).
  Definition row_of (A : mat) (i : nat) : list F := map (fun j => ent A i j) (seq 0 (nc A)).
  (** C-order ravel of a matrix. *)
  Definition ravel_C (A : mat) : list F :=
    flat_map (fun i => map (fun j => ent A i j) (seq 0 (nc A))) (seq 0 (nr A)).

  (** linalg_tools.py:77-80 [duplication_matrix]: column c of the result is the
      C-order ravel of unvecp of the c-th unit vector. *)
  Definition duplication_matrix (n : nat) : res mat :=
    let N := (n * (n + 1) / 2)%nat in
    cols <- rmapM (fun c => rmap ravel_C (unvecp (row_of (eye N) c))) (seq 0 N) ;;
    Ok (mkMat (n * n) N (fun r c => nth r (nth c cols []) 0)).

  (** linalg_tools.py:83-86 [elimination_matrix]: rows of the identity where
      vec(triu(ones)) is non-zero. *)
  Definition elimination_matrix (n : nat) : mat :=
    let ones := mkMat n n (fun i j => if Nat.leb i j then 1 else 0) in
    let sel := map fst (filter (fun kx => if fdec (snd kx) 0 then false else true)
                               (combine (seq 0 (n * n)) (vec ones))) in
    mkMat (length sel) (n * n) (fun r c => ent (eye (n * n)) (nth r sel 0%nat) c).

  (** linalg_tools.py:93-97 [commutation_matrix]: indices[i,j] = i + p*j
      (arange reshaped in Fortran order), read out in C order, selects rows of
      the identity. *)
  Definition commutation_matrix (p q : nat) : mat :=
    let indices := flat_map (fun i => map (fun j => (i + p * j)%nat) (seq 0 q)) (seq 0 p) in
    mkMat (p * q) (p * q) (fun r c => ent (eye (p * q)) (nth r indices 0%nat) c).

  (** numpy's [M @ v] for a matrix and a vector; ValueError on a shape
      mismatch. *)
  Definition matvec (A : mat) (v : list F) : res (list F) :=
    if negb (Nat.eqb (nc A) (length v)) then Err EValueError
    else Ok (map (fun i => Fsum (fun j => ent A i j * nth j v 0) (seq 0 (nc A))) (seq 0 (nr A))).

  Definition transpose (A : mat) : mat := mkMat (nc A) (nr A) (fun i j => ent A j i).
End M.
Arguments mat : clear implicits.
