(** Model of the multipole grids of seyfert/utils/array_utils.py:28-55 over the
    real numbers (rounding is not modelled). *)
From Coq Require Import Reals.
From Verif Require Import Base SortLib.
Open Scope list_scope.
Open Scope R_scope.

(** numpy.arange(a, b, step=1): ceil(b - a) values. *)
Definition ceil (r : R) : Z := (1 - up (- r))%Z.
Definition arange (a b : R) : list R := map (fun i => a + INR i) (seq 0 (Z.to_nat (ceil (b - a)))).
(** (edges[:-1] + edges[1:]) / 2 and numpy.diff. *)
Definition midpoints (e : list R) : list R := map (fun p => (fst p + snd p) / 2) (combine (removelast e) (tl e)).
Definition diffs (e : list R) : list R := map (fun p => snd p - fst p) (combine (removelast e) (tl e)).
(** int(x) of a float. *)
Definition trunc (x : R) : Z := if Rle_dec 0 x then Int_part x else (- Int_part (- x))%Z.
Definition log10 (x : R) : R := ln x / ln 10.
(** numpy.logspace(a, b, num=n+1): 10 ** (a + i (b - a) / n). *)
Definition logspace (a b : R) (n : nat) : list R := map (fun i => Rpower 10 (a + INR i * ((b - a) / INR n))) (seq 0 (n + 1)).

(** What may be passed as n_ell. *)
Inductive nell := NNone | NInt (z : Z) | NFloat (x : R) | NOther.
Definition lin_names := ["lin"; "linear"; "Linear"]%string.
Definition log_names := ["log"; "logarithmic"; "Logarithmic"]%string.
(** 34-55 compute_multipoles_arrays: centres and widths.  [None] stands for
    arrays with nan entries, which log10 gives for l_min <= 0.  A negative number
    of samples makes numpy.logspace raise. *)
Definition multipoles (l_min l_max : R) (spacing : string) (n_ell : nell) : res (option (list R * list R)) :=
  if Rle_dec l_max l_min then Err EValueError
  else if smem spacing lin_names then
    let e := arange l_min (l_max + 1) in
    Ok (Some (midpoints e, repeat 1 (length (midpoints e))))
  else if smem spacing log_names then
    n <- match n_ell with NNone => Err EValueError | NInt z => Ok z | NFloat x => Ok (trunc x) | NOther => Err ETypeError end ;;
    if Z.ltb (n + 1) 0 then Err EValueError
    else if Z.leb n 0 then Ok (Some ([], []))
    else if Rle_dec l_min 0 then Ok None
    else
      let e := logspace (log10 l_min) (log10 l_max) (Z.to_nat n) in
      Ok (Some (midpoints e, diffs e))
  else Err EKeyError.

(** 28-31 compute_ell_bin_widths_from_log_centers. *)
Definition widths_from_centers (c : list R) : res (list R) :=
  match c with
  | c0 :: c1 :: _ =>
      let d := log10 (c1 / c0) in
      Ok (map (fun x => 2 * ((Rpower 10 d - 1) / (Rpower 10 d + 1)) * x) c)
  | _ => Err EIndexError
  end.
