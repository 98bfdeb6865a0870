(** Model of seyfert/numeric/integration.py, seyfert/numeric/general.py and of
    get_bins_overlap (seyfert/cosmology/redshift_density.py:256-268). *)
From Verif Require Import Base SortLib ParamModel OrdLib.
Open Scope list_scope.

(** scipy.special.comb on natural numbers. *)
Fixpoint binom (n k : nat) : nat :=
  match n, k with
  | _, 0 => 1
  | 0, S _ => 0
  | S n', S k' => binom n' k' + binom n' k
  end.

Section Num.
  Context {F : Type} {K : Fld F} {O : OFld (F := F)}.
  Open Scope fld_scope.

  Fixpoint fpow (x : F) (n : nat) : F := match n with 0%nat => 1 | Datatypes.S m => x * fpow x m end.

  (** ** Newton-Cotes integration *)
  (** scipy.integrate.newton_cotes(order, 1)[0] for the orders 1 to 6. *)
  Definition nc_weights (order : nat) : list F :=
    match order with
    | 1%nat => map (fun v => fnat 1 * fnat v / fnat 2) [1; 1]%nat
    | 2%nat => map (fun v => fnat 1 * fnat v / fnat 3) [1; 4; 1]%nat
    | 3%nat => map (fun v => fnat 3 * fnat v / fnat 8) [1; 3; 3; 1]%nat
    | 4%nat => map (fun v => fnat 2 * fnat v / fnat 45) [7; 32; 12; 32; 7]%nat
    | 5%nat => map (fun v => fnat 5 * fnat v / fnat 288) [19; 75; 50; 50; 75; 19]%nat
    | 6%nat => map (fun v => fnat 1 * fnat v / fnat 140) [41; 216; 27; 272; 27; 216; 41]%nat
    | _ => []
    end.
  Definition max_order : Z := 6%Z.
  Definition at_ (l : list F) (i : nat) : F := nth i l 0.
  (** 35-66 checkValid for a one-dimensional y; 68-75: unequal spacing is only
      logged, but x_deltas[0] needs two points. *)
  Definition nc_check (order : Z) (nx ny : nat) : res unit :=
    if Z.leb order 0 then Err EValueError
    else if Z.ltb max_order order then Err EDomain
    else if negb (Nat.eqb ny nx) then Err EException
    else if (nx <? 2)%nat then Err EIndexError
    else Ok tt.
  (** 81-104 doIntegrate of one-dimensional samples [y] (n_bins, n_excess_points
      from 31-33). *)
  Definition nc_sum (order : nat) (x y : list F) : F :=
    let n := length x in
    let n_bins := ((n - 1) / order)%nat in
    let n_excess := ((n - 1) mod order)%nat in
    let an := nc_weights order in
    let dx := at_ x 1 - at_ x 0 in
    let body := Fsum (fun delta => dx * Fsum (fun k => at_ an delta * at_ y (order * k + delta)) (seq 0 n_bins)) (seq 0 (order + 1)) in
    if Nat.eqb n_excess 0 then body
    else body + dx * Fsum (fun i => at_ (nc_weights n_excess) i * at_ y (n - n_excess - 1 + i)) (seq 0 (n_excess + 1)).
  (** The constructor and computeIntegral (77-80, which checks again). *)
  Definition nc_integrate (order : Z) (x y : list F) : res F :=
    _ <- nc_check order (length x) (length y) ;;
    Ok (nc_sum (Z.to_nat order) x y).
  (** The same for a two-dimensional y (rows) along the last axis: numpy
      broadcasts the weights along it. *)
  Definition nc_integrate_rows (order : Z) (x : list F) (rows : list (list F)) (width : nat) : res (list F) :=
    _ <- nc_check order (length x) width ;;
    Ok (map (nc_sum (Z.to_nat order) x) rows).
  (** ... and along the first axis (axis=0), [y a b] of shape (len x, m): the sum
      over the whole bins is along the right axis, but aend * yend still pairs
      the weights with the last axis. *)
  Definition nc_integrate_cols (order : Z) (x : list F) (y : nat -> nat -> F) (m : nat) : res (list F) :=
    _ <- nc_check order (length x) (length x) ;;
    let o := Z.to_nat order in
    let n := length x in
    let n_bins := ((n - 1) / o)%nat in
    let n_excess := ((n - 1) mod o)%nat in
    let dx := at_ x 1 - at_ x 0 in
    let body := fun b => Fsum (fun delta => dx * Fsum (fun k => at_ (nc_weights o) delta * y (o * k + delta)%nat b) (seq 0 n_bins)) (seq 0 (o + 1)) in
    if Nat.eqb n_excess 0 then Ok (map body (seq 0 m))
    else if Nat.eqb m (n_excess + 1) then
      Ok (map (fun b => body b + dx * Fsum (fun a => at_ (nc_weights n_excess) b * y (n - n_excess - 1 + a)%nat b) (seq 0 (n_excess + 1))) (seq 0 m))
    else Err EValueError.

  (** ** general.py *)
  (** 21-27 callable_stencil_derivative. *)
  Definition stencil (f : F -> F) (x step : F) : F :=
    let f_m2 := f (x - fnat 2 * step) in
    let f_m1 := f (x - fnat 1 * step) in
    let f_p1 := f (x + fnat 1 * step) in
    let f_p2 := f (x + fnat 2 * step) in
    (- f_p2 + fnat 8 * f_p1 - fnat 8 * f_m1 + f_m2) / (fnat 12 * step).

  (** 7-14 smoothstep. *)
  Definition clip (x lo hi : F) : F := if fle_dec x lo then lo else if fle_dec hi x then hi else x.
  Definition smooth01 (N : nat) (x : F) : F :=
    Fsum (fun n => fnat (binom (N + n) n) * fnat (binom (2 * N + 1) (N - n)) * fpow (- x) n) (seq 0 (N + 1)) * fpow x (N + 1).
  Definition smoothstep (N : nat) (x_min x_max x : F) : F := smooth01 N (clip ((x - x_min) / (x_max - x_min)) 0 1).
  (** 17-18 top_hat_filter. *)
  Definition top_hat (x R : F) : F := 1 - smoothstep 3 (fnat 9 / fnat 10 * R) (fnat 11 / fnat 10 * R) x.

  (** 30-52 pad: entry of an array, entry of a table, single numbers (Python
      floats; numpy numbers would give nan instead of raising). *)
  Definition pad_array (x y : F) : F := if feqb (x + y) 0 then 0 else fnat 200 * fabs (x - y) / fabs (x + y).
  Definition pad_table (x y : F) : F :=
    let den := if feqb (x + y) 0 then 1 else (x + y) / fnat 2 in
    fnat 100 * (fabs (x - y) / den).
  Definition pad_number (x y : F) : res F :=
    if feqb (x + y) 0 then Err EZeroDivision else Ok (fnat 200 * fabs ((x - y) / (x + y))).

  (** redshift_density.py:256-268 get_bins_overlap. *)
  Definition fleb' (x y : F) : bool := if fle_dec x y then true else false.
  Definition fmax (x y : F) : F := if fle_dec x y then y else x.
  Definition fmin (x y : F) : F := if fle_dec x y then x else y.
  Definition bins_overlap (z1_l z1_r z2_l z2_r : F) : res (option (F * F)) :=
    if fleb' z1_r z1_l then Err EException
    else if fleb' z2_r z2_l then Err EException
    else if fleb' z1_r z2_l || fleb' z2_r z1_l then Ok None
    else Ok (Some (fmax z2_l z1_l, fmin z2_r z1_r)).
End Num.
