(** Model of the angular spectra (seyfert/cosmology/c_ells.py), their kernels
    (cosmology/kernel_functions.py) and weights (cosmology/weight_functions.py),
    and of the analytic derivative (seyfert/derivatives/differentiator.py).

    An array of shape (l, i, j) is a function of three indices.  The Limber power
    spectrum (a spline), the lensing efficiency and scipy's quadratures are
    arguments of the model.  The grids of all factors have the length of the
    redshift grid; numpy's nan and inf are outside the model. *)
From Verif Require Import Base SortLib StrLib NameModel KeyModel ParamModel EvalModel OrdLib NumModel BiasModel.
Open Scope list_scope.

(** The last character of a name, name[-1]; int() of a decimal digit. *)
Fixpoint last_char (s : string) : option ascii :=
  match s with EmptyString => None | String c EmptyString => Some c | String _ r => last_char r end.
Definition digit_index (name : string) : res nat :=
  match last_char name with
  | None => Err EIndexError
  | Some c => if is_digit c then Ok (digit_val c) else Err EValueError
  end.
(** int(s) of unsigned decimal digits; anything else is a ValueError (a sign
    would only lead to another ValueError or be dropped). *)
Fixpoint all_digits (s : string) : bool := match s with EmptyString => true | String c r => is_digit c && all_digits r end.
Definition int_of (s : string) : res nat :=
  match s with EmptyString => Err EValueError | _ => if all_digits s then Ok (read_digits 0 s) else Err EValueError end.
Fixpoint pow2_from (fuel p n : nat) : bool :=
  match fuel with O => false | S f => if Nat.eqb p n then true else pow2_from f (2 * p) n end.
Definition is_pow2 (n : nat) : bool := pow2_from n 1 n.

Section Cl.
  Context {F : Type} {K : Fld F} {O : OFld (F := F)}.
  Open Scope fld_scope.
  Definition arr3 := nat -> nat -> nat -> F.

  (** ** weight_functions.py *)
  (** 245-249 WeightFunctionWithBias.evaluateOverRedshiftGrid: bin, redshift index. *)
  Definition biased_weight (H : nat -> F) (c : F) (n b : nat -> nat -> F) : nat -> nat -> F := fun i z => H z / c * n i z * b i z.
  (** 209-218 LensingWeightFunction.evaluateOverRedshiftGrid; [ia] is the intrinsic
      alignment term when it is included. *)
  Definition lensing_weight (Omm H0 c : F) (zs rt : nat -> F) (eff : nat -> nat -> F) (ia : option (nat -> nat -> F)) : nat -> nat -> F :=
    fun i z =>
      let w := fnat 3 / fnat 2 * Omm * (1 + zs z) * (H0 / c) * rt z * eff i z in
      match ia with Some a => w - a i z | None => w end.
  (** 185-200 computeIntrinsicAlignmentContribution; [Fz] is F_IA_z. *)
  Definition ia_weight (A C Omm c : F) (Fz H D : nat -> F) (n : nat -> nat -> F) : nat -> nat -> F :=
    fun i z => A * C * Fz z * Omm * H z * n i z / (D z * c).
  (** bias arrays of BiasModel as functions. *)
  Definition rows_fun (rows : list (list F)) : nat -> nat -> F := fun i z => at_ (nth i rows []) z.

  (** ** kernel_functions.py:56-68: for equal probes the second weight is
      overwritten by the first. *)
  Definition kernel (same : bool) (w1 w2 : nat -> nat -> F) (c : F) (H r : nat -> F) : arr3 :=
    fun i j z => w1 i z * (if same then w1 j z else w2 j z) * c / (H z * (r z * r z)).

  (** ** c_ells.py *)
  (** 196-222 computeClIntegral, of one row; the checks do not depend on the
      values.  [simps], [romb] and [quad] are scipy's. *)
  Definition integrator (simps quad : list F -> list F -> F) (romb : list F -> F -> F) (method : string) (zs : list F) : res (list F -> F) :=
    if starts "newton-cotes" method then
      order <- int_of (last (split_char "_" method) EmptyString) ;;
      _ <- nc_check (Z.of_nat order) (length zs) (length zs) ;;
      Ok (nc_sum order zs)
    else if String.eqb method "simpson" then Ok (simps zs)
    else if String.eqb method "romberg" then
      if (length zs <? 2)%nat then Err EIndexError
      else if is_pow2 (length zs - 1) then Ok (fun y => romb y (at_ zs 1 - at_ zs 0)) else Err EValueError
    else if String.eqb method "quad" then Ok (quad zs)
    else Err EDomain.

  Section Spectrum.
    Context (integ : res (list F -> F)) (nz : nat) (P : nat -> nat -> F) (k : arr3).
    (** 161-162 getLimberRedshiftIntegrand, one multipole. *)
    Definition integrand (l i j : nat) : list F := map (fun z => P l z * k i j z) (seq 0 nz).
    Definition integral (i j : nat) : res (nat -> F) := f <- integ ;; Ok (fun l => f (integrand l i j)).
    Definition set_cell (c : arr3) (i j : nat) (v : nat -> F) : arr3 :=
      fun l a b => if Nat.eqb a i && Nat.eqb b j then v l else c l a b.
    (** 164-194 evaluateAngularCorrelation; the second component lists the bin
        pairs integrated.  [offdiag] is compute_gcsp_cl_offdiag, looked up only
        for the spectroscopic auto spectrum. *)
    Definition auto_step (offdiag : bool) (acc : res (arr3 * list (nat * nat))) (ij : nat * nat) : res (arr3 * list (nat * nat)) :=
      a <- acc ;;
      let '(i, j) := ij in
      if negb (Nat.eqb i j) && negb offdiag then Ok a
      else
        v <- integral i j ;;
        let c1 := set_cell (fst a) i j v in
        Ok (set_cell c1 j i (fun l => c1 l i j), snd a ++ [(i, j)]).
    Definition cross_step (acc : res (arr3 * list (nat * nat))) (ij : nat * nat) : res (arr3 * list (nat * nat)) :=
      a <- acc ;;
      v <- integral (fst ij) (snd ij) ;;
      Ok (set_cell (fst a) (fst ij) (snd ij) v, snd a ++ [ij]).
    Definition evaluate (probe1 probe2 : string) (offdiag : res bool) (ni nj : nat) : res (arr3 * list (nat * nat)) :=
      let zero : arr3 * list (nat * nat) := (fun _ _ _ => 0, []) in
      if String.eqb probe1 probe2 then
        off <- (if String.eqb probe1 "SpectroscopicGalaxy" then offdiag else Ok true) ;;
        fold_left (auto_step off) (pairs2 (seq 0 ni)) (Ok zero)
      else fold_left cross_step (list_prod (seq 0 ni) (seq 0 nj)) (Ok zero).
  End Spectrum.

  (** 252-263 applyVoidsCutToLimberPowerSpectrum; [kl] is k at (l, z). *)
  Definition void_cut (kcut width : F) (kl P : nat -> nat -> F) : nat -> nat -> F :=
    fun l z => P l z * (1 - smoothstep 3 (kcut - width) (kcut + width) (kl l z)).

  (** ** differentiator.py:163-213 AnalyticClDifferentiator.doComputeDerivative *)
  (** parameter.py:101-103 is_galaxy_bias_parameter. *)
  Definition is_bias (p : param F) : bool := is_nuis p && starts "bg" (pp_name p).
  Definition probe_is (p : param F) (q : string) : bool := match pprobe p with Some r => String.eqb r q | None => false end.
  (** 187-196; (i == k).astype(int) / bk * c_lij.  A zero bias gives numpy's nan,
      which is outside the model. *)
  Definition analytic_constant (p : param F) (p1 p2 : string) (k : nat) (c : arr3) : arr3 :=
    fun l i j =>
      (if probe_is p p1 then (if Nat.eqb i k then 1 else 0) / fiducial p * c l i j else 0) +
      (if probe_is p p2 then (if Nat.eqb j k then 1 else 0) / fiducial p * c l i j else 0).
  (** 197-212; [y l i j] is the Limber integrand on the grid [zs], [simps y x]
      scipy's; the mask includes both ends of the bin. *)
  Definition in_bin (edges : list F) (k : nat) (z : F) : bool := fleb' (at_ edges k) z && fleb' z (at_ edges (k + 1)).
  Definition masked (edges zs : list F) (k : nat) (y : list F) : list F := map snd (filter (fun zy => in_bin edges k (fst zy)) (combine zs y)).
  Definition analytic_piecewise (simps : list F -> list F -> F) (p : param F) (p1 p2 : string) (k : nat) (edges zs : list F) (y : nat -> nat -> nat -> list F) : arr3 :=
    fun l i j =>
      let v := 1 / fiducial p * simps (masked edges zs k (y l i j)) (filter (in_bin edges k) zs) in
      (if probe_is p p1 then v else 0) + (if probe_is p p2 then v else 0).
  Definition do_analytic (simps : list F -> list F -> F) (p : param F) (p1 p2 model : string) (ni nj : nat) (edges zs : list F)
      (y : nat -> nat -> nat -> list F) (c : arr3) : res arr3 :=
    if negb (is_bias p) then Err ENotImplemented
    else if negb (probe_is p p1) && negb (probe_is p p2) then Err EDomain
    else if String.eqb model "constant" then
      k <- digit_index (pp_name p) ;; Ok (analytic_constant p p1 p2 k c)
    else if String.eqb model "piecewise" then
      k <- digit_index (pp_name p) ;;
      if (length edges <=? k + 1)%nat then Err EIndexError
      else if feqb (fiducial p) 0 && negb (Nat.eqb (ni * nj) 0) then Err EZeroDivision
      else Ok (analytic_piecewise simps p p1 p2 k edges zs y)
    else Err ENotImplemented.
  (** 31-39 computeDerivative: a spectrum of other probes has derivative zero. *)
  Definition analytic_derivative (simps : list F -> list F -> F) (p : param F) (p1 p2 model : string) (ni nj : nat) (edges zs : list F)
      (y : nat -> nat -> nat -> list F) (c : arr3) : res arr3 :=
    if is_nuis p && negb (probe_is p p1) && negb (probe_is p p2) then Ok (fun _ _ _ => 0)
    else do_analytic simps p p1 p2 model ni nj edges zs y c.
End Cl.
