(** Model of the background cosmology (seyfert/cosmology/cosmology.py), of the
    growth factor (cosmology/power_spectrum.py:63-67) and of the parameters,
    redshift batches, amplitude tuning and settings files of the Boltzmann codes
    (cosmology/boltzmann_solver.py), over the real numbers.

    Rounding errors are not modelled; the round() calls of the program are.  The
    integrals (comoving distance, growth from Omega_m, sigma_R) and the Boltzmann
    codes themselves are outside the model. *)
From Coq Require Import Reals.
From Verif Require Import Base SortLib StrLib ParamModel RealInst KeyModel.
Open Scope list_scope.
Open Scope R_scope.

(** round(x, n): to the nearest multiple of 10^-n, ties to even. *)
Definition nearest (x : R) : Z :=
  let f := Int_part x in
  let d := x - IZR f in
  if Rlt_dec d (1 / 2) then f else if Rlt_dec (1 / 2) d then (f + 1)%Z else if Z.even f then f else (f + 1)%Z.
Definition round_to (n : nat) (x : R) : R := IZR (nearest (x * 10 ^ n)) / 10 ^ n.

(** ** cosmology.py *)
Definition cpars := dict string (param R).
(** 76-80 cosmo_pars_current and the properties 82-149. *)
Definition cur (d : cpars) (n : string) : res R := rmap current (dgetr d n).
(** 124-129 OmK. *)
Definition OmK (d : cpars) : res R :=
  m <- cur d "Omm" ;; l <- cur d "OmDE" ;; Ok (round_to 10 (1 - (m + l))).
(** 186-199 checkParameters. *)
Definition check_cosmo (d : cpars) (flat : bool) : res unit :=
  _ <- match dget String.eqb d "w0" with
       | Some p => if Rle_dec 1 (fiducial p) then Err EDomain else if Rle_dec 1 (current p) then Err EDomain else Ok tt
       | None => Ok tt end ;;
  _ <- match dget String.eqb d "wa" with
       | Some p => if Rle_dec 2 (Rabs (fiducial p)) then Err EDomain else if Rle_dec 2 (Rabs (current p)) then Err EDomain else Ok tt
       | None => Ok tt end ;;
  if flat then k <- OmK d ;; if Req_EM_T k 0 then Ok tt else Err EDomain else Ok tt.
(** 71-74 the constructor's checks. *)
Definition make_cosmo (d : option cpars) (flat : option bool) : res unit :=
  match d, flat with
  | Some d, Some f => check_cosmo d f
  | None, None => Ok tt
  | _, _ => Err EDomain
  end.
(** 236-251 _dimensionlessHubbleParameter for z > -1; a negative radicand gives
    nan, here 0. *)
Definition radicand (z w0 wa Omm OmDE : R) : R :=
  Omm * (1 + z) ^ 3 + OmDE * Rpower (1 + z) (3 * (1 + w0 + wa)) * exp (-3 * wa * z / (1 + z)) + (1 - Omm - OmDE) * (1 + z) ^ 2.
Definition hubble (d : cpars) (z : R) : res R :=
  w0 <- cur d "w0" ;; wa <- cur d "wa" ;; m <- cur d "Omm" ;; l <- cur d "OmDE" ;; Ok (sqrt (radicand z w0 wa m l)).
(** 253-254 Omega_m_of_z, 263-267, 269-273. *)
Definition Omega_m (d : cpars) (z : R) : res R :=
  m <- cur d "Omm" ;; e <- hubble d z ;; Ok (m * (1 + z) ^ 3 / e ^ 2).
Definition inv_hubble (d : cpars) (z : R) : res R := e <- hubble d z ;; Ok (1 / e).
Definition hubble_kms (d : cpars) (z : R) : res R := h <- cur d "h" ;; e <- hubble d z ;; Ok (h * 100 * e).

(** 299-318 evaluateOverRedshiftGrid: arrays that are there already are kept.
    [dist] stands for the numerical integration, [growth] for the power spectrum. *)
Record cosmo := mkCosmo { c_pars : cpars; c_grid : option (list R); c_E : option (list R); c_r : option (list R); c_D : option (list R) }.
Definition eval_grid (dist : cpars -> list R -> res (list R)) (growth : res (list R)) (c : cosmo) : cosmo * res unit :=
  match c_grid c with
  | None => (c, Err EValueError)
  | Some g =>
      match match c_E c with Some e => Ok e | None => rmapM (hubble (c_pars c)) g end with
      | Err x => (c, Err x)
      | Ok e =>
          let c1 := mkCosmo (c_pars c) (c_grid c) (Some e) (c_r c) (c_D c) in
          match match c_r c with Some r => Ok r | None => dist (c_pars c) g end with
          | Err x => (c1, Err x)
          | Ok r =>
              let c2 := mkCosmo (c_pars c) (c_grid c) (Some e) (Some r) (c_D c) in
              match match c_D c with Some D => Ok D | None => growth end with
              | Err x => (c2, Err x)
              | Ok D => (mkCosmo (c_pars c) (c_grid c) (Some e) (Some r) (Some D), Ok tt)
              end
          end
      end
  end.

(** ** Power spectra: rows indexed by redshift, columns by wavenumber *)
Definition spectrum := nat -> nat -> R.
(** power_spectrum.py:63-67 getGrowthFromLinearPowerSpectrum. *)
Definition growth_of (lin : spectrum) (z : nat) : R := sqrt (lin z 0%nat / lin 0%nat 0%nat).
(** cosmology.py:215-220 rescalePowerSpectrumByComputedGrowth. *)
Definition rescale (g : nat -> R) (lin nonlin : spectrum) : spectrum * spectrum :=
  let s z := (g z / growth_of lin z) ^ 2 in
  (fun z k => lin z k * s z, fun z k => nonlin z k * s z).

(** ** boltzmann_solver.py *)
(** 143-168 computeCAMBCosmologicalBasis. *)
Definition camb_basis (d : cpars) : res (dict string R) :=
  h <- cur d "h" ;; omm <- cur d "Omm" ;; omb <- cur d "Omb" ;; mnu <- cur d "mnu" ;; omde <- cur d "OmDE" ;;
  let ombh2 := omb * h * h in
  let omnuh2 := mnu / (9314 / 100) in
  let omch2 := omm * h * h - ombh2 - omnuh2 in
  w0 <- cur d "w0" ;; wa <- cur d "wa" ;; ns <- cur d "ns" ;;
  Ok [("hubble", 100 * h); ("w", w0); ("wa", wa); ("scalar_spectral_index", ns); ("omch2", omch2); ("ombh2", ombh2);
      ("omnuh2", omnuh2); ("omk", 1 - omm - omde)]%string.
(** 209-247 computeCLASSCosmologicalBasis, its cosmological entries. *)
Definition class_basis (d : cpars) : res (dict string R) :=
  h <- cur d "h" ;; omm <- cur d "Omm" ;; omb <- cur d "Omb" ;; mnu <- cur d "mnu" ;; omde <- cur d "OmDE" ;; s8 <- cur d "sigma8" ;;
  if Req_EM_T (9314 / 100 * h * h) 0 then Err EZeroDivision else
  let omnu := mnu / (9314 / 100 * h * h) in
  let omc := omm - omb - omnu in
  ns <- cur d "ns" ;; w0 <- cur d "w0" ;; wa <- cur d "wa" ;;
  Ok [("Omega_b", omb); ("Omega_cdm", omc); ("h", h); ("sigma8", s8); ("n_s", ns); ("m_ncdm", mnu); ("w0_fld", w0);
      ("Omega_k", round_to 6 (1 - omm - omde)); ("Omega_fld", omde); ("wa_fld", wa)]%string.

(** 197-199 computeCAMBRedshiftGroupsNumber: ceil(n / 150). *)
Definition groups (n : nat) : nat := Nat.div (n + 149) 150.
(** numpy.array_split(l, k): the first len(l) mod k parts get one element more. *)
Fixpoint cut {A} (sizes : list nat) (l : list A) : list (list A) :=
  match sizes with [] => [] | s :: sizes' => firstn s l :: cut sizes' (skipn s l) end.
Definition array_split {A} (k : nat) (l : list A) : res (list (list A)) :=
  match k with
  | O => Err EValueError
  | _ => Ok (cut (repeat (S (Nat.div (length l) k)) (Nat.modulo (length l) k) ++
                  repeat (Nat.div (length l) k) (k - Nat.modulo (length l) k)) l)
  end.
(** 84-86 the batches of run(). *)
Definition batches {A} (grid : list A) : res (list (list A)) := array_split (groups (length grid)) grid.

(** 125-141 finetuneScalarAmpFromSigma8; [sig] is the code's sigma8 of an
    amplitude, [fuel] bounds the passes through the loop. *)
Fixpoint tune (fuel : nat) (sig : R -> R) (s8 tol eval As : R) : res R :=
  if Req_EM_T s8 0 then Err EZeroDivision
  else if Rlt_dec tol (Rabs ((s8 - eval) / s8)) then
    match fuel with
    | O => Err EOutOfFuel
    | S n =>
        let eval' := sig As in
        if Req_EM_T eval' 0 then Err EZeroDivision else tune n sig s8 tol eval' (As * (s8 / eval') ^ 2)
    end
  else Ok As.
Definition finetune (fuel : nat) (sig : R -> R) (s8 As : R) : res R := tune fuel sig s8 (/ 10 ^ 12) 10 As.
