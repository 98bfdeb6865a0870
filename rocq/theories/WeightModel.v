(** Model of the lensing efficiency and the lensing weight function:
    seyfert/cosmology/weight_functions.py:150-218.

    Simplifications: the densities, comoving distances and Hubble rates are
    functions of the index of the redshift in the grid; scipy's [simps] is an
    argument; the adaptive quadrature (method "quad") is an argument that gives
    the value at a bin and redshift.  The method is reached with an array only
    (computeLensingEfficiency), so the branch for one redshift is left out. *)
From Verif Require Import Base SortLib StrLib NameModel KeyModel ParamModel EvalModel OrdLib NumModel BiasModel ClModel.
Open Scope list_scope.

Section Weight.
  Context {F : Type} {K : Fld F}.
  Open Scope fld_scope.
  Context (simps : list F -> list F -> F) (quad : nat -> nat -> F).

  (** 170-177: integ_array[z_idx:] over z[z_idx:]. *)
  Definition eff_simpson (zs : list F) (n : nat -> nat -> F) (r : nat -> F) (i z : nat) : F :=
    simps (map (fun x => n i x * (1 - r z / r x)) (seq z (length zs - z))) (skipn z zs).
  (** 150-183 computeLensingEfficiencyAtBin, 202-207 computeLensingEfficiency: with
      no bin the method is not looked at. *)
  Definition efficiency (method : string) (bins : nat) (zs : list F) (n : nat -> nat -> F) (r : nat -> F) : res (nat -> nat -> F) :=
    if Nat.eqb bins 0 then Ok (fun _ _ => 0)
    else if String.eqb method "quad" then Ok quad
    else if String.eqb method "simpson" then Ok (eff_simpson zs n r)
    else Err EValueError.
  (** 209-218 evaluateOverRedshiftGrid; [ia] is include_IA with the alignment term. *)
  Definition lensing_weights (method : string) (bins : nat) (Omm H0 c : F) (zs : list F) (n : nat -> nat -> F) (r rt : nat -> F)
      (ia : option (nat -> nat -> F)) : res (nat -> nat -> F) :=
    e <- efficiency method bins zs n r ;; Ok (lensing_weight Omm H0 c (at_ zs) rt e ia).
End Weight.
