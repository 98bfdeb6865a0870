(** Model of seyfert/utils/converters.py: lengths of figures, solid angles and
    densities on the sky.  Numbers are real numbers without rounding; arrays are
    converted entry by entry and are not modelled. *)
From Coq Require Import Reals.
Open Scope R_scope.

(** 5-18. *)
Definition inches_to_pts (l : R) : R := l * 72.
Definition pts_to_inches (l : R) : R := l / 72.
Definition inches_to_cm (l : R) : R := l * (254 / 100).
Definition cm_to_inches (l : R) : R := l / (254 / 100).
(** 21-34. *)
Definition sterad_to_deg2 (x : R) : R := x * (180 / PI) ^ 2.
Definition sterad_to_arcmin2 (x : R) : R := x * (180 * 60 / PI) ^ 2.
Definition deg2_to_sterad (x : R) : R := x / ((180 / PI) ^ 2).
Definition arcmin2_to_sterad (x : R) : R := x / ((180 * 60 / PI) ^ 2).
(** 37-50. *)
Definition inv_deg2_to_inv_sterad (x : R) : R := x * (180 / PI) ^ 2.
Definition inv_sterad_to_inv_deg2 (x : R) : R := x / ((180 / PI) ^ 2).
Definition inv_arcmin2_to_inv_sterad (x : R) : R := x * (180 * 60 / PI) ^ 2.
Definition inv_sterad_to_inv_arcmin2 (x : R) : R := x / ((180 * 60 / PI) ^ 2).
