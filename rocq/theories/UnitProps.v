(** C128: conversions of units. *)
From Verif Require Import UnitModel.
From Coq Require Import Reals Lra.
Open Scope R_scope.

Ltac units := intros; unfold inches_to_pts, pts_to_inches, inches_to_cm, cm_to_inches, sterad_to_deg2, sterad_to_arcmin2, deg2_to_sterad, arcmin2_to_sterad,
  inv_deg2_to_inv_sterad, inv_sterad_to_inv_deg2, inv_arcmin2_to_inv_sterad, inv_sterad_to_inv_arcmin2; field; try exact PI_neq0.

Definition inverse (f g : R -> R) : Prop := forall x, f (g x) = x /\ g (f x) = x.
(** Each conversion is undone by the one in the other direction. *)
Theorem C128_inverse : inverse inches_to_pts pts_to_inches /\ inverse inches_to_cm cm_to_inches /\ inverse sterad_to_deg2 deg2_to_sterad /\
  inverse sterad_to_arcmin2 arcmin2_to_sterad /\ inverse inv_deg2_to_inv_sterad inv_sterad_to_inv_deg2 /\ inverse inv_arcmin2_to_inv_sterad inv_sterad_to_inv_arcmin2.
Proof. repeat split; units. Qed.
(** An inch is 72 points and 2.54 centimetres; a degree is the angle of PI / 180 and a
    minute the 60th part of it. *)
Theorem C128_units x : inches_to_pts x = 72 * x /\ 100 * inches_to_cm x = 254 * x /\
  (forall a, deg2_to_sterad (a * a) = (a * (PI / 180)) * (a * (PI / 180))) /\ (forall a, arcmin2_to_sterad (a * a) = (a / 60 * (PI / 180)) * (a / 60 * (PI / 180))) /\
  sterad_to_arcmin2 (deg2_to_sterad x) = 3600 * x.
Proof. repeat split; units. Qed.
(** The number of objects in an area does not depend on the unit in which the area
    and the density are given. *)
Theorem C128_counts n a : inv_deg2_to_inv_sterad n * deg2_to_sterad a = n * a /\ inv_arcmin2_to_inv_sterad n * arcmin2_to_sterad a = n * a /\
  inv_sterad_to_inv_deg2 n * sterad_to_deg2 a = n * a /\ inv_sterad_to_inv_arcmin2 n * sterad_to_arcmin2 a = n * a.
Proof. repeat split; units. Qed.
(** Larger in one unit is larger in the other. *)
Theorem C128_monotone x y : x < y -> inches_to_pts x < inches_to_pts y /\ cm_to_inches x < cm_to_inches y /\ sterad_to_deg2 x < sterad_to_deg2 y /\ deg2_to_sterad x < deg2_to_sterad y /\
  sterad_to_arcmin2 x < sterad_to_arcmin2 y /\ arcmin2_to_sterad x < arcmin2_to_sterad y.
Proof.
  intros H. assert (P : 0 < (180 / PI) ^ 2) by (apply pow_lt, Rdiv_lt_0_compat; [lra|apply PI_RGT_0]). assert (Q : 0 < (180 * 60 / PI) ^ 2) by (apply pow_lt, Rdiv_lt_0_compat; [lra|apply PI_RGT_0]).
  unfold inches_to_pts, cm_to_inches, sterad_to_deg2, deg2_to_sterad, sterad_to_arcmin2, arcmin2_to_sterad, Rdiv. repeat split; try lra; (apply Rmult_lt_compat_r; [|exact H]); try assumption; apply Rinv_0_lt_compat; assumption.
Qed.
(** The whole sphere: 4 PI steradian are 129600 / PI square degrees; 30 objects per
    square minute are 108000 per square degree. *)
Example C128_instance : sterad_to_deg2 (4 * PI) = 129600 / PI /\ inv_sterad_to_inv_deg2 (inv_arcmin2_to_inv_sterad 30) = 108000.
Proof. split; units. Qed.

Print Assumptions C128_inverse.
Print Assumptions C128_units.
Print Assumptions C128_counts.
Print Assumptions C128_monotone.
