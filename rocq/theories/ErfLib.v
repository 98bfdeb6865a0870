(** The error function: what the theorems on probabilities assume of it, and that
    there is one. *)
From Coq Require Import Reals Lra.
Open Scope R_scope.

(** The distribution of the absolute value of a normal variable of variance one
    half: 0 at 0, 1 far out, with a density proportional to exp(-z^2). *)
Record is_erf (erf : R -> R) (c : R) : Prop := {
  erf_0 : erf 0 = 0;
  erf_slope : forall z, 0 <= z -> derivable_pt_lim erf z (c * exp (- (z * z)));
  erf_limit : forall eps, 0 < eps -> exists M, forall z, M <= z -> Rabs (erf z - 1) < eps }.

Lemma gauss_deriv z : derivable_pt_lim (fun z => exp (- (z * z))) z (- 2 * z * exp (- (z * z))).
Proof.
  replace (- 2 * z * exp (- (z * z))) with (exp (- (z * z)) * (- (1 * z + z * 1))) by ring.
  apply (derivable_pt_lim_comp (fun z => - (z * z)) exp).
  - apply (derivable_pt_lim_opp (fun z => z * z)). apply (derivable_pt_lim_mult (fun z => z) (fun z => z)); apply derivable_pt_lim_id.
  - apply derivable_pt_lim_exp.
Qed.

Section Erf.
  Variables (erf : R -> R) (c : R).
  Hypothesis H : is_erf erf c.
  Let f z := erf z - 1 + exp (- (z * z)).
  Lemma f_deriv z : 0 <= z -> derivable_pt_lim f z (exp (- (z * z)) * (c - 2 * z)).
  Proof.
    intros P. replace (exp (- (z * z)) * (c - 2 * z)) with ((c * exp (- (z * z)) - 0) + - 2 * z * exp (- (z * z))) by ring.
    apply (derivable_pt_lim_plus (fun z => erf z - 1)); [|apply gauss_deriv].
    apply (derivable_pt_lim_minus erf (fun _ => 1)); [apply (erf_slope _ _ H); exact P|apply derivable_pt_lim_const].
  Qed.
  Lemma erf_c_pos : 0 < c.
  Proof.
    destruct (Rle_lt_dec c 0) as [N|]; [exfalso|assumption]. destruct (erf_limit _ _ H 1 Rlt_0_1) as [M HM].
    set (z := Rmax M 1). assert (Z : 0 < z) by (unfold z; pose proof (Rmax_r M 1); lra).
    destruct (MVT_cor2 erf (fun z => c * exp (- (z * z))) 0 z Z) as (x & E & Hx); [intros y Hy; apply (erf_slope _ _ H); lra|].
    rewrite (erf_0 _ _ H) in E. specialize (HM z (Rmax_l M 1)). apply Rabs_def2 in HM as [_ HM]. pose proof (exp_pos (- (x * x))) as X.
    assert (A : 0 <= (- c) * exp (- (x * x)) * z) by (repeat apply Rmult_le_pos; lra). lra.
  Qed.
  Lemma erf_increasing a b : 0 <= a < b -> erf a < erf b.
  Proof.
    intros [A B]. destruct (MVT_cor2 erf (fun z => c * exp (- (z * z))) a b B) as (x & E & Hx); [intros y Hy; apply (erf_slope _ _ H); lra|].
    assert (P : 0 < c * exp (- (x * x)) * (b - a)) by (repeat apply Rmult_lt_0_compat; [apply erf_c_pos|apply exp_pos|lra]). lra.
  Qed.
  (** The disc whose radius is that of an interval of probability erf z holds less. *)
  Lemma disc_below z : 0 < z -> 1 - exp (- (z * z)) < erf z.
  Proof.
    intros Z. pose proof erf_c_pos as C. enough (0 < f z) by (unfold f in *; lra). destruct (Rle_lt_dec z (c / 2)) as [L|L].
    - destruct (MVT_cor2 f (fun z => exp (- (z * z)) * (c - 2 * z)) 0 z Z) as (x & E & Hx); [intros y Hy; apply f_deriv; lra|].
      assert (F0 : f 0 = 0) by (unfold f; rewrite (erf_0 _ _ H), Rmult_0_l, Ropp_0, exp_0; ring).
      assert (P : 0 < exp (- (x * x)) * (c - 2 * x) * (z - 0)) by (repeat apply Rmult_lt_0_compat; [apply exp_pos|lra|lra]). lra.
    - assert (Dec : forall a b, c / 2 < a -> a < b -> f b < f a).
      { intros a b A B. destruct (MVT_cor2 f (fun z => exp (- (z * z)) * (c - 2 * z)) a b B) as (x & E & Hx); [intros y Hy; apply f_deriv; lra|].
        assert (P : 0 < exp (- (x * x)) * (2 * x - c) * (b - a)) by (repeat apply Rmult_lt_0_compat; [apply exp_pos|lra|lra]). lra. }
      assert (D : f (z + 1) < f z) by (apply Dec; lra).
      destruct (Rle_lt_dec (f z) 0) as [N|]; [exfalso|assumption].
      destruct (erf_limit _ _ H (- f (z + 1)) ltac:(lra)) as (M & HM). set (w := Rmax M (z + 2)). specialize (HM w (Rmax_l _ _)).
      assert (Dw : f w < f (z + 1)) by (apply Dec; [lra|]; unfold w; pose proof (Rmax_r M (z + 2)); lra).
      unfold f in Dw at 1. pose proof (exp_pos (- (w * w))). apply Rabs_def2 in HM as [_ HM]. lra.
  Qed.
End Erf.

(** There is such a function. *)
Definition gauss (t : R) : R := exp (- (t * t)).
Lemma gauss_cont t : continuity_pt gauss t.
Proof. apply derivable_continuous_pt. exists (- 2 * t * exp (- (t * t))). apply gauss_deriv. Qed.
Definition area (z : R) : R :=
  match Rle_dec (- 1) z with
  | left L => RiemannInt (continuity_implies_RiemannInt L (fun t _ => gauss_cont t))
  | right _ => 0
  end.
Lemma area_deriv z : 0 <= z -> derivable_pt_lim area z (gauss z).
Proof.
  intros P. assert (L : - 1 <= z + 1) by lra.
  pose proof (@RiemannInt_P28 gauss (- 1) (z + 1) z L (fun t _ => gauss_cont t) ltac:(lra)) as D.
  intros eps He. destruct (D eps He) as (d & Hd). assert (Hm : 0 < Rmin d 1) by (apply Rmin_pos; [apply (cond_pos d)|lra]).
  assert (Eq : forall y, - 1 <= y <= z + 1 -> area y = primitive L (FTC_P1 L (fun t _ => gauss_cont t)) y).
  { intros y [A B]. unfold area, primitive. destruct (Rle_dec (- 1) y) as [A'|]; [|contradiction]. destruct (Rle_dec y (z + 1)) as [B'|]; [|contradiction]. apply RiemannInt_P5. }
  exists (mkposreal _ Hm). cbn. intros h Nh Hh. pose proof (Rmin_l d 1). pose proof (Rmin_r d 1).
  assert (B : - 1 < h < 1) by (apply Rabs_def2 in Hh; lra). rewrite (Eq (z + h)), (Eq z) by lra. apply Hd; [exact Nh|lra].
Qed.
Lemma area_up a b : 0 <= a < b -> area a < area b.
Proof.
  intros [A B]. destruct (MVT_cor2 area gauss a b B) as (x & E & Hx); [intros y Hy; apply area_deriv; lra|].
  assert (P : 0 < gauss x * (b - a)) by (apply Rmult_lt_0_compat; [apply exp_pos|lra]). lra.
Qed.
Lemma tail_deriv z : derivable_pt_lim (fun z => exp (1 - 2 * z) / 2) z (- exp (1 - 2 * z)).
Proof.
  replace (- exp (1 - 2 * z)) with (/ 2 * (exp (1 - 2 * z) * (0 - 2 * 1))) by field.
  apply (derivable_pt_lim_ext (fun z => / 2 * exp (1 - 2 * z))); [intros; field|].
  apply (derivable_pt_lim_scal (fun z => exp (1 - 2 * z))). apply (derivable_pt_lim_comp (fun z => 1 - 2 * z) exp); [|apply derivable_pt_lim_exp].
  apply (derivable_pt_lim_minus (fun _ => 1) (fun z => 2 * z)); [apply derivable_pt_lim_const|]. apply (derivable_pt_lim_scal (fun z => z)). apply derivable_pt_lim_id.
Qed.
Lemma area_bound z : 0 < z -> area z <= area 0 + exp 1 / 2.
Proof.
  intros Z. destruct (MVT_cor2 (fun z => area z + exp (1 - 2 * z) / 2) (fun z => gauss z + - exp (1 - 2 * z)) 0 z Z) as (x & E & Hx).
  { intros y Hy. apply (derivable_pt_lim_plus area (fun z => exp (1 - 2 * z) / 2)); [apply area_deriv; lra|apply tail_deriv]. }
  cbv beta in E. replace (1 - 2 * 0) with 1 in E by ring. pose proof (exp_pos (1 - 2 * z)) as X.
  assert (G : gauss x <= exp (1 - 2 * x)).
  { pose proof (Rle_0_sqr (x - 1)) as Q. unfold Rsqr in Q. unfold gauss. destruct (Req_dec (- (x * x)) (1 - 2 * x)) as [->|N]; [lra|]. left. apply exp_increasing. lra. }
  assert (P : 0 <= (exp (1 - 2 * x) - gauss x) * (z - 0)) by (apply Rmult_le_pos; lra). lra.
Qed.
Theorem erf_exists : exists erf c, is_erf erf c.
Proof.
  destruct (growing_cv (fun n => area (INR n))) as (l & Hl).
  - intros n. rewrite S_INR. left. apply area_up. pose proof (pos_INR n). lra.
  - exists (area 0 + exp 1 / 2). intros x (n & ->). destruct n as [|n]; [cbn; pose proof (exp_pos 1); lra|]. apply area_bound. apply lt_0_INR. apply PeanoNat.Nat.lt_0_succ.
  - assert (Ub : forall n, area (INR n) <= l).
    { apply growing_ineq; [|exact Hl]. intros n. rewrite S_INR. left. apply area_up. pose proof (pos_INR n). lra. }
    assert (Lp : 0 < l - area 0) by (pose proof (Ub 1%nat) as U; cbn in U; pose proof (area_up 0 1 ltac:(lra)); lra).
    exists (fun z => / (l - area 0) * (area z - area 0)), (/ (l - area 0)). split.
    + ring.
    + intros z Hz. apply (derivable_pt_lim_scal (fun z => area z - area 0)). change (exp (- (z * z))) with (gauss z). rewrite <- (Rminus_0_r (gauss z)).
      apply (derivable_pt_lim_minus area (fun _ => area 0)); [apply area_deriv; exact Hz|apply derivable_pt_lim_const].
    + intros eps He. destruct (Hl (eps * (l - area 0))) as (N & HN); [apply Rlt_gt, Rmult_lt_0_compat; assumption|].
      exists (INR N + 1). intros z Hz. specialize (HN N (PeanoNat.Nat.le_refl N)). unfold R_dist in HN. pose proof (pos_INR N) as PN. pose proof (Ub N) as UN.
      assert (Lo : area (INR N) < area z) by (apply area_up; lra).
      assert (Up : area z <= l).
      { destruct (archimed z) as [Ha _]. assert (0 <= up z)%Z by (apply le_IZR; lra). pose proof (Ub (Z.to_nat (up z))) as U. rewrite INR_IZR_INZ, Znat.Z2Nat.id in U by assumption.
        pose proof (area_up z (IZR (up z)) ltac:(lra)). lra. }
      apply Rabs_def2 in HN as [_ HN].
      replace (/ (l - area 0) * (area z - area 0) - 1) with (- (/ (l - area 0) * (l - area z))) by (field; lra).
      rewrite Rabs_Ropp, Rabs_right; [|apply Rle_ge, Rmult_le_pos; [left; apply Rinv_0_lt_compat; exact Lp|lra]].
      apply (Rmult_lt_reg_l (l - area 0)); [exact Lp|]. rewrite <- Rmult_assoc, Rinv_r by lra. lra.
Qed.
(** Its levels below 1 have an inverse. *)
Theorem erf_onto erf c CL : is_erf erf c -> 0 < CL < 1 -> exists z, 0 < z /\ erf z = CL.
Proof.
  intros H [A B]. destruct (erf_limit _ _ H (1 - CL) ltac:(lra)) as (M & HM). set (w := Rmax M 1). specialize (HM w (Rmax_l _ _)). assert (W : 1 <= w) by apply Rmax_r.
  apply Rabs_def2 in HM as [_ HM]. destruct (Ranalysis5.f_interv_is_interv erf 0 w CL) as (z & Hz & E); [lra|rewrite (erf_0 _ _ H); lra| |].
  - intros x Hx. apply derivable_continuous_pt. eexists. apply (erf_slope _ _ H). lra.
  - exists z. split; [|exact E]. destruct (Req_dec z 0) as [->|]; [rewrite (erf_0 _ _ H) in E; lra|lra].
Qed.
