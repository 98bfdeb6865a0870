(** Geometry of ellipses for EllipseProps. *)
From Coq Require Import Reals Lra Psatz.
From Verif Require Import Base SortLib FrameModel FisherModel HeapModel ResultsModel RealInst EvalModel EllipseModel.
Open Scope R_scope.

Lemma sqrt_ratio x y : 0 < x -> sqrt (1 + (y / x)²) = sqrt (x * x + y * y) / x.
Proof.
  intros P. replace (1 + (y / x)²) with ((x * x + y * y) / (x * x)) by (unfold Rsqr; field; lra).
  rewrite sqrt_div_alt by nra. rewrite sqrt_square by lra. reflexivity.
Qed.
Lemma hyp_pos x y : (x <> 0 \/ y <> 0) -> 0 < sqrt (x * x + y * y).
Proof. intros N. apply sqrt_lt_R0. destruct N; nra. Qed.
(** atan2 is the angle of the point. *)
Lemma atan2_spec y x : (x <> 0 \/ y <> 0) ->
  cos (atan2 y x) * sqrt (x * x + y * y) = x /\ sin (atan2 y x) * sqrt (x * x + y * y) = y.
Proof.
  intros N. pose proof (hyp_pos x y N) as P. unfold atan2.
  destruct (Rlt_dec 0 x) as [X|X].
  - rewrite cos_atan, sin_atan, (sqrt_ratio x y X). split; field; split; lra.
  - destruct (Rlt_dec x 0) as [X1|X1].
    + assert (S : sqrt (1 + (y / x)²) = sqrt (x * x + y * y) / - x).
      { replace (y / x) with ((- y) / (- x)) by (field; lra). rewrite (sqrt_ratio (- x) (- y)) by lra. f_equal. f_equal. ring. }
      destruct (Rle_dec 0 y) as [Y|Y].
      * rewrite neg_cos, neg_sin, cos_atan, sin_atan, S. split; field; split; lra.
      * replace (atan (y / x) - PI) with (- (PI - atan (y / x))) by ring. rewrite cos_neg, sin_neg, Rtrigo_facts.cos_pi_minus, Rtrigo_facts.sin_pi_minus, cos_atan, sin_atan, S. split; field; split; lra.
    + assert (x = 0) by lra. subst x. destruct N as [N|N]; [lra|]. replace (0 * 0 + y * y) with (y * y) by ring.
      destruct (Rlt_dec 0 y) as [Y|Y]; [rewrite cos_PI2, sin_PI2, sqrt_square by lra; lra|].
      destruct (Rlt_dec y 0) as [Y1|Y1]; [|lra]. rewrite cos_neg, sin_neg, cos_PI2, sin_PI2.
      replace (y * y) with ((- y) * (- y)) by ring. rewrite sqrt_square by lra. lra.
Qed.

Section Axes.
  Variables xx yy xy : R.
  Hypothesis Px : 0 < xx.
  Hypothesis Pd : xy * xy < xx * yy.
  Let root := sqrt ((xx - yy) * (xx - yy) / 4 + xy * xy).
  Let l1 := (xx + yy) / 2 + root.
  Let l2 := (xx + yy) / 2 - root.
  Let t := atan2 (2 * xy) (xx - yy) / 2.
  Let c := cos t.
  Let s := sin t.

  Lemma yy_pos : 0 < yy.
  Proof. clear -Px Pd. pose proof (Rle_0_sqr xy) as Q. unfold Rsqr in Q. apply (Rmult_lt_reg_l xx); lra. Qed.
  Lemma root_sq : root * root = (xx - yy) * (xx - yy) / 4 + xy * xy.
  Proof. apply sqrt_sqrt. pose proof (Rle_0_sqr (xx - yy)) as A. pose proof (Rle_0_sqr xy) as B. unfold Rsqr in A, B. lra. Qed.
  Lemma root_nonneg : 0 <= root.
  Proof. apply sqrt_pos. Qed.
  Lemma l2_pos : 0 < l2.
  Proof. pose proof root_sq. pose proof root_nonneg. pose proof yy_pos. unfold l2. nra. Qed.
  Lemma l1_pos : 0 < l1.
  Proof. pose proof l2_pos. pose proof root_nonneg. unfold l1, l2 in *. lra. Qed.
  Lemma det_axes : l1 * l2 = xx * yy - xy * xy.
  Proof. pose proof root_sq as H. unfold l1, l2. replace (((xx + yy) / 2 + root) * ((xx + yy) / 2 - root)) with ((xx + yy) * (xx + yy) / 4 - root * root) by field. rewrite H. field. Qed.
  Lemma cs_one : c * c + s * s = 1.
  Proof. unfold c, s. pose proof (sin2_cos2 t) as H. unfold Rsqr in H. lra. Qed.
  (** The double angle. *)
  Lemma double : (c * c - s * s) * root = (xx - yy) / 2 /\ 2 * c * s * root = xy.
  Proof.
    assert (D : (cos (atan2 (2 * xy) (xx - yy)) * root = (xx - yy) / 2) /\ sin (atan2 (2 * xy) (xx - yy)) * root = xy).
    { destruct (Req_EM_T (xx - yy) 0) as [E|N]; [destruct (Req_EM_T xy 0) as [E0|N0]|].
      - assert (R0 : root = 0) by (unfold root; rewrite E, E0; replace (0 * 0 / 4 + 0 * 0) with 0 by field; apply sqrt_0). rewrite R0, E, E0. lra.
      - destruct (atan2_spec (2 * xy) (xx - yy)) as [A B]; [right; lra|].
        assert (S : sqrt ((xx - yy) * (xx - yy) + 2 * xy * (2 * xy)) = 2 * root).
        { replace ((xx - yy) * (xx - yy) + 2 * xy * (2 * xy)) with (2 * 2 * ((xx - yy) * (xx - yy) / 4 + xy * xy)) by field.
          rewrite sqrt_mult_alt by lra. rewrite sqrt_square by lra. reflexivity. }
        rewrite S in A, B. split; lra.
      - destruct (atan2_spec (2 * xy) (xx - yy)) as [A B]; [left; exact N|].
        assert (S : sqrt ((xx - yy) * (xx - yy) + 2 * xy * (2 * xy)) = 2 * root).
        { replace ((xx - yy) * (xx - yy) + 2 * xy * (2 * xy)) with (2 * 2 * ((xx - yy) * (xx - yy) / 4 + xy * xy)) by field.
          rewrite sqrt_mult_alt by lra. rewrite sqrt_square by lra. reflexivity. }
        rewrite S in A, B. split; lra. }
    replace (atan2 (2 * xy) (xx - yy)) with (2 * t) in D by (unfold t; field). rewrite cos_2a, sin_2a in D. fold c s in D. destruct D as [D1 D2]. split; lra.
  Qed.
  Lemma axes : xx = l1 * (c * c) + l2 * (s * s) /\ yy = l1 * (s * s) + l2 * (c * c) /\ xy = (l1 - l2) * (c * s).
  Proof.
    destruct double as [A B]. pose proof cs_one as C1. unfold l1, l2.
    assert (E : forall p q, (p + root) * q = p * q + root * q) by (intros; ring).
    repeat split.
    - replace (((xx + yy) / 2 + root) * (c * c) + ((xx + yy) / 2 - root) * (s * s)) with ((xx + yy) / 2 * (c * c + s * s) + (c * c - s * s) * root) by ring. rewrite C1, A. field.
    - replace (((xx + yy) / 2 + root) * (s * s) + ((xx + yy) / 2 - root) * (c * c)) with ((xx + yy) / 2 * (c * c + s * s) - (c * c - s * s) * root) by ring. rewrite C1, A. field.
    - replace (((xx + yy) / 2 + root - ((xx + yy) / 2 - root)) * (c * s)) with (2 * c * s * root) by field. rewrite B. reflexivity.
  Qed.
  (** The form in the directions of the axes. *)
  Lemma form_axes dx dy : yy * (dx * dx) - 2 * xy * (dx * dy) + xx * (dy * dy) =
    l2 * ((dx * c + dy * s) * (dx * c + dy * s)) + l1 * ((dy * c - dx * s) * (dy * c - dx * s)).
  Proof.
    destruct axes as (A & B & C). rewrite A at 1. rewrite B at 1. rewrite C at 1. ring.
  Qed.

  Lemma ellipse_form k mx my px py : 
    covers (mkEllipse mx my (2 * (k * sqrt l1)) (2 * (k * sqrt l2)) (t * (180 / PI))) px py <->
    yy * ((px - mx) * (px - mx)) - 2 * xy * ((px - mx) * (py - my)) + xx * ((py - my) * (py - my)) <= k * k * (xx * yy - xy * xy).
  Proof.
    unfold covers. cbn [e_x e_y e_width e_height e_angle].
    assert (An : t * (180 / PI) * (PI / 180) = t) by (field; apply PI_neq0). rewrite An. fold c s.
    rewrite (form_axes (px - mx) (py - my)), <- det_axes. set (dx := px - mx). set (dy := py - my).
    pose proof l1_pos as P1. pose proof l2_pos as P2. pose proof cs_one as C1.
    pose proof (sqrt_sqrt l1 (Rlt_le _ _ P1)) as S1. pose proof (sqrt_sqrt l2 (Rlt_le _ _ P2)) as S2.
    pose proof (sqrt_lt_R0 _ P1) as Q1. pose proof (sqrt_lt_R0 _ P2) as Q2.
    set (a := sqrt l1) in *. set (b := sqrt l2) in *.
    split.
    - intros (u & v & D & Ex & Ey).
      assert (Hx : dx = k * a * u * c - k * b * v * s) by (unfold dx; rewrite Ex; field).
      assert (Hy : dy = k * a * u * s + k * b * v * c) by (unfold dy; rewrite Ey; field).
      assert (E1 : dx * c + dy * s = k * a * u) by (rewrite Hx, Hy; replace ((k * a * u * c - k * b * v * s) * c + (k * a * u * s + k * b * v * c) * s) with (k * a * u * (c * c + s * s)) by ring; rewrite C1; ring).
      assert (E2 : dy * c - dx * s = k * b * v) by (rewrite Hx, Hy; replace ((k * a * u * s + k * b * v * c) * c - (k * a * u * c - k * b * v * s) * s) with (k * b * v * (c * c + s * s)) by ring; rewrite C1; ring).
      rewrite E1, E2. replace (l2 * (k * a * u * (k * a * u)) + l1 * (k * b * v * (k * b * v))) with (k * k * (u * u * (l2 * (a * a)) + v * v * (l1 * (b * b)))) by ring.
      rewrite S1, S2. replace (u * u * (l2 * l1) + v * v * (l1 * l2)) with ((u * u + v * v) * (l1 * l2)) by ring.
      apply Rmult_le_compat_l; [nra|]. assert (0 < l1 * l2) by (apply Rmult_lt_0_compat; assumption). nra.
    - set (p := dx * c + dy * s). set (q := dy * c - dx * s). intros H.
      assert (Hx : dx = p * c - q * s) by (unfold p, q; replace ((dx * c + dy * s) * c - (dy * c - dx * s) * s) with (dx * (c * c + s * s)) by ring; rewrite C1; ring).
      assert (Hy : dy = p * s + q * c) by (unfold p, q; replace ((dx * c + dy * s) * s + (dy * c - dx * s) * c) with (dy * (c * c + s * s)) by ring; rewrite C1; ring).
      destruct (Req_EM_T k 0) as [Ek|Nk].
      + exists 0, 0. rewrite Ek in H. assert (Z : p * p <= 0 /\ q * q <= 0) by (split; nra). assert (p = 0) by nra. assert (q = 0) by nra.
        split; [lra|]. rewrite Ek. unfold dx, dy in Hx, Hy. split; nra.
      + exists (p / (k * a)), (q / (k * b)). split; [|split].
        * assert (Kp : 0 < k * k * (l1 * l2)) by (apply Rmult_lt_0_compat; [nra|apply Rmult_lt_0_compat; assumption]).
          replace (p / (k * a) * (p / (k * a)) + q / (k * b) * (q / (k * b))) with ((l2 * (p * p) + l1 * (q * q)) / (k * k * (l1 * l2))).
          2:{ rewrite <- S1, <- S2 at 1. rewrite <- S1, <- S2. field. repeat split; lra. }
          apply (Rmult_le_reg_r (k * k * (l1 * l2))); [exact Kp|]. unfold Rdiv. rewrite Rmult_assoc, Rinv_l by lra. lra.
        * replace (2 * (k * a) / 2 * (p / (k * a)) * c - 2 * (k * b) / 2 * (q / (k * b)) * s) with (p * c - q * s) by (field; repeat split; lra). rewrite <- Hx. unfold dx. ring.
        * replace (2 * (k * a) / 2 * (p / (k * a)) * s + 2 * (k * b) / 2 * (q / (k * b)) * c) with (p * s + q * c) by (field; repeat split; lra). rewrite <- Hy. unfold dy. ring.
  Qed.
  (** Shadow of the region on the first axis. *)
  Lemma shadow_x k dx : (exists dy, yy * (dx * dx) - 2 * xy * (dx * dy) + xx * (dy * dy) <= k * k * (xx * yy - xy * xy)) <-> dx * dx <= k * k * xx.
  Proof.
    assert (Z : forall dy, xx * (yy * (dx * dx) - 2 * xy * (dx * dy) + xx * (dy * dy)) = (xx * yy - xy * xy) * (dx * dx) + (xx * dy - xy * dx) * (xx * dy - xy * dx)) by (intros; ring).
    split.
    - intros (dy & H). specialize (Z dy). assert ((xx * yy - xy * xy) * (dx * dx) <= (xx * yy - xy * xy) * (k * k * xx)).
      { pose proof (Rmult_le_compat_l xx _ _ (Rlt_le _ _ Px) H) as M. rewrite Z in M. pose proof (Rle_0_sqr (xx * dy - xy * dx)) as Q. unfold Rsqr in Q. lra. }
      apply (Rmult_le_reg_l (xx * yy - xy * xy)); lra.
    - intros H. exists (xy * dx / xx). specialize (Z (xy * dx / xx)). replace (xx * (xy * dx / xx) - xy * dx) with 0 in Z by (field; lra).
      apply (Rmult_le_reg_l xx); [exact Px|]. rewrite Z.
      assert (M : (xx * yy - xy * xy) * (dx * dx) <= (xx * yy - xy * xy) * (k * k * xx)) by (apply Rmult_le_compat_l; [lra|exact H]). lra.
  Qed.
End Axes.

Lemma shadow_y xx yy xy k dy : 0 < xx -> xy * xy < xx * yy ->
  (exists dx, yy * (dx * dx) - 2 * xy * (dx * dy) + xx * (dy * dy) <= k * k * (xx * yy - xy * xy)) <-> dy * dy <= k * k * yy.
Proof.
  intros Px Pd. assert (Py : 0 < yy) by nra. rewrite <- (shadow_x yy xx xy Py ltac:(lra) k dy).
  split; intros (d & H); exists d; lra.
Qed.
Lemma abs_range k x d : 0 <= k -> 0 <= x -> (d * d <= k * k * x <-> - (k * sqrt x) <= d <= k * sqrt x).
Proof.
  intros K X. pose proof (sqrt_sqrt x X) as S. pose proof (sqrt_pos x) as P. set (r := sqrt x) in *. rewrite <- S.
  replace (k * k * (r * r)) with ((k * r) * (k * r)) by ring. assert (M0 : 0 <= k * r) by (apply Rmult_le_pos; assumption). set (m := k * r) in *.
  split; [intros H; split; nra|intros [A B]; nra].
Qed.
