(** C87: normalised redshift densities. *)
From Verif Require Import Base SortLib ParamModel OrdLib EvalModel EvalSpec NumModel DensModel DensSpec DensLemmas.
From Coq Require Import Field Sorted.
Open Scope string_scope.
Open Scope list_scope.

Section Props.
  Context {F : Type} {K : Fld F} {O : OFld (F := F)}.
  Add Field DensPropsF : (fth (F := F)).
  Open Scope fld_scope.
  Context (N : numerics F) (I : ideal N).
  Implicit Types d : density F.

  (** The computed array has a row per bin and a column per redshift; its entry
      is the counts of the bin over their number, not a number when that is 0. *)
  Theorem C87_values d y zlo zhi r zs : counts d y zlo zhi r -> r_sb r <> 0 -> r_so r <> 0 -> flt (- (1)) zlo -> increasing (dedges d) ->
    zs <> [] -> (forall z, In z zs -> 1 + z <> 0) ->
    exists d1 d2 rows, set_up N d = (d1, Ok tt) /\ evaluate N zs d1 = (d2, Ok tt) /\ dz_grid d2 = Some zs /\ dniz d2 = Some rows /\
      length rows = n_bins d /\
      forall i row, nth_error rows i = Some row -> length row = length zs /\
        forall k z, nth_error zs k = Some z ->
          let n := number_in N d y r zlo zhi (edge d i) (edge d (i + 1)) in
          (n <> 0 -> nth_error row k = Some (Some (counts_in N d y r (edge d i) (edge d (i + 1)) z / n))) /\
          (n = 0 -> nth_error row k = Some None).
  Proof.
    intros C Hb Ho Hz S Ne Hzs. exists (ready_density N (d := d) (y := y) (zlo := zlo) (zhi := zhi) (r := r)).
    set (D := ready_density N (d := d) (y := y) (zlo := zlo) (zhi := zhi) (r := r)).
    set (g := fun i => map (fun z => if fdec (number_in N d y r zlo zhi (edge d i) (edge d (i + 1))) 0 then None else Some (counts_in N d y r (edge d i) (edge d (i + 1)) z / number_in N d y r zlo zhi (edge d i) (edge d (i + 1)))) zs).
    assert (R : forall i, (0 <= i < 0 + n_bins d)%nat -> density_row N (with_values D (Some zs) (dniz D)) zs i = Ok (g i)).
    { intros i [_ Hi]. destruct (normalized_ok N I C i Hb Ho Hz S Hi) as (f & Ef & Vf). unfold density_row.
      change (normalized N (with_values D (Some zs) (dniz D)) i) with (normalized N D i). unfold D. rewrite Ef. cbn [rbind]. destruct zs as [|z0 zs']; [congruence|]. cbn [length Nat.eqb]. rewrite andb_false_r.
      f_equal. apply map_ext_in. intros z Z. apply Vf. apply Hzs. exact Z. }
    pose proof (fill_rows_ok N (with_values D (Some zs) (dniz D)) zs g (n_bins d) 0 R) as FR.
    exists (with_values (with_values D (Some zs) (dniz D)) (Some zs) (Some (map g (seq 0 (n_bins d))))), (map g (seq 0 (n_bins d))).
    split; [apply (set_up_ok N C Hb Ho)|]. split.
    - unfold evaluate. change (dready D) with true. cbn [negb]. change (n_bins (with_values D (Some zs) (dniz D))) with (n_bins d). rewrite FR. reflexivity.
    - split; [reflexivity|]. split; [reflexivity|]. split; [rewrite map_length, seq_length; reflexivity|].
      intros i row Hr. destruct (Nat.lt_ge_cases i (n_bins d)) as [L|L]; [|rewrite (proj2 (nth_error_None _ _)) in Hr by (rewrite map_length, seq_length; exact L); discriminate].
      assert (E : nth_error (map g (seq 0 (n_bins d))) i = Some (g i)).
      { rewrite (map_nth_error g i _ (nth_error_nth' _ 0%nat ltac:(rewrite seq_length; exact L))). rewrite seq_nth by exact L. reflexivity. }
      assert (row = g i) by congruence. subst row. split; [unfold g; rewrite map_length; reflexivity|]. intros k z Hk n. unfold g. rewrite (map_nth_error _ k zs Hk).
      fold n. destruct (fdec n 0); split; intros; congruence.
  Qed.
  (** Each bin's density integrates to one over the domain of the counts. *)
  Theorem C87_unit_integral d y zlo zhi r a b : counts d y zlo zhi r -> number_in N d y r zlo zhi a b <> 0 ->
    quad N (fun z => counts_in N d y r a b z / number_in N d y r zlo zhi a b) zlo zhi = 1.
  Proof.
    intros C H. assert (L := lo_hi C). rewrite (quad_ext _ I _ (fun z => 1 / number_in N d y r zlo zhi a b * counts_in N d y r a b z)); [|exact L|intros z _; field; exact H].
    rewrite (quad_scale _ I) by exact L. change (quad N (counts_in N d y r a b) zlo zhi) with (number_in N d y r zlo zhi a b). field. exact H.
  Qed.
  (** It vanishes outside the domain... *)
  Theorem C87_outside d y zlo zhi r a b z : counts d y zlo zhi r -> flt z zlo \/ flt zhi z -> counts_in N d y r a b z = 0.
  Proof.
    intros C H. unfold counts_in. pose proof (co_lo _ _ _ _ _ C) as L. pose proof (co_hi _ _ _ _ _ C) as G. pose proof (co_many _ _ _ _ _ C) as M.
    destruct (ddom d) as [|x xs] eqn:E; [discriminate|]. cbn in L. assert (x = zlo) by congruence. subst x.
    replace (length (zlo :: xs) - 1)%nat with (length xs) in G by (cbn; lia). rewrite last_nth in G.
    rewrite (spline_outside _ I (zlo :: xs) y zlo xs z eq_refl); [ring|]. assert (last xs zlo = zhi) by congruence. rewrite H0. exact H.
  Qed.
  Lemma normal_pos m s c zp z : flt 0 s -> flt 0 (1 + z) -> flt 0 (normal N m s c zp z).
  Proof. intros Hs Hz. unfold normal. apply fdiv_pos; [apply (exp_pos _ I)|]. apply flt_mul; [apply (root2pi_pos _ I)|]. apply flt_mul; assumption. Qed.
  Lemma scatter_nonneg r zp z : flt 0 (r_sb r) -> flt 0 (r_so r) -> fle 0 (r_fo r) -> fle (r_fo r) 1 -> flt 0 (1 + z) -> fle 0 (scatter N r zp z).
  Proof.
    intros Hb Ho H0 H1 Hz. unfold scatter.
    assert (A : fle 0 ((1 - r_fo r) * normal N (r_zb r) (r_sb r) (r_cb r) zp z)).
    { apply fle_mul; [|apply flt_le, normal_pos; assumption]. apply (fle_add _ _ (- r_fo r)) in H1. replace (r_fo r + - r_fo r) with (0 : F) in H1 by ring. replace (1 - r_fo r) with (1 + - r_fo r) by ring. exact H1. }
    assert (B : fle 0 (r_fo r * normal N (r_zo r) (r_so r) (r_co r) zp z)) by (apply fle_mul; [exact H0|apply flt_le, normal_pos; assumption]).
    eapply fle_trans; [exact A|]. replace ((1 - r_fo r) * normal N (r_zb r) (r_sb r) (r_cb r) zp z) with (0 + (1 - r_fo r) * normal N (r_zb r) (r_sb r) (r_cb r) zp z) at 1 by ring.
    replace ((1 - r_fo r) * normal N (r_zb r) (r_sb r) (r_cb r) zp z + r_fo r * normal N (r_zo r) (r_so r) (r_co r) zp z) with (r_fo r * normal N (r_zo r) (r_so r) (r_co r) zp z + (1 - r_fo r) * normal N (r_zb r) (r_sb r) (r_cb r) zp z) by ring.
    apply fle_add. exact B.
  Qed.
  (** ... and inside is not negative where the interpolated counts are not. *)
  Theorem C87_nonnegative d y zlo zhi r a b z : counts d y zlo zhi r -> flt (- (1)) zlo -> flt 0 (r_sb r) -> flt 0 (r_so r) -> fle 0 (r_fo r) -> fle (r_fo r) 1 -> fle a b ->
    (forall x, between zlo zhi x -> fle 0 (spline N (ddom d) y x)) -> between zlo zhi z -> number_in N d y r zlo zhi a b <> 0 ->
    fle 0 (counts_in N d y r a b z / number_in N d y r zlo zhi a b).
  Proof.
    intros C Hz Hb Ho H0 H1 Hab Sp Bz Nn. assert (P : forall x, between zlo zhi x -> fle 0 (counts_in N d y r a b x)).
    { intros x Bx. unfold counts_in. apply fle_mul; [apply Sp; exact Bx|]. apply (quad_nonneg _ I); [exact Hab|]. intros zp _. apply scatter_nonneg; auto. apply (above (zlo := zlo)); [exact Hz|apply Bx]. }
    assert (Q : flt 0 (number_in N d y r zlo zhi a b)) by (split; [apply (quad_nonneg _ I); [apply (lo_hi C)|exact P]|congruence]).
    apply flt_inv in Q. replace (counts_in N d y r a b z / number_in N d y r zlo zhi a b) with (counts_in N d y r a b z * (1 / number_in N d y r zlo zhi a b)) by (field; exact Nn).
    apply fle_mul; [apply P; exact Bz|apply flt_le; exact Q].
  Qed.
  (** Multiplying the counts by a constant changes nothing. *)
  Theorem C87_scale_free d y zlo zhi r a b z c : counts d y zlo zhi r -> c <> 0 ->
    number_in N d (map (fmul c) y) r zlo zhi a b = c * number_in N d y r zlo zhi a b /\
    (number_in N d y r zlo zhi a b <> 0 ->
     counts_in N d (map (fmul c) y) r a b z / number_in N d (map (fmul c) y) r zlo zhi a b = counts_in N d y r a b z / number_in N d y r zlo zhi a b).
  Proof.
    intros C Hc. assert (E : forall x, counts_in N d (map (fmul c) y) r a b x = c * counts_in N d y r a b x) by (intros x; unfold counts_in; rewrite (spline_scale _ I); ring).
    assert (E2 : number_in N d (map (fmul c) y) r zlo zhi a b = c * number_in N d y r zlo zhi a b).
    { unfold number_in. rewrite (quad_ext _ I _ (fun x => c * counts_in N d y r a b x)); [|apply (lo_hi C)|intros x _; apply E]. apply (quad_scale _ I). apply (lo_hi C). }
    split; [exact E2|]. intros H. rewrite E, E2. field. split; assumption.
  Qed.
  (** No galaxy is in two bins or in none: the counts of the bins add up to the
      counts whose measured redshift is between the first and the last edge. *)
  Theorem C87_bins_add_up d y r z : increasing (dedges d) -> dedges d <> [] ->
    Fsum (fun i => counts_in N d y r (edge d i) (edge d (i + 1)) z) (seq 0 (n_bins d)) = counts_in N d y r (edge d 0) (edge d (n_bins d)) z.
  Proof. intros S H. unfold counts_in. rewrite Fsum_scale. f_equal. unfold edge. apply (quad_bins N I _ d S H). Qed.
  (** Without outliers only the good measurements matter, and the fraction is
      immaterial when both scatter alike. *)
  Theorem C87_outliers r zp z : (r_fo r = 0 -> scatter N r zp z = normal N (r_zb r) (r_sb r) (r_cb r) zp z) /\
    (r_zo r = r_zb r -> r_so r = r_sb r -> r_co r = r_cb r -> scatter N r zp z = normal N (r_zb r) (r_sb r) (r_cb r) zp z).
  Proof. unfold scatter. split; [intros ->; ring|intros -> -> ->; ring]. Qed.

  (** Densities given directly: the rows are interpolated as they are. *)
  Theorem C87_given d rows zs : dhas d = true -> diniz d = Some rows -> increasing (ddom d) -> (3 < length (ddom d))%nat ->
    (forall y, In y rows -> length y = length (ddom d)) -> length rows = n_bins d ->
    exists d1 d2 vals, set_up N d = (d1, Ok tt) /\ evaluate N zs d1 = (d2, Ok tt) /\ dz_grid d2 = Some zs /\ dniz d2 = Some vals /\ length vals = n_bins d /\
      forall i y v, nth_error rows i = Some y -> nth_error vals i = Some v -> length v = length zs /\
        forall k z, nth_error zs k = Some z ->
          (forall j x, nth_error (ddom d) j = Some z -> nth_error y j = Some x -> nth_error v k = Some (Some x)) /\
          (forall a b, nth_error (ddom d) 0 = Some a -> nth_error (ddom d) (length (ddom d) - 1) = Some b -> flt z a \/ flt b z -> nth_error v k = Some (Some 0)).
  Proof.
    intros H E S M Lr Ln. set (ss := map (spline N (ddom d)) rows).
    assert (Es : rmapM (make_spline N (ddom d)) rows = Ok ss).
    { apply rmapM_pure. intros y Hy. apply make_spline_iff. split; [reflexivity|]. split; [exact S|]. split; [exact M|]. symmetry. apply Lr. exact Hy. }
    set (D := with_ready (with_splines d (dspl d) (Some ss)) true).
    assert (Su : set_up N d = (D, Ok tt)).
    { unfold set_up, interpolate_input. rewrite H, E, Es. cbn [with_splines dhas]. rewrite H. reflexivity. }
    set (g := fun i => map (fun z => Some (spline N (ddom d) (nth i rows []) z)) zs).
    assert (R : forall i, (0 <= i < 0 + n_bins d)%nat -> density_row N (with_values D (Some zs) (dniz D)) zs i = Ok (g i)).
    { intros i [_ Hi]. unfold density_row, normalized. change (dhas (with_values D (Some zs) (dniz D))) with (dhas d). rewrite H. cbn [with_values D with_ready with_splines dnspl attr rbind].
      assert (Hn : index ss i = Ok (spline N (ddom d) (nth i rows []))).
      { apply index_iff. unfold ss. apply map_nth_error. apply nth_error_nth'. lia. }
      rewrite Hn. reflexivity. }
    pose proof (fill_rows_ok N _ zs g (n_bins d) 0 R) as FR.
    exists D, (with_values (with_values D (Some zs) (dniz D)) (Some zs) (Some (map g (seq 0 (n_bins d))))), (map g (seq 0 (n_bins d))).
    split; [exact Su|]. split; [unfold evaluate; change (dready D) with true; cbn [negb]; change (n_bins (with_values D (Some zs) (dniz D))) with (n_bins d); rewrite FR; reflexivity|].
    split; [reflexivity|]. split; [reflexivity|]. split; [rewrite map_length, seq_length; reflexivity|].
    intros i y v Hy Hv. assert (L : (i < n_bins d)%nat) by (rewrite <- Ln; apply nth_error_Some; congruence).
    rewrite (map_nth_error g i _ (nth_error_nth' _ 0%nat ltac:(rewrite seq_length; exact L))), seq_nth in Hv by exact L.
    assert (v = g i) by (cbn in Hv; congruence). subst v. assert (Ny : nth i rows [] = y) by (apply nth_error_nth; exact Hy).
    split; [unfold g; rewrite map_length; reflexivity|]. intros k z Hk. unfold g. rewrite (map_nth_error _ k zs Hk), Ny. split.
    - intros j x Hj Hx. rewrite (spline_nodes _ I (ddom d) y j z x S); auto. symmetry. apply Lr. eapply nth_error_In; exact Hy.
    - intros a b Ha Hb Ho. destruct (ddom d) as [|a0 rest] eqn:Ed; [discriminate|]. cbn in Ha. assert (a0 = a) by congruence. subst a0.
      replace (length (a :: rest) - 1)%nat with (length rest) in Hb by (cbn; lia). rewrite last_nth in Hb. rewrite (spline_outside _ I (a :: rest) y a rest z eq_refl); [reflexivity|].
      assert (Eb : last rest a = b) by congruence. rewrite Eb. exact Ho.
  Qed.
End Props.
