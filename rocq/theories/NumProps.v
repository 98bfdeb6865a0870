(** Properties C45-C49: quadrature, numerical derivative, smooth step,
    percentage differences and bin overlaps. *)
From Verif Require Import Base SortLib ParamModel EvalModel EvalSpec EllLemmas OrdLib NumModel NumLemmas NumLemmas2.
From Coq Require Import Field.
Open Scope list_scope.

Section P.
  Context {F : Type} {K : Fld F} {O : OFld (F := F)}.
  Add Field FldNP : (fth (F := F)).
  Open Scope fld_scope.

  (** ** C45 *)
  Lemma nc_ok order (x y : list F) : (1 <= order <= 6)%nat -> (2 <= length x)%nat -> length y = length x ->
    nc_integrate (Z.of_nat order) x y = Ok (nc_sum order x y).
  Proof.
    intros Ho Hx Hy. unfold nc_integrate, nc_check. destruct (Z.leb_spec (Z.of_nat order) 0); [lia|].
    destruct (Z.ltb_spec max_order (Z.of_nat order)) as [G|G]; [unfold max_order in G; lia|]. rewrite Hy, Nat.eqb_refl. cbn [negb].
    destruct (Nat.ltb_spec (length x) 2); [lia|]. cbn [rbind]. rewrite Nat2Z.id. reflexivity.
  Qed.
  (** The samples are cut into consecutive panels of [order] intervals, and the
      remaining [(n-1) mod order] intervals form one shorter panel. *)
  Theorem C45_panels order (x y : list F) : (1 <= order <= 6)%nat -> (2 <= length x)%nat -> length y = length x ->
    let n := length x in let h := at_ x 1 - at_ x 0 in
    let whole := ((n - 1) / order)%nat in let rest := ((n - 1) mod order)%nat in
    (order * whole + rest = n - 1)%nat /\ (rest < order)%nat /\
    nc_integrate (Z.of_nat order) x y =
      Ok (Fsum (fun k => panel order h (fun i => at_ y (order * k + i))) (seq 0 whole) +
          (if Nat.eqb rest 0 then 0 else panel rest h (fun i => at_ y (order * whole + i)))).
  Proof.
    intros Ho Hx Hy. cbn zeta. split; [symmetry; apply Nat.div_mod; lia|]. split; [apply Nat.mod_upper_bound; lia|].
    rewrite nc_ok by assumption. rewrite nc_panels by lia. reflexivity.
  Qed.
  Theorem C45_linear order (x y z : list F) a b vy vz : (1 <= order <= 6)%nat -> length y = length z ->
    nc_integrate (Z.of_nat order) x y = Ok vy -> nc_integrate (Z.of_nat order) x z = Ok vz ->
    nc_integrate (Z.of_nat order) x (map (fun p => a * fst p + b * snd p) (combine y z)) = Ok (a * vy + b * vz).
  Proof.
    intros Ho E. unfold nc_integrate. rewrite map_length, combine_length, <- E, Nat.min_id.
    destruct (nc_check _ _ _) as [u|e]; [|discriminate]. cbn [rbind]. rewrite Nat2Z.id. intros A B. injection A as <-. injection B as <-.
    rewrite nc_linear by (assumption || lia). reflexivity.
  Qed.
  (** Exact for polynomials: the degree reached is that of the main rule when it
      divides the number of intervals, and otherwise also that of the leftover
      rule. *)
  Theorem C45_exact order cs (x0 h : F) n : (1 <= order <= 6)%nat -> (2 <= n)%nat ->
    (length cs <= degree_of order + 1)%nat ->
    ((n - 1) mod order = 0 \/ length cs <= degree_of ((n - 1) mod order) + 1)%nat ->
    nc_integrate (Z.of_nat order) (grid x0 h n) (map (peval cs) (grid x0 h n)) = Ok (anti cs (x0 + fnat (n - 1) * h) - anti cs x0).
  Proof.
    intros Ho Hn Hl He. rewrite nc_ok by (rewrite ?map_length, ?grid_length; lia). rewrite nc_exact by assumption. reflexivity.
  Qed.
  Theorem C45_exact_linear order (a b x0 h : F) n : (1 <= order <= 6)%nat -> (2 <= n)%nat ->
    let x1 := x0 + fnat (n - 1) * h in
    nc_integrate (Z.of_nat order) (grid x0 h n) (map (fun x => a + b * x) (grid x0 h n)) =
      Ok ((x1 - x0) * (a + b * ((x0 + x1) / fnat 2))).
  Proof.
    intros Ho Hn. cbn zeta. assert (D : forall o, (1 <= o)%nat -> (1 <= degree_of o)%nat) by (intros o H; unfold degree_of; destruct (Nat.even o); lia).
    rewrite (map_ext _ (peval [a; b])) by (intros x; cbn [peval]; ring).
    rewrite C45_exact; try assumption.
    - f_equal. unfold anti. cbn [anti_from fpow]. set (x1 := x0 + fnat (n - 1) * h).
      assert (N : (1 + 1 : F) <> 0) by (intros Z; apply (fnat_neq (F := F) 2); [lia|]; cbn [fnat]; transitivity (1 + 1 : F); [ring|exact Z]).
      cbn [fnat]. clearbody x1. field. repeat split; try exact N. all: intros Z; symmetry in Z; revert Z; apply (flt_neq _ _ flt_0_1).
    - specialize (D order ltac:(lia)). cbn [length]. lia.
    - destruct (Nat.eq_dec ((n - 1) mod order) 0) as [e|e]; [left; exact e|right]. specialize (D ((n - 1) mod order)%nat ltac:(lia)). cbn [length]. lia.
  Qed.
  Theorem C45_trapezoid (x y : list F) : (2 <= length x)%nat -> length y = length x ->
    nc_integrate 1 x y = Ok (Fsum (fun k => (at_ x 1 - at_ x 0) * (at_ y k + at_ y (Datatypes.S k)) / fnat 2) (seq 0 (length x - 1))).
  Proof. intros Hx Hy. change 1%Z with (Z.of_nat 1). rewrite nc_ok by lia. rewrite nc_trapezoid by lia. reflexivity. Qed.
  (** Several samples at once along the last axis: each row on its own. *)
  Theorem C45_rows order (x : list F) rows : (1 <= order <= 6)%nat -> (2 <= length x)%nat -> Forall (fun r => length r = length x) rows ->
    exists vs, nc_integrate_rows (Z.of_nat order) x rows (length x) = Ok vs /\
      Forall2 (fun r v => nc_integrate (Z.of_nat order) x r = Ok v) rows vs.
  Proof.
    intros Ho Hx Hr. exists (map (nc_sum order x) rows). split.
    - unfold nc_integrate_rows, nc_check. destruct (Z.leb_spec (Z.of_nat order) 0); [lia|].
      destruct (Z.ltb_spec max_order (Z.of_nat order)) as [G|G]; [unfold max_order in G; lia|]. rewrite Nat.eqb_refl. cbn [negb].
      destruct (Nat.ltb_spec (length x) 2); [lia|]. cbn [rbind]. rewrite Nat2Z.id. reflexivity.
    - induction Hr as [|r rows Hl Hr IH]; cbn [map]; constructor; [apply nc_ok; assumption|exact IH].
  Qed.
  Theorem C45_rejects order (x y : list F) :
    (exists v, nc_integrate order x y = Ok v) <-> (1 <= order <= 6)%Z /\ (2 <= length x)%nat /\ length y = length x.
  Proof.
    unfold nc_integrate, nc_check, max_order. destruct (Z.leb_spec order 0); [cbn; split; [intros [? E]; discriminate|lia]|].
    destruct (Z.ltb_spec 6 order); [cbn; split; [intros [? E]; discriminate|lia]|].
    destruct (Nat.eqb_spec (length y) (length x)); cbn [negb]; [|cbn; split; [intros [? E]; discriminate|lia]].
    destruct (Nat.ltb_spec (length x) 2); cbn [rbind]; [split; [intros [? E]; discriminate|lia]|].
    split; [intros _; lia|intros _; eexists; reflexivity].
  Qed.
  (** Along the first axis the result is right whenever nothing is left over. *)
  Theorem C45_cols_whole order (x : list F) (y : nat -> nat -> F) m : (1 <= order <= 6)%nat -> (2 <= length x)%nat -> ((length x - 1) mod order = 0)%nat ->
    exists vs, nc_integrate_cols (Z.of_nat order) x y m = Ok vs /\ length vs = m /\
      forall b, (b < m)%nat -> nc_integrate (Z.of_nat order) x (map (fun a => y a b) (seq 0 (length x))) = Ok (nth b vs 0).
  Proof.
    intros Ho Hx He. unfold nc_integrate_cols, nc_check. destruct (Z.leb_spec (Z.of_nat order) 0); [lia|].
    destruct (Z.ltb_spec max_order (Z.of_nat order)) as [G|G]; [unfold max_order in G; lia|]. rewrite Nat.eqb_refl. cbn [negb].
    destruct (Nat.ltb_spec (length x) 2); [lia|]. cbn [rbind]. rewrite Nat2Z.id. rewrite He. cbn [Nat.eqb].
    eexists. split; [reflexivity|]. split; [rewrite map_length, seq_length; reflexivity|]. intros b Hb.
    rewrite nc_ok by (rewrite ?map_length, ?seq_length; lia). f_equal.
    match goal with |- _ = nth b (map ?f _) 0 => rewrite (nth_indep _ 0 (f 0%nat)) by (rewrite map_length, seq_length; exact Hb); rewrite (map_nth f), seq_nth by exact Hb end.
    unfold nc_sum. rewrite He. cbn [Nat.eqb Nat.add]. apply Fsum_ext. intros delta Hd. apply in_seq in Hd. f_equal. apply Fsum_ext. intros k Hk. apply in_seq in Hk. f_equal.
    unfold at_. pose proof (Nat.div_mod (length x - 1) order ltac:(lia)) as D. rewrite He in D.
    assert (order * Datatypes.S k <= order * ((length x - 1) / order))%nat by (apply Nat.mul_le_mono_l; lia).
    rewrite (nth_indep _ 0 (y 0%nat b)) by (rewrite map_length, seq_length; lia).
    rewrite (map_nth (fun a => y a b)), seq_nth by lia. reflexivity.
  Qed.

  (** ** C46 *)
  Theorem C46_exact cs (x step : F) : (length cs <= 5)%nat -> step <> 0 -> stencil (peval cs) x step = peval (deriv cs) x.
  Proof.
    intros Hl Hs. assert (E : forall a b c d e, (forall t, peval cs t = peval [a; b; c; d; e] t) -> peval (deriv cs) x = peval (deriv [a; b; c; d; e]) x ->
      stencil (peval cs) x step = peval (deriv cs) x).
    { intros a b c d e H G. rewrite G, <- (stencil_quartic a b c d e x step Hs). unfold stencil. rewrite !H. reflexivity. }
    destruct cs as [|a [|b [|c [|d [|e [|f r]]]]]]; try (cbn [length] in Hl; lia).
    - apply (E 0 0 0 0 0); [intros t|]; cbn [peval deriv deriv_from fnat]; ring.
    - apply (E a 0 0 0 0); [intros t|]; cbn [peval deriv deriv_from fnat]; ring.
    - apply (E a b 0 0 0); [intros t|]; cbn [peval deriv deriv_from fnat]; ring.
    - apply (E a b c 0 0); [intros t|]; cbn [peval deriv deriv_from fnat]; ring.
    - apply (E a b c d 0); [intros t|]; cbn [peval deriv deriv_from fnat]; ring.
    - apply (E a b c d e); reflexivity.
  Qed.
  (** Degree four is the best possible: x^5 is missed by exactly -4 step^4. *)
  Theorem C46_degree_five (x step : F) : step <> 0 -> stencil (fun t => fpow t 5) x step - fnat 5 * fpow x 4 = - (fnat 4 * fpow step 4).
  Proof. intros H. rewrite stencil_quintic by exact H. ring. Qed.

  (** ** C47 *)
  Theorem C47_ends N (x_min x_max x : F) : flt x_min x_max ->
    (fle x x_min -> smoothstep N x_min x_max x = 0) /\ (fle x_max x -> smoothstep N x_min x_max x = 1).
  Proof.
    intros H. assert (H' := proj1 (flt_sub_iff _ _) H). assert (NZ := flt_neq' _ _ H'). unfold smoothstep. rewrite !smooth_tail. split; intros G.
    - rewrite clip_lo.
      + replace (N + 1)%nat with (Datatypes.S N) by lia. apply tail_at0.
      + pose proof (ratio_mono _ _ _ _ H G) as R. replace ((x_min - x_min) / (x_max - x_min)) with (0 : F) in R by (field; exact NZ). exact R.
    - rewrite clip_hi; [apply tail_at1; lia|]. pose proof (ratio_mono _ _ _ _ H G) as R.
      replace ((x_max - x_min) / (x_max - x_min)) with (1 : F) in R by (field; exact NZ). exact R.
  Qed.
  Theorem C47_symmetric N (x_min x_max x : F) : flt x_min x_max ->
    smoothstep N x_min x_max x + smoothstep N x_min x_max (x_min + x_max - x) = 1.
  Proof.
    intros H. assert (H' := proj1 (flt_sub_iff _ _) H). assert (NZ := flt_neq' _ _ H'). unfold smoothstep. rewrite !smooth_tail.
    replace ((x_min + x_max - x - x_min) / (x_max - x_min)) with (1 - (x - x_min) / (x_max - x_min)) by (field; exact NZ).
    rewrite clip_flip. replace (N + 1)%nat with (2 * N + 1 + 1 - (N + 1))%nat at 2 by lia. apply tail_sym. lia.
  Qed.
  Theorem C47_monotone N (x_min x_max x y : F) : flt x_min x_max -> fle x y ->
    fle 0 (smoothstep N x_min x_max x) /\ fle (smoothstep N x_min x_max x) (smoothstep N x_min x_max y) /\ fle (smoothstep N x_min x_max y) 1.
  Proof.
    intros H G. unfold smoothstep. rewrite !smooth_tail.
    set (u := clip ((x - x_min) / (x_max - x_min)) 0 1). set (v := clip ((y - x_min) / (x_max - x_min)) 0 1).
    assert (U : fle 0 u /\ fle u 1) by apply clip_range. assert (V : fle 0 v /\ fle v 1) by apply clip_range.
    assert (UV : fle u v) by (apply clip_mono, ratio_mono; assumption). replace (N + 1)%nat with (Datatypes.S N) by lia.
    split; [|split].
    - rewrite <- (tail_at0 (2 * N + 1) N). apply tail_mono; [apply fle_refl|apply U|apply U].
    - apply tail_mono; [apply U|exact UV|apply V].
    - rewrite <- (tail_at1 (2 * N + 1) (Datatypes.S N)) by lia. apply tail_mono; [apply V|apply V|apply fle_refl].
  Qed.
  Theorem C47_top_hat (x R : F) : flt 0 R ->
    (fle x (fnat 9 / fnat 10 * R) -> top_hat x R = 1) /\ (fle (fnat 11 / fnat 10 * R) x -> top_hat x R = 0) /\
    fle 0 (top_hat x R) /\ fle (top_hat x R) 1 /\ (forall y, fle x y -> fle (top_hat y R) (top_hat x R)).
  Proof.
    intros HR. assert (W : flt (fnat 9 / fnat 10 * R) (fnat 11 / fnat 10 * R)).
    { assert (T : flt 0 (fnat (F := F) 10)) by (apply fnat_pos; lia). apply flt_mul_r; [exact HR|].
      apply flt_sub_iff. replace (fnat 11 / fnat 10 - fnat 9 / fnat 10) with (fnat 2 / fnat (F := F) 10).
      - apply fdiv_pos; [apply fnat_pos; lia|exact T].
      - change 11%nat with (9 + 2)%nat. rewrite fnat_add. field. apply (flt_neq' _ _ T). }
    unfold top_hat. destruct (C47_ends 3 _ _ x W) as [A B]. split; [intros G; rewrite A by exact G; ring|].
    split; [intros G; rewrite B by exact G; ring|]. destruct (C47_monotone 3 _ _ x x W (fle_refl _)) as [P [_ Q]].
    split; [apply (proj1 (fle_sub_iff _ _)), Q|]. split.
    - apply fle_sub_iff. replace (1 - (1 - smoothstep 3 (fnat 9 / fnat 10 * R) (fnat 11 / fnat 10 * R) x)) with (smoothstep 3 (fnat 9 / fnat 10 * R) (fnat 11 / fnat 10 * R) x) by ring. exact P.
    - intros y G. destruct (C47_monotone 3 _ _ x y W G) as [_ [M _]]. apply (proj1 (fle_sub_iff _ _)) in M. apply fle_sub_iff.
      replace (_ - _) with (smoothstep 3 (fnat 9 / fnat 10 * R) (fnat 11 / fnat 10 * R) y - smoothstep 3 (fnat 9 / fnat 10 * R) (fnat 11 / fnat 10 * R) x) by ring. exact M.
  Qed.

  (** ** C48 *)
  Theorem C48_array (x y : F) : pad_array x y = pad_array y x /\ fle 0 (pad_array x y) /\ pad_array x x = 0 /\
    (x + y <> 0 -> pad_array x y = 0 -> x = y).
  Proof.
    unfold pad_array. replace (y + x) with (x + y) by ring. rewrite (fabs_sub_comm y x). split; [reflexivity|]. split; [|split].
    - destruct (feqb (x + y) 0) eqn:E; [apply fle_refl|]. assert (N : x + y <> 0) by (intros Z; apply feqb_iff in Z; congruence).
      apply fle_div_pos; [|apply fabs_lt, N]. apply fle_mul; [apply fnat_nonneg|apply fabs_nonneg].
    - destruct (feqb (x + x) 0) eqn:E; [reflexivity|]. assert (N : x + x <> 0) by (intros Z; apply feqb_iff in Z; congruence).
      apply fdiv_eq; [apply (flt_neq' _ _ (fabs_lt _ N))|]. replace (x - x) with (0 : F) by ring. rewrite fabs_zero. ring.
    - intros N. destruct (feqb (x + y) 0) eqn:E; [apply feqb_iff in E; contradiction|]. intros Z.
      assert (A := flt_neq' _ _ (fabs_lt _ N)).
      assert (M : fnat 200 * fabs (x - y) = 0).
      { transitivity (fnat 200 * fabs (x - y) / fabs (x + y) * fabs (x + y)); [field; exact A|rewrite Z; ring]. }
      destruct (f_zero_prod _ _ M) as [Q|Q]; [exfalso; revert Q; apply fnat_neq; lia|]. apply fabs_eq_zero in Q.
      transitivity (x - y + y); [ring|rewrite Q; ring].
  Qed.
  (** Tables agree with arrays, and numbers as well, wherever the two values have
      a positive sum. *)
  Theorem C48_table_positive (x y : F) : flt 0 (x + y) -> pad_table x y = pad_array x y /\ pad_number x y = Ok (pad_array x y).
  Proof.
    intros H. assert (N := flt_neq' _ _ H). unfold pad_table, pad_array, pad_number.
    destruct (feqb (x + y) 0) eqn:E; [apply feqb_iff in E; contradiction|]. rewrite (fabs_pos (x + y)) by apply H.
    assert (N2 : fnat (F := F) 2 <> 0) by (apply fnat_neq; lia). split.
    - change 200%nat with (2 * 100)%nat. rewrite fnat_mul. field. split; assumption.
    - f_equal. replace ((x - y) / (x + y)) with ((x - y) * (1 / (x + y))) by (field; exact N). rewrite fabs_mul.
      rewrite (fabs_pos (1 / (x + y))) by (apply flt_le, flt_inv, H). field. exact N.
  Qed.
  Theorem C48_table_symmetric (x y : F) : pad_table x y = pad_table y x /\ pad_table x x = 0.
  Proof.
    unfold pad_table. replace (y + x) with (x + y) by ring. rewrite (fabs_sub_comm y x). split; [reflexivity|].
    replace (x - x) with (0 : F) by ring. rewrite fabs_zero. assert (N2 : fnat (F := F) 2 <> 0) by (apply fnat_neq; lia).
    destruct (feqb (x + x) 0) eqn:E.
    - field. intros Z. symmetry in Z. exact (flt_neq _ _ flt_0_1 Z).
    - assert (N : x + x <> 0) by (intros Z; apply feqb_iff in Z; congruence). field. split; [exact N2|exact N].
  Qed.
  (** Where the two values have a negative sum the table shows the negated value. *)
  Theorem C48_table_negative (x y : F) : flt (x + y) 0 -> pad_table x y = - pad_array x y.
  Proof.
    intros H. assert (N := flt_neq _ _ H). unfold pad_table, pad_array.
    destruct (feqb (x + y) 0) eqn:E; [apply feqb_iff in E; contradiction|].
    assert (P : fle 0 (- (x + y))) by (replace (0 : F) with (- (0) : F) by ring; apply fle_opp, flt_le, H).
    rewrite <- (fabs_opp (x + y)), (fabs_pos (- (x + y)) P). assert (N2 : fnat (F := F) 2 <> 0) by (apply fnat_neq; lia).
    assert (N' : - (x + y) <> 0) by (intros Z; apply N; transitivity (- (- (x + y))); [ring|rewrite Z; ring]).
    change 200%nat with (2 * 100)%nat. rewrite fnat_mul. field. repeat split; assumption.
  Qed.

  (** ** C49 *)
  Definition inside (z a b : F) : Prop := flt a z /\ flt z b.
  Theorem C49_overlap (a b c d : F) : flt a b -> flt c d ->
    match bins_overlap a b c d with
    | Err _ => False
    | Ok None => forall z, ~ (inside z a b /\ inside z c d)
    | Ok (Some (l, r)) => flt l r /\ (forall z, inside z l r <-> inside z a b /\ inside z c d) /\
        (forall z, fle l z /\ fle z r <-> (fle a z /\ fle z b) /\ (fle c z /\ fle z d))
    end.
  Proof.
    intros H G. unfold bins_overlap. rewrite (proj2 (fleb'_false b a) H), (proj2 (fleb'_false d c) G).
    destruct (fleb' b c || fleb' d a) eqn:E.
    - apply Bool.orb_true_iff in E. intros z [[A B] [C D]]. destruct E as [E|E]; apply fleb'_iff in E.
      + exact (flt_not_le _ _ C (flt_le _ _ (flt_le_trans _ _ _ B E))).
      + exact (flt_not_le _ _ A (flt_le _ _ (flt_le_trans _ _ _ D E))).
    - apply Bool.orb_false_iff in E. destruct E as [E1 E2]. apply fleb'_false in E1. apply fleb'_false in E2. split; [|split].
      + apply fmax_lub_lt. split; apply fmin_glb_lt; split; assumption.
      + intros z. unfold inside. rewrite fmax_lub_lt, fmin_glb_lt. tauto.
      + intros z. rewrite fmax_lub, fmin_glb. tauto.
  Qed.
  (** It is absent exactly when the bins have no common interior point. *)
  Theorem C49_absent_iff (a b c d : F) : flt a b -> flt c d ->
    (bins_overlap a b c d = Ok None <-> forall z, ~ (inside z a b /\ inside z c d)).
  Proof.
    intros H G. pose proof (C49_overlap a b c d H G) as S. destruct (bins_overlap a b c d) as [[[l r]|]|e]; [| |contradiction].
    - destruct S as [L [I _]]. split; [discriminate|]. intros N. exfalso. destruct (midpoint l r L) as [M1 M2]. apply (N ((l + r) / fnat 2)), I. split; assumption.
    - split; [intros _; exact S|reflexivity].
  Qed.
  Theorem C49_symmetric (a b c d : F) : bins_overlap a b c d = bins_overlap c d a b.
  Proof.
    unfold bins_overlap. rewrite (fmax_comm a c), (fmin_comm b d), (Bool.orb_comm (fleb' d a)).
    destruct (fleb' b a), (fleb' d c); reflexivity.
  Qed.
  Theorem C49_rejects (a b c d : F) : (exists e, bins_overlap a b c d = Err e) <-> fle b a \/ fle d c.
  Proof.
    unfold bins_overlap. destruct (fleb' b a) eqn:A; [apply fleb'_iff in A; split; [tauto|eexists; reflexivity]|].
    destruct (fleb' d c) eqn:B; [apply fleb'_iff in B; split; [tauto|eexists; reflexivity]|].
    apply fleb'_false in A. apply fleb'_false in B. split.
    - intros [e E]. destruct (fleb' b c || fleb' d a); discriminate.
    - intros [X|X]; exfalso; [exact (flt_not_le _ _ A X)|exact (flt_not_le _ _ B X)].
  Qed.
End P.

(** ** Witnesses *)
From Coq Require Import QArith Qcanon.
Close Scope Qc_scope. Close Scope Q_scope.
(** Order 3 on six points along the first axis of three columns of ones: the two
    leftover intervals have weights (1/3, 4/3, 1/3), which numpy pairs with the
    columns instead of the samples. *)
Definition cex_x : list Qc := [qz 0; qz 1; qz 2; qz 3; qz 4; qz 5].
Definition cex_y (a b : nat) : Qc := qz 1.
Lemma cex_cols : nc_integrate_cols 3 cex_x cex_y 3 = Ok [qz 4; qz 7; qz 4].
Proof. vm_compute. reflexivity. Qed.
Lemma cex_true : nc_integrate 3 cex_x (map (fun a => cex_y a 0) (seq 0 6)) = Ok (qz 5).
Proof. vm_compute. reflexivity. Qed.
Theorem C45_axis0_refuted : exists order (x : list Qc) (y : nat -> nat -> Qc) m vs,
  nc_integrate_cols order x y m = Ok vs /\
  (exists b v, (b < m)%nat /\ nc_integrate order x (map (fun a => y a b) (seq 0 (length x))) = Ok v /\ nth b vs (qz 0) <> v).
Proof.
  exists 3%Z, cex_x, cex_y, 3, [qz 4; qz 7; qz 4]. split; [exact cex_cols|]. exists 0, (qz 5). split; [lia|]. split; [exact cex_true|].
  intros E. apply (f_equal this) in E. vm_compute in E. discriminate.
Qed.
(** ... and with any other number of columns the call fails although every
    column on its own would be integrated. *)
Theorem C45_axis0_fails_refuted : exists order (x : list Qc) (y : nat -> nat -> Qc) m,
  nc_integrate_cols order x y m = Err EValueError /\ nc_integrate order x (map (fun a => y a 0%nat) (seq 0 (length x))) = Ok (qz 5).
Proof. exists 3%Z, cex_x, cex_y, 2. split; [reflexivity|exact cex_true]. Qed.
(** Unequal spacing is only logged: the constant 1 on the points 0, 1, 3 gives 2. *)
Theorem C45_spacing_unchecked : exists (x y : list Qc), nc_integrate 1 x y = Ok (qz 2) /\ x = [qz 0; qz 1; qz 3] /\ y = [qz 1; qz 1; qz 1].
Proof.
  exists [qz 0; qz 1; qz 3], [qz 1; qz 1; qz 1]. split; [|split; reflexivity]. vm_compute. reflexivity.
Qed.
(** x^2 on 0, 1, .., 7 with order 4: four intervals by Boole, three by 3/8. *)
Example C45_instance : nc_integrate 4 (grid (qz 0) (qz 1) 8) (map (peval [qz 0; qz 0; qz 1]) (grid (qz 0) (qz 1) 8)) = Ok (qq 343 3) /\
  nc_integrate 6 (grid (qz 0) (qz 1) 7) (map (peval [qz 0; qz 0; qz 0; qz 0; qz 0; qz 0; qz 0; qz 8]) (grid (qz 0) (qz 1) 7)) = Ok (qz 1679616).
Proof. split; vm_compute; reflexivity. Qed.
Example C46_instance : this (stencil (peval [qz 1; qz 2; qz 3; qz 4; qz 5]) (qz 2) (qq 1 2)) = (222 # 1)%Q.
Proof. vm_compute. reflexivity. Qed.
Example C47_instance : this (smoothstep 3 (qz 2) (qz 6) (qz 3)) = (289 # 4096)%Q /\ this (smoothstep 3 (qz 2) (qz 6) (qz 5)) = (3807 # 4096)%Q /\
  this (top_hat (qz 1) (qz 1)) = (1 # 2)%Q.
Proof. vm_compute. repeat split. Qed.
Theorem C48_sign_refuted : exists x y : Qc, ~ fle (qz 0) (pad_table x y) /\ pad_table x y <> pad_array x y.
Proof.
  exists (qz (-1)), (qz (-2)). split.
  - intros H. vm_compute in H. apply H. reflexivity.
  - intros E. apply (f_equal this) in E. vm_compute in E. discriminate.
Qed.
Theorem C48_opposite_refuted : exists x y : Qc, this (pad_table x y) = (200 # 1)%Q /\ this (pad_array x y) = (0 # 1)%Q /\ pad_number x y = Err EZeroDivision.
Proof. exists (qz 1), (qz (-1)). vm_compute. repeat split. Qed.
Example C48_instance : this (pad_array (qz 1) (qz 3)) = (100 # 1)%Q /\ this (pad_table (qz 1) (qz 3)) = (100 # 1)%Q.
Proof. vm_compute. repeat split. Qed.
Example C49_instance : bins_overlap (qz 0) (qz 2) (qz 1) (qz 3) = Ok (Some (qz 1, qz 2)) /\ bins_overlap (qz 0) (qz 1) (qz 1) (qz 3) = Ok None.
Proof. split; vm_compute; reflexivity. Qed.

Print Assumptions C45_panels.
Print Assumptions C45_linear.
Print Assumptions C45_exact.
Print Assumptions C45_exact_linear.
Print Assumptions C45_trapezoid.
Print Assumptions C45_rows.
Print Assumptions C45_rejects.
Print Assumptions C45_cols_whole.
Print Assumptions C45_axis0_refuted.
Print Assumptions C45_axis0_fails_refuted.
Print Assumptions C45_spacing_unchecked.
Print Assumptions C46_exact.
Print Assumptions C46_degree_five.
Print Assumptions C47_ends.
Print Assumptions C47_symmetric.
Print Assumptions C47_monotone.
Print Assumptions C47_top_hat.
Print Assumptions C48_array.
Print Assumptions C48_table_positive.
Print Assumptions C48_table_symmetric.
Print Assumptions C48_table_negative.
Print Assumptions C48_sign_refuted.
Print Assumptions C48_opposite_refuted.
Print Assumptions C49_overlap.
Print Assumptions C49_absent_iff.
Print Assumptions C49_symmetric.
Print Assumptions C49_rejects.
