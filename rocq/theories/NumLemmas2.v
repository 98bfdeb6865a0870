(** Smooth step, stencil derivative, percentage differences, overlaps. *)
From Verif Require Import Base SortLib ParamModel EvalModel EvalSpec EllLemmas OrdLib NumModel NumLemmas.
From Coq Require Import Field.
Open Scope list_scope.

(** ** Binomial coefficients *)
Lemma binom_0_r n : binom n 0 = 1.
Proof. destruct n; reflexivity. Qed.
Lemma binom_gt n : forall k, n < k -> binom n k = 0.
Proof. induction n as [|n IH]; intros [|k] H; try lia; cbn; [reflexivity|]. rewrite !IH by lia. reflexivity. Qed.
Lemma binom_diag n : binom n n = 1.
Proof. induction n as [|n IH]; cbn; [reflexivity|]. rewrite IH, binom_gt by lia. lia. Qed.
Lemma binom_SS n k : binom (S n) (S k) = binom n k + binom n (S k).
Proof. reflexivity. Qed.
Lemma binom_sym a : forall b, binom (a + b) a = binom (a + b) b.
Proof.
  induction a as [|a IHa]; intros b; [cbn; rewrite binom_0_r, binom_diag; reflexivity|].
  induction b as [|b IHb]; [rewrite Nat.add_0_r, binom_0_r, binom_diag; reflexivity|].
  replace (S a + S b) with (S (a + S b)) by lia. rewrite !binom_SS. rewrite IHa.
  replace (a + S b) with (S a + b) by lia. rewrite IHb. lia.
Qed.

Section N2.
  Context {F : Type} {K : Fld F} {O : OFld (F := F)}.
  Add Field FldN2 : (fth (F := F)).
  Open Scope fld_scope.

  (** ** Smooth step *)
  (** Probability of at least [r] successes in [M] trials of probability [x]. *)
  Fixpoint tail (M r : nat) (x : F) : F :=
    match M, r with
    | _, 0%nat => 1
    | 0%nat, Datatypes.S _ => 0
    | Datatypes.S M', Datatypes.S r' => x * tail M' r' x + (1 - x) * tail M' r x
    end.
  Lemma tail_0 M x : tail M 0 x = 1.
  Proof. destruct M; reflexivity. Qed.
  Lemma tail_SS M r x : tail (Datatypes.S M) (Datatypes.S r) x = x * tail M r x + (1 - x) * tail M (Datatypes.S r) x.
  Proof. reflexivity. Qed.
  Lemma tail_gt M x : forall r, (M < r)%nat -> tail M r x = 0.
  Proof. induction M as [|M IH]; intros [|r] H; try lia; cbn [tail]; [reflexivity|]. rewrite !IH by lia. ring. Qed.
  Lemma fpow_add x m n : fpow x (m + n) = fpow x m * fpow x n.
  Proof. induction m as [|m IH]; cbn [fpow Nat.add]; [ring|]. rewrite IH. ring. Qed.
  Lemma fpow_mul x y n : fpow (x * y) n = fpow x n * fpow y n.
  Proof. induction n as [|n IH]; cbn [fpow]; [ring|]. rewrite IH. ring. Qed.
  Definition sg (n : nat) : F := fpow (- (1)) n.
  Lemma sg_S n : sg (Datatypes.S n) = - sg n.
  Proof. unfold sg. cbn [fpow]. ring. Qed.
  Lemma sg_dbl n : sg (n + n) = 1.
  Proof. unfold sg. induction n as [|n IH]; cbn [fpow Nat.add]; [reflexivity|]. rewrite Nat.add_succ_r. cbn [fpow]. rewrite IH. ring. Qed.
  Lemma Fsum_seq_S (f : nat -> F) n : Fsum f (seq 0 (Datatypes.S n)) = f 0%nat + Fsum (fun i => f (Datatypes.S i)) (seq 0 n).
  Proof. cbn [seq Fsum]. rewrite <- seq_shift, Fsum_map. reflexivity. Qed.

  Lemma tail_coeffs M x : forall r L, (M <= L)%nat ->
    tail M (Datatypes.S r) x = Fsum (fun m => sg (m + r) * fnat (binom M (Datatypes.S m)) * fnat (binom m r) * fpow x (Datatypes.S m)) (seq 0 L).
  Proof.
    induction M as [|M IH]; intros r L HL.
    - rewrite Fsum_zero; [reflexivity|]. intros m _. cbn [binom fnat]. ring.
    - destruct L as [|L]; [lia|]. rewrite tail_SS.
      rewrite (Fsum_ext _ (fun m => sg (m + r) * fnat (binom M m) * fnat (binom m r) * fpow x (Datatypes.S m) +
                                    sg (m + r) * fnat (binom M (Datatypes.S m)) * fnat (binom m r) * fpow x (Datatypes.S m)))
        by (intros m _; rewrite binom_SS, fnat_add; ring).
      rewrite Fsum_plus, <- (IH r (Datatypes.S L)) by lia. rewrite Fsum_seq_S.
      assert (E : x * tail M r x - x * tail M (Datatypes.S r) x =
        sg (0 + r) * fnat (binom M 0) * fnat (binom 0 r) * fpow x 1 +
        Fsum (fun i => sg (Datatypes.S i + r) * fnat (binom M (Datatypes.S i)) * fnat (binom (Datatypes.S i) r) * fpow x (Datatypes.S (Datatypes.S i))) (seq 0 L)).
      { rewrite binom_0_r. destruct r as [|r].
        - rewrite tail_0, (IH 0%nat L) by lia. rewrite (Fsum_ext (fun i => sg (Datatypes.S i + 0) * _ * _ * _)
            (fun i => (- x) * (sg (i + 0) * fnat (binom M (Datatypes.S i)) * fnat (binom i 0) * fpow x (Datatypes.S i)))).
          + rewrite Fsum_scale. unfold sg. cbn [binom fnat fpow Nat.add]. ring.
          + intros i _. rewrite !binom_0_r. cbn [Nat.add]. rewrite sg_S. cbn [fpow]. ring.
        - rewrite (IH r L), (IH (Datatypes.S r) L) by lia.
          rewrite (Fsum_ext (fun i => sg (Datatypes.S i + Datatypes.S r) * _ * _ * _)
            (fun i => x * (sg (i + r) * fnat (binom M (Datatypes.S i)) * fnat (binom i r) * fpow x (Datatypes.S i)) -
                      x * (sg (i + Datatypes.S r) * fnat (binom M (Datatypes.S i)) * fnat (binom i (Datatypes.S r)) * fpow x (Datatypes.S i)))).
          + rewrite Fsum_minus, !Fsum_scale. cbn [binom fnat]. ring.
          + intros i _. rewrite binom_SS, fnat_add, <- plus_n_Sm. cbn [Nat.add]. rewrite <- plus_n_Sm, !sg_S. cbn [fpow]. ring. }
      rewrite <- E. ring.
  Qed.
  Lemma Fsum_seq_app (f : nat -> F) a b : Fsum f (seq 0 (a + b)) = Fsum f (seq 0 a) + Fsum (fun i => f (a + i)%nat) (seq 0 b).
  Proof.
    rewrite seq_app, Fsum_app. f_equal. cbn [Nat.add]. induction b as [|b IH] in a |- *; [reflexivity|]. cbn [seq Fsum].
    rewrite Nat.add_0_r. f_equal. rewrite (IH (Datatypes.S a)). rewrite <- (seq_shift b 0), Fsum_map. apply Fsum_ext. intros i _. f_equal. lia.
  Qed.
  Lemma smooth_tail N x : smooth01 N x = tail (2 * N + 1) (N + 1) x.
  Proof.
    replace (N + 1)%nat with (Datatypes.S N) by lia. rewrite (tail_coeffs _ _ N (N + (N + 1))) by lia. rewrite Fsum_seq_app.
    rewrite (Fsum_zero _ (seq 0 N)).
    - unfold smooth01. rewrite <- Fsum_scale_r.
      transitivity (Fsum (fun i => sg (N + i + N) * fnat (binom (2 * N + 1) (Datatypes.S (N + i))) * fnat (binom (N + i) N) * fpow x (Datatypes.S (N + i))) (seq 0 (N + 1))); [|ring].
      apply Fsum_ext. intros n Hn. apply in_seq in Hn.
      rewrite (binom_sym N n). replace (2 * N + 1)%nat with ((N - n) + Datatypes.S (N + n))%nat at 1 by lia. rewrite (binom_sym (N - n) (Datatypes.S (N + n))).
      replace ((N - n) + Datatypes.S (N + n))%nat with (2 * N + 1)%nat by lia.
      replace (fpow (- x) n) with (sg n * fpow x n) by (unfold sg; rewrite <- fpow_mul; f_equal; ring).
      replace (sg (N + n + N)) with (sg n).
      + replace (fpow x (Datatypes.S (N + n))) with (fpow x n * fpow x (N + 1)) by (rewrite <- fpow_add; f_equal; lia). ring.
      + replace (N + n + N)%nat with ((N + N) + n)%nat by lia. unfold sg. rewrite fpow_add. fold (sg (N + N)). rewrite sg_dbl. ring.
    - intros m Hm. apply in_seq in Hm. rewrite (binom_gt m N) by lia. cbn [fnat]. ring.
  Qed.
  Lemma tail_sym M x : forall r, (r <= M + 1)%nat -> tail M r x + tail M (M + 1 - r) (1 - x) = 1.
  Proof.
    induction M as [|M IH]; intros r H.
    - destruct r as [|[|r]]; cbn; try lia; ring.
    - destruct r as [|r].
      + rewrite tail_0, tail_gt by lia. ring.
      + replace (Datatypes.S M + 1 - Datatypes.S r)%nat with (M + 1 - r)%nat by lia.
        destruct (M + 1 - r)%nat as [|s] eqn:E.
        * rewrite tail_0, tail_gt by lia. ring.
        * rewrite !tail_SS.
          pose proof (IH r ltac:(lia)) as A. rewrite E in A. pose proof (IH (Datatypes.S r) ltac:(lia)) as B.
          replace (M + 1 - Datatypes.S r)%nat with s in B by lia.
          transitivity (x * (tail M r x + tail M (Datatypes.S s) (1 - x)) + (1 - x) * (tail M (Datatypes.S r) x + tail M s (1 - x))); [ring|].
          rewrite A, B. ring.
  Qed.
  Lemma fle_add2 a b c d : fle a b -> fle c d -> fle (a + c) (b + d).
  Proof. intros H G. eapply fle_trans; [apply fle_add, H|]. replace (b + c) with (c + b) by ring. replace (b + d) with (d + b) by ring. apply fle_add, G. Qed.
  Lemma fle_sub_iff x y : fle x y <-> fle 0 (y - x).
  Proof.
    split; intros H.
    - replace 0 with (x + (- x)) by ring. replace (y - x) with (y + (- x)) by ring. apply fle_add, H.
    - apply (fle_add _ _ x) in H. replace (0 + x) with x in H by ring. replace (y - x + x) with y in H by ring. exact H.
  Qed.
  Lemma fle_mul_l' a x y : fle 0 a -> fle x y -> fle (a * x) (a * y).
  Proof. intros H G. replace (a * x) with (x * a) by ring. replace (a * y) with (y * a) by ring. apply fle_mul_r; assumption. Qed.
  Lemma tail_anti M x : fle 0 x -> fle x 1 -> forall r, fle (tail M (Datatypes.S r) x) (tail M r x).
  Proof.
    intros H0 H1. apply fle_sub_iff in H1. induction M as [|M IH]; intros r.
    - destruct r; cbn; [apply (flt_le _ _ flt_0_1)|apply fle_refl].
    - destruct r as [|r].
      + rewrite tail_SS, !tail_0. pose proof (IH 0%nat) as A. rewrite tail_0 in A.
        replace (1 : F) with (x * 1 + (1 - x) * 1) at 3 by ring. apply fle_add2; [apply fle_refl|apply fle_mul_l'; assumption].
      + rewrite !tail_SS. apply fle_add2; apply fle_mul_l'; auto.
  Qed.
  Lemma tail_mono M x y : fle 0 x -> fle x y -> fle y 1 -> forall r, fle (tail M r x) (tail M r y).
  Proof.
    intros H0 H1 H2. induction M as [|M IH]; intros [|r]; try apply fle_refl. rewrite !tail_SS.
    assert (Hx1 : fle x 1) by (eapply fle_trans; eassumption). apply fle_sub_iff in Hx1.
    eapply fle_trans.
    - apply fle_add2; apply fle_mul_l'; [exact H0|apply IH|exact Hx1|apply IH].
    - apply fle_sub_iff.
      replace (_ - _) with ((y - x) * (tail M r y - tail M (Datatypes.S r) y)) by ring.
      apply fle_mul; [apply (proj1 (fle_sub_iff _ _)), H1|]. apply (proj1 (fle_sub_iff _ _)). apply tail_anti; [exact (fle_trans _ _ _ H0 H1)|exact H2].
  Qed.
  Lemma tail_at0 M r : tail M (Datatypes.S r) 0 = 0.
  Proof. revert r. induction M as [|M IH]; intros r; [reflexivity|]. rewrite tail_SS, IH. ring. Qed.
  Lemma tail_at1 M r : (r <= M)%nat -> tail M r 1 = 1.
  Proof. revert r. induction M as [|M IH]; intros [|r] H; try reflexivity; [lia|]. rewrite tail_SS, IH by lia. ring. Qed.

  Lemma clip_range x : fle 0 (clip x 0 1) /\ fle (clip x 0 1) 1.
  Proof.
    unfold clip. destruct (fle_dec x 0) as [A|A]; [split; [apply fle_refl|apply (flt_le _ _ flt_0_1)]|].
    destruct (fle_dec 1 x) as [B|B]; [split; [apply (flt_le _ _ flt_0_1)|apply fle_refl]|].
    split; apply flt_le, not_le_lt; assumption.
  Qed.
  Lemma clip_mono x y : fle x y -> fle (clip x 0 1) (clip y 0 1).
  Proof.
    intros H. pose proof (clip_range x) as [X0 X1]. pose proof (clip_range y) as [Y0 Y1]. unfold clip in *.
    destruct (fle_dec x 0) as [A|A]; [exact Y0|]. destruct (fle_dec y 0) as [B|B]; [exfalso; exact (A (fle_trans _ _ _ H B))|].
    destruct (fle_dec 1 y) as [C|C]; [exact X1|]. destruct (fle_dec 1 x) as [D|D]; [exfalso; exact (C (fle_trans _ _ _ D H))|]. exact H.
  Qed.
  Lemma clip_lo x : fle x 0 -> clip x 0 1 = 0.
  Proof. intros H. unfold clip. destruct (fle_dec x 0); [reflexivity|contradiction]. Qed.
  Lemma clip_hi x : fle 1 x -> clip x 0 1 = 1.
  Proof.
    intros H. unfold clip. destruct (fle_dec x 0) as [A|A].
    - exfalso. exact (flt_not_le _ _ flt_0_1 (fle_trans _ _ _ H A)).
    - destruct (fle_dec 1 x); [reflexivity|contradiction].
  Qed.
  Lemma clip_mid x : fle 0 x -> fle x 1 -> clip x 0 1 = x.
  Proof.
    intros H G. unfold clip. destruct (fle_dec x 0) as [A|A]; [apply fle_antisym; assumption|].
    destruct (fle_dec 1 x) as [B|B]; [apply fle_antisym; assumption|reflexivity].
  Qed.
  Lemma clip_flip x : clip (1 - x) 0 1 = 1 - clip x 0 1.
  Proof.
    destruct (fle_dec x 0) as [A|A].
    - rewrite (clip_lo x A), clip_hi; [ring|]. apply fle_sub_iff. replace (1 - x - 1) with (0 - x) by ring. apply (proj1 (fle_sub_iff x 0)), A.
    - destruct (fle_dec 1 x) as [B|B].
      + rewrite (clip_hi x B), clip_lo; [ring|]. apply fle_sub_iff. replace (0 - (1 - x)) with (x - 1) by ring. apply (proj1 (fle_sub_iff 1 x)), B.
      + apply not_le_lt, flt_le in A. apply not_le_lt, flt_le in B. rewrite (clip_mid x A B). apply clip_mid.
        * apply (proj1 (fle_sub_iff x 1)), B.
        * apply fle_sub_iff. replace (1 - (1 - x)) with x by ring. exact A.
  Qed.
  Lemma fle_div_pos x y : fle 0 x -> flt 0 y -> fle 0 (x / y).
  Proof.
    intros H G. replace (x / y) with (x * (1 / y)) by (field; apply (flt_neq' _ _ G)). apply fle_mul; [exact H|]. apply flt_le, flt_inv, G.
  Qed.
  Lemma ratio_mono a b x y : flt a b -> fle x y -> fle ((x - a) / (b - a)) ((y - a) / (b - a)).
  Proof.
    intros H G. apply flt_sub_iff in H. apply fle_sub_iff. replace (_ - _) with ((y - x) / (b - a)) by (field; apply (flt_neq' _ _ H)).
    apply fle_div_pos; [apply (proj1 (fle_sub_iff _ _)), G|exact H].
  Qed.

  (** ** Percentage differences *)
  Lemma fadd_eq0 x : x + x = 0 -> x = 0.
  Proof.
    intros H. assert (E : fnat 2 * x = 0) by (cbn [fnat]; transitivity (x + x); [ring|exact H]). destruct (f_zero_prod _ _ E) as [Z|Z]; [|exact Z].
    exfalso. apply (fnat_neq (F := F) 2) in Z; [exact Z|lia].
  Qed.
  Lemma fabs_lt x : x <> 0 -> flt 0 (fabs x).
  Proof. intros H. split; [apply fabs_nonneg|]. intros E. apply H, fabs_eq_zero. symmetry. exact E. Qed.

  Lemma fleb'_iff (x y : F) : fleb' x y = true <-> fle x y.
  Proof. unfold fleb'. destruct (fle_dec x y); split; congruence. Qed.
  Lemma fleb'_false (x y : F) : fleb' x y = false <-> flt y x.
  Proof. unfold fleb'. destruct (fle_dec x y) as [A|A]; split; intros H; try congruence; [exfalso; exact (flt_not_le _ _ H A)|apply not_le_lt, A]. Qed.
  Lemma fmax_lub x y z : fle (fmax x y) z <-> fle x z /\ fle y z.
  Proof.
    unfold fmax. destruct (fle_dec x y) as [A|A].
    - split; [intros H; split; [eapply fle_trans; eassumption|exact H]|intros [_ H]; exact H].
    - apply not_le_lt, flt_le in A. split; [intros H; split; [exact H|eapply fle_trans; eassumption]|intros [H _]; exact H].
  Qed.
  Lemma fmin_glb x y z : fle z (fmin x y) <-> fle z x /\ fle z y.
  Proof.
    unfold fmin. destruct (fle_dec x y) as [A|A].
    - split; [intros H; split; [exact H|eapply fle_trans; eassumption]|intros [H _]; exact H].
    - apply not_le_lt, flt_le in A. split; [intros H; split; [eapply fle_trans; eassumption|exact H]|intros [_ H]; exact H].
  Qed.
  Lemma fmax_lub_lt x y z : flt (fmax x y) z <-> flt x z /\ flt y z.
  Proof.
    unfold fmax. destruct (fle_dec x y) as [A|A].
    - split; [intros H; split; [eapply fle_lt_trans; eassumption|exact H]|intros [_ H]; exact H].
    - apply not_le_lt in A. split; [intros H; split; [exact H|eapply fle_lt_trans; [apply flt_le, A|exact H]]|intros [H _]; exact H].
  Qed.
  Lemma fmin_glb_lt x y z : flt z (fmin x y) <-> flt z x /\ flt z y.
  Proof.
    unfold fmin. destruct (fle_dec x y) as [A|A].
    - split; [intros H; split; [exact H|eapply flt_le_trans; eassumption]|intros [H _]; exact H].
    - apply not_le_lt in A. split; [intros H; split; [eapply flt_le_trans; [exact H|apply flt_le, A]|exact H]|intros [_ H]; exact H].
  Qed.
  Lemma fmax_comm x y : fmax x y = fmax y x.
  Proof. unfold fmax. destruct (fle_dec x y) as [A|A], (fle_dec y x) as [B|B]; try reflexivity; [apply fle_antisym; assumption|]. destruct (fle_total x y); contradiction. Qed.
  Lemma fmin_comm x y : fmin x y = fmin y x.
  Proof. unfold fmin. destruct (fle_dec x y) as [A|A], (fle_dec y x) as [B|B]; try reflexivity; [apply fle_antisym; assumption|]. destruct (fle_total x y); contradiction. Qed.
  Lemma midpoint x y : flt x y -> flt x ((x + y) / fnat 2) /\ flt ((x + y) / fnat 2) y.
  Proof.
    intros H. apply flt_sub_iff in H. assert (T : flt 0 (fnat (F := F) 2)) by (apply fnat_pos; lia).
    assert (N : fnat (F := F) 2 <> 0) by (apply (flt_neq' _ _ T)).
    assert (N' : (1 + 1 : F) <> 0) by (intros Z; apply N; cbn [fnat]; transitivity (1 + 1 : F); [ring|exact Z]).
    split; apply flt_sub_iff.
    - replace (_ - x) with ((y - x) / fnat 2); [apply fdiv_pos; assumption|]. cbn [fnat]. field. exact N'.
    - replace (y - _) with ((y - x) / fnat 2); [apply fdiv_pos; assumption|]. cbn [fnat]. field. exact N'.
  Qed.

  (** ** Stencil *)
  Fixpoint deriv_from (k : nat) (cs : list F) : list F := match cs with [] => [] | c :: r => fnat k * c :: deriv_from (Datatypes.S k) r end.
  Definition deriv (cs : list F) : list F := match cs with [] => [] | _ :: r => deriv_from 1 r end.
  Lemma fdiv_eq a b d : d <> 0 -> a = b * d -> a / d = b.
  Proof. intros N E. rewrite E. field. exact N. Qed.
  Lemma den_neq h : h <> 0 -> fnat (F := F) 12 * h <> 0.
  Proof. intros H E. destruct (f_zero_prod _ _ E) as [Z|Z]; [|exact (H Z)]. revert Z. apply fnat_neq. lia. Qed.
  Lemma stencil_quartic a b c d e x h : h <> 0 -> stencil (peval [a; b; c; d; e]) x h = peval (deriv [a; b; c; d; e]) x.
  Proof. intros H. unfold stencil. apply fdiv_eq; [apply den_neq, H|]. cbn [peval deriv deriv_from fnat]. ring. Qed.
  Lemma stencil_quintic x h : h <> 0 -> stencil (fun t => fpow t 5) x h = fnat 5 * fpow x 4 - fnat 4 * fpow h 4.
  Proof. intros H. unfold stencil. apply fdiv_eq; [apply den_neq, H|]. cbn [fpow fnat]. ring. Qed.
End N2.
