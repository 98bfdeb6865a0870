(** The Gaussian covariance built from a positive semi-definite matrix of
    spectra is positive semi-definite. *)
From Verif Require Import Base LabLin KeyModel KeySpec EvalModel EvalSpec.
From Coq Require Import Permutation Field.
Open Scope list_scope.

Section LDL.
  Context {F : Type} {K : Fld F} {O : OFld (F := F)} {T : Type} (eqd : forall a b : T, {a = b} + {a <> b}).
  Add Field LDLField : (fth (F := F)).
  Open Scope fld_scope.
  Implicit Types (s : T -> T -> F).

  Lemma fle_double (q : F) : fle 0 (q + q) -> fle 0 q.
  Proof.
    intros H. destruct (fle_total 0 q) as [Hq|Hq]; [exact Hq|]. apply fle_trans with (q + q); [exact H|].
    replace q with (0 + q) at 3 by ring. apply fle_add. exact Hq.
  Qed.
  Lemma one_neq_zero : (1 : F) <> 0.
  Proof. exact (Field_theory.F_1_neq_0 (fth (F := F))). Qed.
  Lemma neg_one : ~ fle 0 (- (1) : F).
  Proof.
    intros H. apply one_neq_zero. apply fle_antisym; [|apply fle_0_1].
    apply fle_add with (z := 1) in H. replace (0 + 1) with (1 : F) in H by ring. replace (- (1) + 1) with (0 : F) in H by ring. exact H.
  Qed.
  Lemma two_neq_zero : (1 + 1 : F) <> 0.
  Proof.
    intros E. apply neg_one. replace (- (1) : F) with (1 : F); [apply fle_0_1|].
    transitivity ((1 + 1) - 1 : F); [ring|rewrite E; ring].
  Qed.
  Lemma inv_nonneg (a : F) : fle 0 a -> a <> 0 -> fle 0 (1 / a).
  Proof.
    intros H N. replace (1 / a) with (a * ((1 / a) * (1 / a))) by (field; exact N). apply fle_mul; [exact H|apply fle_sq].
  Qed.

  Lemma bil_cons a0 L s x : bil (a0 :: L) s x x =
    x a0 * s a0 a0 * x a0 + Fsum (fun b => x a0 * s a0 b * x b) L + Fsum (fun a => x a * s a a0 * x a0) L + bil L s x x.
  Proof. unfold bil. cbn [Fsum]. rewrite Fsum_plus. ring. Qed.

  Definition upd (a0 : T) (t : F) (x : T -> F) (a : T) : F := if eqd a a0 then t else x a.
  Lemma upd_same a0 t x : upd a0 t x a0 = t.
  Proof. unfold upd. destruct (eqd a0 a0); congruence. Qed.
  Lemma upd_other a0 t x L : ~ In a0 L -> forall a, In a L -> upd a0 t x a = x a.
  Proof. intros N a Ha. unfold upd. destruct (eqd a a0); [subst; contradiction|reflexivity]. Qed.
  Lemma bil_upd a0 L s x t : ~ In a0 L -> symm (a0 :: L) s ->
    bil (a0 :: L) s (upd a0 t x) (upd a0 t x) =
    t * t * s a0 a0 + (1 + 1) * t * Fsum (fun b => s a0 b * x b) L + bil L s x x.
  Proof.
    intros N S. rewrite bil_cons, upd_same.
    replace (Fsum (fun b => t * s a0 b * upd a0 t x b) L) with (t * Fsum (fun b => s a0 b * x b) L)
      by (rewrite <- Fsum_scale; apply Fsum_ext; intros b Hb; rewrite (upd_other a0 t x L N b Hb); ring).
    replace (Fsum (fun a => upd a0 t x a * s a a0 * t) L) with (t * Fsum (fun b => s a0 b * x b) L)
      by (rewrite <- Fsum_scale; apply Fsum_ext; intros b Hb; rewrite (upd_other a0 t x L N b Hb), (S b a0); [ring|right; exact Hb|left; reflexivity]).
    replace (bil L s (upd a0 t x) (upd a0 t x)) with (bil L s x x)
      by (unfold bil; apply Fsum_ext; intros a Ha; apply Fsum_ext; intros b Hb; rewrite (upd_other a0 t x L N a Ha), (upd_other a0 t x L N b Hb); reflexivity).
    ring.
  Qed.

  Lemma ldl L : forall s, NoDup L -> symm L s -> psd L s ->
    exists fs : list (F * (T -> F)), (forall du, In du fs -> fle 0 (fst du)) /\
      forall a b, In a L -> In b L -> s a b = Fsum (fun du => fst du * (snd du a * snd du b)) fs.
  Proof.
    induction L as [|a0 L IH]; intros s Nd S P; [exists []; split; intros a; [intros []|intros b []]|].
    inversion Nd as [|? ? N Nd']; subst.
    assert (SL : symm L s) by (intros a b Ha Hb; apply S; right; assumption).
    assert (Q : forall x t, fle 0 (t * t * s a0 a0 + (1 + 1) * t * Fsum (fun b => s a0 b * x b) L + bil L s x x))
      by (intros x t; rewrite <- (bil_upd a0 L s x t N S); apply P).
    set (ext := fun du : F * (T -> F) => (fst du, upd a0 0 (snd du))).
    assert (Ext : forall s' fs, (forall a b, In a L -> In b L -> s' a b = Fsum (fun du => fst du * (snd du a * snd du b)) fs) ->
      forall a b, In a (a0 :: L) -> In b (a0 :: L) ->
        Fsum (fun du => fst du * (snd du a * snd du b)) (map ext fs) = if eqd a a0 then 0 else if eqd b a0 then 0 else s' a b).
    { intros s' fs H a b Ha Hb. rewrite Fsum_map. unfold ext. cbn [fst snd]. unfold upd.
      destruct (eqd a a0) as [Ea|Ea]; [apply Fsum_zero; intros; ring|].
      destruct (eqd b a0) as [Eb|Eb]; [apply Fsum_zero; intros; ring|].
      destruct Ha as [Ha|Ha]; [congruence|]. destruct Hb as [Hb|Hb]; [congruence|]. symmetry. apply H; assumption. }
    destruct (fdec (s a0 a0) 0) as [E0|N0].
    - assert (Z : forall b, In b L -> s a0 b = 0).
      { intros b Hb. destruct (fdec (s a0 b) 0) as [|Nb]; [assumption|]. exfalso.
        pose proof (Q (fun a => if eqd a b then 1 else 0) (- ((s b b + 1) / ((1 + 1) * s a0 b)))) as Hq.
        rewrite E0 in Hq.
        rewrite (@Fsum_single _ _ _ _ L b Nd' Hb) in Hq by (intros y _ Hy; destruct (eqd y b); [contradiction|ring]).
        destruct (eqd b b) as [_|C]; [|congruence].
        assert (Eb : bil L s (fun a => if eqd a b then 1 else 0) (fun a => if eqd a b then 1 else 0) = s b b).
        { unfold bil. rewrite (@Fsum_single _ _ _ _ L b Nd' Hb).
          - rewrite (@Fsum_single _ _ _ _ L b Nd' Hb); [destruct (eqd b b); [ring|congruence]|].
            intros y _ Hy. destruct (eqd y b); [contradiction|ring].
          - intros y _ Hy. apply Fsum_zero. intros z _. destruct (eqd y b); [contradiction|ring]. }
        rewrite Eb in Hq. apply neg_one. replace (- (1) : F) with
          (- ((s b b + 1) / ((1 + 1) * s a0 b)) * - ((s b b + 1) / ((1 + 1) * s a0 b)) * 0 + (1 + 1) * - ((s b b + 1) / ((1 + 1) * s a0 b)) * (s a0 b * 1) + s b b);
          [exact Hq|]. field. split; [exact Nb|exact two_neq_zero]. }
      destruct (IH s Nd' SL) as (fs & H1 & H2).
      { intros x. pose proof (Q x 0) as Hq. replace (0 * 0 * s a0 a0 + (1 + 1) * 0 * Fsum (fun b => s a0 b * x b) L + bil L s x x) with (bil L s x x) in Hq by ring. exact Hq. }
      exists (map ext fs). split.
      + intros du Hin. apply in_map_iff in Hin. destruct Hin as (du' & <- & Hin). cbn. apply H1. exact Hin.
      + intros a b Ha Hb. rewrite (Ext s fs H2 a b Ha Hb).
        destruct (eqd a a0) as [->|Ea]; [destruct Hb as [<-|Hb]; [exact E0|apply Z; exact Hb]|].
        destruct Ha as [Ha|Ha]; [congruence|].
        destruct (eqd b a0) as [->|Eb]; [rewrite S by (cbn; auto); apply Z; exact Ha|reflexivity].
    - assert (P0 : fle 0 (s a0 a0)).
      { pose proof (Q (fun _ => 0) 1) as Hq. rewrite Fsum_zero in Hq by (intros; ring).
        replace (bil L s (fun _ => 0) (fun _ => 0)) with (0 : F) in Hq by (symmetry; apply Fsum_zero; intros; apply Fsum_zero; intros; ring).
        replace (1 * 1 * s a0 a0 + (1 + 1) * 1 * 0 + 0) with (s a0 a0) in Hq by ring. exact Hq. }
      set (s' := fun a b => s a b - s a a0 * s a0 b / s a0 a0).
      destruct (IH s' Nd') as (fs & H1 & H2).
      { intros a b Ha Hb. unfold s'. rewrite (SL a b Ha Hb), (S a a0), (S a0 b) by (cbn; auto). field. exact N0. }
      { intros x. set (y := Fsum (fun b => s a0 b * x b) L).
        pose proof (Q x (- (y / s a0 a0))) as Hq. fold y in Hq.
        replace (bil L s' x x) with (- (y / s a0 a0) * - (y / s a0 a0) * s a0 a0 + (1 + 1) * - (y / s a0 a0) * y + bil L s x x); [exact Hq|].
        assert (E : bil L s' x x = bil L s x x - y * y / s a0 a0).
        { unfold bil at 1, s'.
          transitivity (Fsum (fun a => Fsum (fun b => x a * s a b * x b) L - Fsum (fun b => (x a * s a0 a / s a0 a0) * (s a0 b * x b)) L) L).
          - apply Fsum_ext. intros a Ha. rewrite <- Fsum_minus. apply Fsum_ext. intros b Hb. rewrite (S a a0) by (cbn; auto). field. exact N0.
          - rewrite Fsum_minus. unfold bil. f_equal. 
            transitivity (Fsum (fun a => (s a0 a * x a) * (y / s a0 a0)) L).
            + apply Fsum_ext. intros a _. rewrite Fsum_scale. fold y. field. exact N0.
            + rewrite Fsum_scale_r. fold y. field. exact N0. }
        rewrite E. field. exact N0. }
      exists ((1 / s a0 a0, fun a => s a a0) :: map ext fs). split.
      + intros du [<-|Hin]; [cbn; apply inv_nonneg; assumption|]. apply in_map_iff in Hin. destruct Hin as (du' & <- & Hin). cbn. apply H1. exact Hin.
      + intros a b Ha Hb. cbn [Fsum fst snd]. rewrite (Ext s' fs H2 a b Ha Hb).
        destruct (eqd a a0) as [->|Ea]; [rewrite (S b a0) by (cbn; auto); field; exact N0|].
        destruct (eqd b a0) as [->|Eb]; [field; exact N0|].
        unfold s'. rewrite (S b a0) by (cbn; auto). field. exact N0.
  Qed.

  (** The Wick form: indices u carry two states. *)
  Lemma wick_psd {U} (lft rgt : U -> T) (us : list U) L s : NoDup L -> symm L s -> psd L s ->
    (forall u, In u us -> In (lft u) L /\ In (rgt u) L) ->
    forall w : U -> F, fle 0 (Fsum (fun u => Fsum (fun v => w u * (s (lft u) (lft v) * s (rgt u) (rgt v) + s (lft u) (rgt v) * s (rgt u) (lft v)) * w v) us) us).
  Proof.
    intros Nd S P Hu w. destruct (ldl L s Nd S P) as (fs & H1 & H2).
    set (Pm := fun k h : F * (T -> F) => Fsum (fun u => w u * (snd k (lft u) * snd h (rgt u))) us).
    set (q := Fsum (fun k => Fsum (fun h => fst k * fst h * (Pm k h * Pm k h + Pm k h * Pm h k)) fs) fs).
    assert (E : Fsum (fun u => Fsum (fun v => w u * (s (lft u) (lft v) * s (rgt u) (rgt v) + s (lft u) (rgt v) * s (rgt u) (lft v)) * w v) us) us = q).
    { transitivity (Fsum (fun u => Fsum (fun v => Fsum (fun k => Fsum (fun h => fst k * fst h *
        ((w u * (snd k (lft u) * snd h (rgt u))) * (w v * (snd k (lft v) * snd h (rgt v))) +
         (w u * (snd k (lft u) * snd h (rgt u))) * (w v * (snd h (lft v) * snd k (rgt v))))) fs) fs) us) us).
      - apply Fsum_ext. intros u Hin. apply Fsum_ext. intros v Hin'. destruct (Hu u Hin) as [A B]. destruct (Hu v Hin') as [C D].
        rewrite (H2 (lft u) (lft v) A C), (H2 (rgt u) (rgt v) B D), (H2 (lft u) (rgt v) A D), (H2 (rgt u) (lft v) B C).
        rewrite <- !Fsum_scale_r. rewrite <- Fsum_plus. rewrite <- Fsum_scale. rewrite <- Fsum_scale_r. apply Fsum_ext. intros k _.
        rewrite <- !Fsum_scale. rewrite <- Fsum_plus. rewrite <- Fsum_scale. rewrite <- Fsum_scale_r. apply Fsum_ext. intros h _. ring.
      - transitivity (Fsum (fun u => Fsum (fun k => Fsum (fun h => fst k * fst h *
          ((w u * (snd k (lft u) * snd h (rgt u))) * Pm k h + (w u * (snd k (lft u) * snd h (rgt u))) * Pm h k)) fs) fs) us).
        + apply Fsum_ext. intros u _. rewrite Fsum_comm. apply Fsum_ext. intros k _. rewrite Fsum_comm. apply Fsum_ext. intros h _.
          rewrite Fsum_scale. unfold Pm. rewrite Fsum_plus, !Fsum_scale. reflexivity.
        + rewrite Fsum_comm. apply Fsum_ext. intros k _. rewrite Fsum_comm. apply Fsum_ext. intros h _.
          rewrite Fsum_scale, Fsum_plus, !Fsum_scale_r. reflexivity. }
    rewrite E. apply fle_double.
    assert (E2 : q + q = Fsum (fun k => Fsum (fun h => fst k * fst h * ((Pm k h + Pm h k) * (Pm k h + Pm h k))) fs) fs).
    { replace (q + q) with (q + Fsum (fun k => Fsum (fun h => fst h * fst k * (Pm h k * Pm h k + Pm h k * Pm k h)) fs) fs) by (f_equal; unfold q; rewrite Fsum_comm; reflexivity).
      unfold q. rewrite <- Fsum_plus. apply Fsum_ext. intros k _. rewrite <- Fsum_plus. apply Fsum_ext. intros h _. ring. }
    rewrite E2. apply Fsum_nonneg. intros k Hk. apply Fsum_nonneg. intros h Hh. apply fle_mul; [apply fle_mul; apply H1; assumption|apply fle_sq].
  Qed.
End LDL.
