(** Parameters: displacements, flatness, resets. *)
From Verif Require Import Base SortLib ParamModel EvalModel EvalSpec EllLemmas OrdLib.
From Coq Require Import Field Sorted Permutation.
Open Scope list_scope.

Section ParamL.
  Context {F : Type} {K : Fld F} {O : OFld (F := F)}.
  Add Field FldParL : (fth (F := F)).
  Open Scope fld_scope.
  Implicit Types p q : param F.
  Implicit Types c : coll F.

  (** ** Displacements *)
  Lemma value_for_eq p eps :
    value_for p eps = if fdec (fiducial p) 0 then eps * stem_factor p else fiducial p * (1 + eps * stem_factor p).
  Proof. unfold value_for. destruct (fdec (fiducial p) 0) as [e|n]; [rewrite e; ring|ring]. Qed.
  Lemma value_for_zero p : value_for p 0 = fiducial p.
  Proof. unfold value_for. destruct (fdec (fiducial p) 0); ring. Qed.
  Lemma value_mono p a b : flt 0 (stem_factor p) -> fle 0 (fiducial p) -> flt a b -> flt (value_for p a) (value_for p b).
  Proof.
    intros Hs Hf H. unfold value_for. destruct (fdec (fiducial p) 0) as [e|n].
    - apply flt_add_l', flt_mul_r; assumption.
    - apply flt_add_l', flt_mul_r; [split; [exact Hf|congruence]|]. apply flt_mul_r; assumption.
  Qed.
  Lemma value_anti p a b : flt 0 (stem_factor p) -> flt (fiducial p) 0 -> flt a b -> flt (value_for p b) (value_for p a).
  Proof.
    intros Hs Hf H. unfold value_for. destruct (fdec (fiducial p) 0) as [e|n].
    - rewrite e in Hf. destruct (flt_irrefl _ Hf).
    - apply flt_add_l', flt_mul_neg; [exact Hf|]. apply flt_mul_r; assumption.
  Qed.

  (** ** The displacement list *)
  Lemma opp_opp (x : F) : - - x = x.
  Proof. ring. Qed.
  Lemma disps_length (base : list F) : length (disps_of base) = (2 * length base)%nat.
  Proof. unfold disps_of, fsort. rewrite isort_length, app_length, map_length. lia. Qed.
  Lemma disps_abs (base : list F) : disps_of base = disps_of (map fabs base).
  Proof.
    unfold disps_of. apply fsort_unique. induction base as [|d l IH]; cbn [map app]; [reflexivity|].
    apply perm_trans with (- d :: d :: (map fopp l ++ l)); [constructor; symmetry; apply Permutation_middle|].
    apply perm_trans with (- fabs d :: fabs d :: (map fopp (map fabs l) ++ map fabs l)); [|constructor; apply Permutation_middle].
    unfold fabs at 1 2. destruct (fle_dec 0 d).
    - do 2 constructor. exact IH.
    - rewrite opp_opp. apply perm_trans with (d :: - d :: (map fopp l ++ l)); [apply perm_swap|]. do 2 constructor. exact IH.
  Qed.
  Lemma disps_pos (base : list F) : (forall x, In x base -> flt 0 x) ->
    disps_of base = map fopp (rev (fsort base)) ++ fsort base.
  Proof.
    intros H. symmetry. unfold disps_of.
    assert (P : Permutation (map fopp (rev (fsort base)) ++ fsort base) (map fopp base ++ base)).
    { apply Permutation_app; [|apply fsort_perm]. apply Permutation_map. rewrite <- Permutation_rev. apply fsort_perm. }
    rewrite <- (fsort_unique _ _ P). symmetry. apply isort_fix; [apply fleb_total|apply fleb_trans|apply fleb_antisym|].
    assert (S : StronglySorted fle (map fopp (rev (fsort base)) ++ fsort base)).
    { assert (Sm : StronglySorted fle (map fopp (rev (fsort base)))).
      { clear P. pose proof (fsort_sorted base) as S. induction S as [|x l S IH HF]; cbn [rev map]; [constructor|].
        rewrite map_app. cbn [map].
        assert (A : forall m (y : F), StronglySorted fle m -> (forall z, In z m -> fle z y) -> StronglySorted fle (m ++ [y])).
        { intros m y Hm. induction Hm as [|z m Hm IHm G]; cbn; intros B; [repeat constructor|]. constructor.
          - apply IHm. intros w Hw. apply B. right; exact Hw.
          - rewrite Forall_forall in *. intros w Hw. apply in_app_or in Hw. destruct Hw as [Hw|[<-|[]]]; [apply G; exact Hw|apply B; left; reflexivity]. }
        apply A; [exact IH|]. intros z Hz. apply in_map_iff in Hz. destruct Hz as (w & <- & Hw). apply in_rev in Hw.
        rewrite Forall_forall in HF. apply fle_opp. apply HF. exact Hw. }
      pose proof (fsort_sorted base) as Sf.
      assert (B : forall l m : list F, StronglySorted fle l -> StronglySorted fle m -> (forall x y, In x l -> In y m -> fle x y) ->
        StronglySorted fle (l ++ m)).
      { intros l m Hl Hm. induction Hl as [|z l Hl IHl G]; cbn; intros C; [exact Hm|]. constructor.
        - apply IHl. intros x y Hx Hy. apply C; [right; exact Hx|exact Hy].
        - rewrite Forall_forall in *. intros w Hw. apply in_app_or in Hw. destruct Hw; [apply G; assumption|apply C; [left; reflexivity|assumption]]. }
      apply B; [exact Sm|exact Sf|]. intros x y Hx Hy. apply in_map_iff in Hx. destruct Hx as (w & <- & Hw).
      apply in_rev in Hw. apply (proj1 (fsort_In _ _)) in Hw. apply (proj1 (fsort_In _ _)) in Hy. apply fle_trans with (0 : F).
      - apply flt_le. pose proof (flt_opp _ _ (H _ Hw)) as G. replace (- (0 : F)) with (0 : F) in G by ring. exact G.
      - apply flt_le, H, Hy. }
    clear P. induction S as [|x l S IH HF]; [constructor|]. constructor; [exact IH|]. rewrite Forall_forall in *. intros y Hy. apply fleb_iff. apply HF. exact Hy.
  Qed.
  Lemma disps_increasing (base : list F) : (forall x, In x base -> flt 0 x) -> NoDup base -> increasing (disps_of base).
  Proof.
    intros H N. unfold disps_of. apply fsort_increasing.
    assert (Nm : NoDup (map fopp base)).
    { apply FinFun.Injective_map_NoDup; [|exact N]. intros x y E. rewrite <- (opp_opp x), E. apply opp_opp. }
    assert (A : forall l m : list F, NoDup l -> NoDup m -> (forall x, In x l -> In x m -> False) -> NoDup (l ++ m)).
    { intros l m Hl Hm. induction Hl as [|x l Hx Hl IH]; cbn; intros D; [exact Hm|]. constructor.
      - intros C. apply in_app_or in C. destruct C as [C|C]; [contradiction|]. apply (D x); [left; reflexivity|exact C].
      - apply IH. intros y Hy1 Hy2. apply (D y); [right; exact Hy1|exact Hy2]. }
    apply A; [exact Nm|exact N|]. intros x Hx Hy. apply in_map_iff in Hx. destruct Hx as (w & <- & Hw).
    pose proof (flt_opp _ _ (H _ Hw)) as G. replace (- (0 : F)) with (0 : F) in G by ring. exact (flt_asym _ _ G (H _ Hy)).
  Qed.

  (** ** The values *)
  Lemma stem_split p (base : list F) : let n := length base in
    stem_values p (disps_of base) =
      map (value_for p) (firstn n (disps_of base)) ++ fiducial p :: map (value_for p) (skipn n (disps_of base)).
  Proof.
    cbn zeta. unfold stem_values, insert_at. rewrite map_length, disps_length.
    assert (E : Nat.div2 (2 * length base) = length base) by apply Nat.div2_double.
    rewrite E, firstn_map, skipn_map. reflexivity.
  Qed.
  Lemma stem_length p (base : list F) : length (stem_values p (disps_of base)) = (2 * length base + 1)%nat.
  Proof.
    rewrite stem_split, app_length. cbn [length]. rewrite !map_length, firstn_length, skipn_length, disps_length. lia.
  Qed.
  Lemma stem_pos p (base : list F) : (forall x, In x base -> flt 0 x) ->
    stem_values p (disps_of base) =
      map (value_for p) (map fopp (rev (fsort base)) ++ 0 :: fsort base).
  Proof.
    intros H. rewrite stem_split. rewrite (disps_pos base H).
    assert (L : length base = length (map fopp (rev (fsort base)))).
    { rewrite map_length, rev_length. unfold fsort. rewrite isort_length. reflexivity. }
    rewrite L, firstn_app, skipn_app, Nat.sub_diag, firstn_all, skipn_all. cbn [firstn skipn]. rewrite app_nil_r. cbn [app].
    rewrite map_app. cbn [map]. rewrite value_for_zero. reflexivity.
  Qed.
  Lemma increasing_app (l m : list F) : increasing l -> increasing m -> (forall x y, In x l -> In y m -> flt x y) -> increasing (l ++ m).
  Proof.
    unfold increasing. intros Hl Hm. induction Hl as [|z l Hl IHl G]; cbn; intros C; [exact Hm|]. constructor.
    - apply IHl. intros x y Hx Hy. apply C; [right; exact Hx|exact Hy].
    - rewrite Forall_forall in *. intros w Hw. apply in_app_or in Hw. destruct Hw; [apply G; assumption|apply C; [left; reflexivity|assumption]].
  Qed.
  Lemma full_increasing (base : list F) : (forall x, In x base -> flt 0 x) -> NoDup base ->
    increasing (map fopp (rev (fsort base)) ++ 0 :: fsort base).
  Proof.
    intros H N. pose proof (disps_increasing base H N) as I. rewrite (disps_pos base H) in I.
    assert (A : forall l m : list F, increasing (l ++ m) -> increasing l /\ increasing m).
    { unfold increasing. intros l m. induction l as [|x l IH]; cbn; intros S; [split; [constructor|exact S]|].
      inversion S as [|? ? S' G]; subst. destruct (IH S') as [S1 S2]. split; [|exact S2]. constructor; [exact S1|].
      rewrite Forall_forall in *. intros y Hy. apply G. apply in_or_app. left; exact Hy. }
    destruct (A _ _ I) as [I1 I2].
    assert (Z : forall x, In x (map fopp (rev (fsort base))) -> flt x 0).
    { intros x Hx. apply in_map_iff in Hx. destruct Hx as (w & <- & Hw). apply in_rev in Hw. apply (proj1 (fsort_In _ _)) in Hw.
      pose proof (flt_opp _ _ (H _ Hw)) as G. replace (- (0 : F)) with (0 : F) in G by ring. exact G. }
    assert (P : forall x, In x (fsort base) -> flt 0 x) by (intros x Hx; apply H, (proj1 (fsort_In _ _)), Hx).
    apply increasing_app; [exact I1| |].
    - constructor; [exact I2|]. apply Forall_forall. exact P.
    - intros x y Hx [<-|Hy]; [apply Z; exact Hx|]. apply flt_trans with (0 : F); [apply Z; exact Hx|apply P; exact Hy].
  Qed.
  Lemma map_increasing (f : F -> F) l : (forall a b, flt a b -> flt (f a) (f b)) -> increasing l -> increasing (map f l).
  Proof.
    intros M S. induction S as [|x m S IH G]; cbn; [constructor|]. constructor; [exact IH|].
    rewrite Forall_forall in *. intros y Hy. apply in_map_iff in Hy. destruct Hy as (w & <- & Hw). apply M, G, Hw.
  Qed.
  Definition decreasing (l : list F) : Prop := StronglySorted (fun a b => flt b a) l.
  Lemma map_decreasing (f : F -> F) l : (forall a b, flt a b -> flt (f b) (f a)) -> increasing l -> decreasing (map f l).
  Proof.
    intros M S. induction S as [|x m S IH G]; cbn; [constructor|]. constructor; [exact IH|].
    rewrite Forall_forall in *. intros y Hy. apply in_map_iff in Hy. destruct Hy as (w & <- & Hw). apply M, G, Hw.
  Qed.
  Lemma fabs_nonzero_pos (x : F) : x <> 0 -> flt 0 (fabs x).
  Proof. intros H. split; [apply fabs_nonneg|]. intros E. apply H, fabs_eq_zero. congruence. Qed.
  Lemma map_fabs_pos (base : list F) : (forall x, In x base -> x <> 0) -> forall x, In x (map fabs base) -> flt 0 x.
  Proof. intros H x Hx. apply in_map_iff in Hx. destruct Hx as (w & <- & Hw). apply fabs_nonzero_pos, H, Hw. Qed.
  Lemma stem_increasing p (base : list F) : (forall x, In x base -> x <> 0) -> NoDup (map fabs base) ->
    flt 0 (stem_factor p) -> fle 0 (fiducial p) -> increasing (stem_values p (disps_of base)).
  Proof.
    intros H N Hs Hf. pose proof (map_fabs_pos base H) as P. rewrite disps_abs. rewrite (stem_pos p _ P).
    apply map_increasing; [|apply full_increasing; assumption]. intros a b. apply value_mono; assumption.
  Qed.
  Lemma stem_decreasing p (base : list F) : (forall x, In x base -> x <> 0) -> NoDup (map fabs base) ->
    flt 0 (stem_factor p) -> flt (fiducial p) 0 -> decreasing (stem_values p (disps_of base)).
  Proof.
    intros H N Hs Hf. pose proof (map_fabs_pos base H) as P. rewrite disps_abs. rewrite (stem_pos p _ P).
    apply map_decreasing; [|apply full_increasing; assumption]. intros a b. apply value_anti; assumption.
  Qed.
  Lemma stem_middle p (base : list F) : nth_error (stem_values p (disps_of base)) (length base) = Some (fiducial p).
  Proof.
    rewrite stem_split, nth_error_app2; rewrite map_length, firstn_length, disps_length; [|lia].
    replace (length base - Nat.min (length base) (2 * length base))%nat with 0%nat by lia. reflexivity.
  Qed.
  (** Injective displacement: distinct values also for a negative factor. *)
  Lemma value_inj p a b : stem_factor p <> 0 -> value_for p a = value_for p b -> a = b.
  Proof.
    intros Hs. unfold value_for. destruct (fdec (fiducial p) 0) as [e|n]; intros E.
    - assert (A : a * stem_factor p = b * stem_factor p).
      { transitivity (fiducial p + a * stem_factor p - fiducial p); [ring|]. rewrite E. ring. }
      transitivity (a * stem_factor p / stem_factor p); [field; exact Hs|]. rewrite A. field. exact Hs.
    - assert (A : a * stem_factor p * fiducial p = b * stem_factor p * fiducial p).
      { transitivity (fiducial p + a * stem_factor p * fiducial p - fiducial p); [ring|]. rewrite E. ring. }
      transitivity (a * stem_factor p * fiducial p / stem_factor p / fiducial p); [field; auto|]. rewrite A. field. auto.
  Qed.
  Lemma stem_NoDup p (base : list F) : (forall x, In x base -> x <> 0) -> NoDup (map fabs base) -> stem_factor p <> 0 ->
    NoDup (stem_values p (disps_of base)).
  Proof.
    intros H N Hs. pose proof (map_fabs_pos base H) as P. rewrite disps_abs. rewrite (stem_pos p _ P).
    apply FinFun.Injective_map_NoDup; [intros a b; apply value_inj; exact Hs|]. apply increasing_NoDup, full_increasing; assumption.
  Qed.

  (** ** Steps *)
  Definition zrange (n : nat) : list Z := map (fun i => (Z.of_nat i - Z.of_nat n)%Z) (seq 0 (2 * n + 1)).
  Lemma steps_length n : length (steps_of n) = (2 * n)%nat.
  Proof. unfold steps_of. rewrite app_length, !map_length, seq_length. lia. Qed.
  Lemma steps_nth n k : (k < 2 * n)%nat ->
    nth_error (steps_of n) k = Some (if (k <? n)%nat then (Z.of_nat k - Z.of_nat n)%Z else (Z.of_nat k - Z.of_nat n + 1)%Z).
  Proof.
    intros H. unfold steps_of. destruct (Nat.ltb_spec k n) as [L|L].
    - rewrite nth_error_app1 by (rewrite map_length, seq_length; exact L).
      rewrite nth_error_map, (nth_error_nth' _ 0%nat) by (rewrite seq_length; exact L). rewrite seq_nth by exact L. reflexivity.
    - rewrite nth_error_app2 by (rewrite map_length, seq_length; exact L). rewrite map_length, seq_length.
      rewrite nth_error_map, (nth_error_nth' _ 0%nat) by (rewrite seq_length; lia). rewrite seq_nth by lia. cbn [option_map]. f_equal. lia.
  Qed.
  Lemma zrange_nth n k : (k < 2 * n + 1)%nat -> nth_error (zrange n) k = Some (Z.of_nat k - Z.of_nat n)%Z.
  Proof.
    intros H. unfold zrange. rewrite nth_error_map, (nth_error_nth' _ 0%nat) by (rewrite seq_length; exact H).
    rewrite seq_nth by exact H. reflexivity.
  Qed.
  Lemma zrange_length n : length (zrange n) = (2 * n + 1)%nat.
  Proof. unfold zrange. rewrite map_length, seq_length. reflexivity. Qed.
  Lemma steps_In n s : In s (steps_of n) <-> (- Z.of_nat n <= s <= Z.of_nat n /\ s <> 0)%Z.
  Proof.
    unfold steps_of. rewrite in_app_iff, !in_map_iff. split.
    - intros [(i & <- & Hi)|(i & <- & Hi)]; apply in_seq in Hi; lia.
    - intros [H N]. destruct (Z.ltb_spec s 0) as [L|L].
      + left. exists (Z.to_nat (s + Z.of_nat n)). split; [lia|]. apply in_seq. lia.
      + right. exists (Z.to_nat (s - 1)). split; [lia|]. apply in_seq. lia.
  Qed.
  Lemma steps_NoDup n : NoDup (steps_of n).
  Proof.
    rewrite NoDup_nth_error. intros i j Hi E. rewrite steps_length in Hi.
    rewrite (steps_nth n i Hi) in E. destruct (Nat.lt_ge_cases j (2 * n)) as [Hj|Hj].
    - rewrite (steps_nth n j Hj) in E. injection E as E.
      destruct (Nat.ltb_spec i n), (Nat.ltb_spec j n); lia.
    - rewrite (proj2 (nth_error_None _ _)) in E by (rewrite steps_length; exact Hj). discriminate.
  Qed.
  Lemma Zeqb_spec' : forall a b : Z, reflect (a = b) (Z.eqb a b).
  Proof. intros a b. apply Z.eqb_spec. Qed.
  Lemma dget_combine_nth {A} (ks : list Z) (vs : list A) k s v : NoDup ks -> length ks = length vs ->
    nth_error ks k = Some s -> nth_error vs k = Some v -> dget Z.eqb (combine ks vs) s = Some v.
  Proof.
    intros N L Ek Ev. apply (@dget_NoDup_In _ _ Z.eqb Zeqb_spec').
    - unfold dkeys. assert (E : map fst (combine ks vs) = ks).
      { clear Ek Ev N. revert vs L. induction ks as [|x ks IH]; intros [|y vs] L; cbn in *; try lia; [reflexivity|]. rewrite IH by lia. reflexivity. }
      rewrite E. exact N.
    - apply nth_error_In with k. apply combine_nth_err. split; assumption.
  Qed.
  (** The n-th value belongs to the n-th step of -n..n. *)
  Lemma stem_aligned p (base : list F) k s v :
    nth_error (zrange (length base)) k = Some s -> nth_error (stem_values p (disps_of base)) k = Some v ->
    (s = 0%Z /\ v = fiducial p) \/
    (s <> 0%Z /\ exists eps, dget Z.eqb (combine (steps_of (length base)) (disps_of base)) s = Some eps /\ v = value_for p eps).
  Proof.
    intros Es Ev. assert (Hk : (k < 2 * length base + 1)%nat).
    { rewrite <- zrange_length. apply nth_error_Some. rewrite Es. discriminate. }
    rewrite (zrange_nth _ _ Hk) in Es. injection Es as <-. rewrite stem_split in Ev.
    assert (L1 : length (map (value_for p) (firstn (length base) (disps_of base))) = length base)
      by (rewrite map_length, firstn_length, disps_length; lia).
    assert (Ld : length (steps_of (length base)) = length (disps_of base)) by (rewrite steps_length, disps_length; reflexivity).
    destruct (Nat.lt_trichotomy k (length base)) as [H|[H|H]].
    - right. split; [lia|]. rewrite nth_error_app1 in Ev by (rewrite L1; exact H). rewrite nth_error_map in Ev.
      destruct (nth_error (firstn (length base) (disps_of base)) k) as [eps|] eqn:Ee; [|discriminate]. injection Ev as <-.
      exists eps. split; [|reflexivity]. apply dget_combine_nth with k; [apply steps_NoDup|exact Ld| |].
      + rewrite steps_nth by lia. destruct (Nat.ltb_spec k (length base)); [reflexivity|lia].
      + rewrite <- Ee. rewrite <- (firstn_skipn (length base) (disps_of base)) at 1. rewrite nth_error_app1; [reflexivity|].
        rewrite firstn_length, disps_length. lia.
    - left. subst k. split; [lia|]. rewrite nth_error_app2 in Ev by lia. rewrite L1, Nat.sub_diag in Ev. cbn in Ev. congruence.
    - right. split; [lia|]. rewrite nth_error_app2 in Ev by lia. rewrite L1 in Ev.
      destruct (k - length base)%nat as [|m] eqn:Em; [lia|]. cbn [nth_error] in Ev. rewrite nth_error_map in Ev.
      destruct (nth_error (skipn (length base) (disps_of base)) m) as [eps|] eqn:Ee; [|discriminate]. injection Ev as <-.
      exists eps. split; [|reflexivity]. apply dget_combine_nth with (k - 1)%nat; [apply steps_NoDup|exact Ld| |].
      + rewrite steps_nth by lia. destruct (Nat.ltb_spec (k - 1) (length base)); [lia|]. f_equal. lia.
      + rewrite <- Ee. rewrite <- (firstn_skipn (length base) (disps_of base)) at 1.
        rewrite nth_error_app2 by (rewrite firstn_length, disps_length; lia).
        f_equal. rewrite firstn_length, disps_length. lia.
  Qed.
End ParamL.
