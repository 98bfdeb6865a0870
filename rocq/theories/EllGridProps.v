(** Property C51: multipole grids. *)
From Coq Require Import Reals Lra Lia.
From Verif Require Import Base SortLib EllGridModel.
Open Scope list_scope.
Open Scope R_scope.

Lemma ceil_spec r : r <= IZR (ceil r) < r + 1.
Proof. unfold ceil. rewrite minus_IZR. destruct (archimed (- r)). lra. Qed.
Lemma ceil_plus1 r : ceil (r + 1) = (ceil r + 1)%Z.
Proof.
  pose proof (ceil_spec r) as [A B]. pose proof (ceil_spec (r + 1)) as [C D].
  assert (IZR (ceil (r + 1)) < IZR (ceil r + 2)) by (rewrite plus_IZR; lra).
  assert (IZR (ceil r) < IZR (ceil (r + 1))) by lra.
  apply lt_IZR in H. apply lt_IZR in H0.
  assert (IZR (ceil r) + 1 < IZR (ceil (r + 1)) + 1) by lra. lia.
Qed.
Lemma combine_map_seq (f : nat -> R) a n : combine (removelast (map f (seq a (S n)))) (tl (map f (seq a (S n)))) = map (fun i => (f i, f (S i))) (seq a n).
Proof.
  revert a. induction n as [|n IH]; intros a; [reflexivity|].
  specialize (IH (S a)). change (seq a (S (S n))) with (a :: seq (S a) (S n)). change (seq a (S n)) with (a :: seq (S a) n). cbn [map].
  change (removelast (f a :: map f (seq (S a) (S n)))) with (f a :: removelast (map f (seq (S a) (S n)))).
  change (tl (f a :: map f (seq (S a) (S n)))) with (f (S a) :: tl (map f (seq (S a) (S n)))). cbn [combine]. rewrite IH. reflexivity.
Qed.
Lemma midpoints_map f n : midpoints (map f (seq 0 (S n))) = map (fun i => (f i + f (S i)) / 2) (seq 0 n).
Proof. unfold midpoints. rewrite combine_map_seq, map_map. reflexivity. Qed.
Lemma diffs_map f n : diffs (map f (seq 0 (S n))) = map (fun i => f (S i) - f i) (seq 0 n).
Proof. unfold diffs. rewrite combine_map_seq, map_map. reflexivity. Qed.

Definition linear_spacing s := In s lin_names.
Definition log_spacing s := In s log_names.
Definition rsum (l : list R) : R := fold_right Rplus 0 l.

(** Linear spacing: ceil(l_max - l_min) unit bins starting at l_min. *)
Theorem C51_linear l_min l_max s n_ell : l_min < l_max -> linear_spacing s ->
  exists n, multipoles l_min l_max s n_ell = Ok (Some (map (fun i => l_min + INR i + 1 / 2) (seq 0 n), repeat 1 n)) /\
    INR n - 1 < l_max - l_min <= INR n /\
    (forall l, l_min <= l <= l_max -> exists i, (i < n)%nat /\ l_min + INR i <= l <= l_min + INR (S i)).
Proof.
  intros H Hs. unfold multipoles. destruct (Rle_dec l_max l_min); [lra|]. apply smem_In in Hs. rewrite Hs.
  set (k := ceil (l_max - l_min)). pose proof (ceil_spec (l_max - l_min)) as [A B]. fold k in A, B.
  assert (Kpos : (0 < k)%Z) by (apply lt_IZR; lra).
  exists (Z.to_nat k). assert (EN : INR (Z.to_nat k) = IZR k) by (rewrite INR_IZR_INZ, Z2Nat.id by lia; reflexivity).
  split; [|split].
  - unfold arange. replace (l_max + 1 - l_min) with (l_max - l_min + 1) by ring. rewrite ceil_plus1. fold k.
    replace (Z.to_nat (k + 1)) with (S (Z.to_nat k)) by lia. rewrite midpoints_map, map_length, seq_length. do 3 f_equal.
    apply map_ext. intros i. rewrite S_INR. field.
  - rewrite EN. lra.
  - intros l Hl. rewrite <- EN in *.
    assert (G : forall m, l <= l_min + INR m -> (0 < m)%nat -> exists i, (i < m)%nat /\ l_min + INR i <= l <= l_min + INR (S i)).
    { induction m as [|m IH]; intros Hm Pm; [lia|]. destruct (Rle_dec (l_min + INR m) l) as [C|C].
      - exists m. split; [lia|]. split; [exact C|exact Hm].
      - destruct m as [|m]; [cbn in C; lra|]. destruct IH as [i [Hi He]]; [lra|lia|]. exists i. split; [lia|exact He]. }
    apply G; [lra|lia].
Qed.
(** The range is met exactly when its length is a whole number; with a whole
    l_min the centres are half integers. *)
Theorem C51_linear_integral l_min s n_ell (n : nat) : (0 < n)%nat -> linear_spacing s ->
  multipoles l_min (l_min + INR n) s n_ell = Ok (Some (map (fun i => l_min + INR i + 1 / 2) (seq 0 n), repeat 1 n)) /\
  rsum (repeat 1 n) = l_min + INR n - l_min.
Proof.
  intros Pn Hs. assert (P : 0 < INR n) by (apply (lt_INR 0); exact Pn). split.
  - destruct (C51_linear l_min (l_min + INR n) s n_ell) as [m [E [B _]]]; [lra|exact Hs|].
    assert (m = n); [|subst m; exact E]. apply INR_eq. assert (INR m < INR n + 1) by lra. assert (INR n <= INR m) by lra.
    rewrite <- S_INR in H. apply INR_lt in H. apply INR_le in H0. f_equal. lia.
  - ring_simplify. clear P Pn. induction n as [|n IH]; [reflexivity|]. rewrite S_INR. cbn [repeat rsum fold_right]. fold (rsum (repeat 1 n)). rewrite IH. ring.
Qed.
(** Otherwise the last bin goes beyond l_max. *)
Theorem C51_linear_overshoot_refuted : exists l_min l_max c w, l_min < l_max /\ multipoles l_min l_max "Linear" NNone = Ok (Some (c, w)) /\ rsum w <> l_max - l_min.
Proof.
  exists 10, (10 + 1 / 2). destruct (C51_linear 10 (10 + 1 / 2) "Linear" NNone) as [m [E [B _]]]; [lra|right; right; left; reflexivity|].
  do 2 eexists. split; [lra|]. split; [exact E|]. assert (INR 0 < INR m) by (cbn; lra). apply INR_lt in H. assert (INR m < INR 2) by (cbn; lra). apply INR_lt in H0.
  replace m with 1%nat by lia. cbn. lra.
Qed.

Lemma ln10 : 0 < ln 10.
Proof. rewrite <- ln_1. apply ln_increasing; lra. Qed.
Lemma pow_log x : 0 < x -> Rpower 10 (log10 x) = x.
Proof. intros H. unfold Rpower, log10. replace (ln x / ln 10 * ln 10) with (ln x) by (field; pose proof ln10; lra). apply exp_ln, H. Qed.
Lemma log10_lt x y : 0 < x -> x < y -> log10 x < log10 y.
Proof. intros H G. unfold log10. apply Rmult_lt_compat_r; [apply Rinv_0_lt_compat, ln10|]. apply ln_increasing; assumption. Qed.
Lemma rsum_tel f n : rsum (map (fun i => f (S i) - f i) (seq 0 n)) = f n - f 0%nat.
Proof.
  assert (G : forall a, rsum (map (fun i => f (S i) - f i) (seq a n)) = f (a + n)%nat - f a); [|apply (G 0%nat)].
  induction n as [|n IH]; intros a; cbn [seq map rsum fold_right]; [rewrite Nat.add_0_r; ring|]. fold (rsum (map (fun i => f (S i) - f i) (seq (S a) n))). rewrite IH.
  replace (S a + n)%nat with (a + S n)%nat by lia. ring.
Qed.

(** Logarithmic spacing: n bins between increasing edges from l_min to l_max with
    a constant ratio. *)
Definition edge (l_min l_max : R) (n i : nat) : R := Rpower 10 (log10 l_min + INR i * ((log10 l_max - log10 l_min) / INR n)).
Definition asked (n_ell : nell) : option Z := match n_ell with NInt z => Some z | NFloat x => Some (trunc x) | _ => None end.
Lemma lin_log s : log_spacing s -> smem s lin_names = false /\ smem s log_names = true.
Proof.
  intros H. split; [|apply smem_In, H]. apply smem_false. intros G. unfold log_spacing, log_names in H. unfold lin_names in G. cbn in H, G.
  repeat destruct H as [H|H]; repeat destruct G as [G|G]; subst; try discriminate; contradiction.
Qed.
Theorem C51_log l_min l_max s n_ell n : 0 < l_min -> l_min < l_max -> log_spacing s -> (0 < n)%nat -> asked n_ell = Some (Z.of_nat n) ->
  exists c w, multipoles l_min l_max s n_ell = Ok (Some (c, w)) /\
    c = map (fun i => (edge l_min l_max n i + edge l_min l_max n (S i)) / 2) (seq 0 n) /\
    w = map (fun i => edge l_min l_max n (S i) - edge l_min l_max n i) (seq 0 n) /\
    edge l_min l_max n 0 = l_min /\ edge l_min l_max n n = l_max /\
    (forall i, edge l_min l_max n i < edge l_min l_max n (S i)) /\
    Forall (fun x => 0 < x) w /\ rsum w = l_max - l_min.
Proof.
  intros P H Hs Pn Ha. destruct (lin_log s Hs) as [S1 S2]. assert (PN : 0 < INR n) by (apply (lt_INR 0); exact Pn).
  assert (Step : 0 < (log10 l_max - log10 l_min) / INR n) by (apply Rdiv_lt_0_compat; [|exact PN]; pose proof (log10_lt _ _ P H); lra).
  assert (E0 : edge l_min l_max n 0 = l_min) by (unfold edge; cbn [INR]; rewrite Rmult_0_l, Rplus_0_r; apply pow_log, P).
  assert (En : edge l_min l_max n n = l_max).
  { unfold edge. replace (log10 l_min + INR n * ((log10 l_max - log10 l_min) / INR n)) with (log10 l_max) by (field; lra). apply pow_log. lra. }
  assert (Inc : forall i, edge l_min l_max n i < edge l_min l_max n (S i)).
  { intros i. unfold edge. apply Rpower_lt; [lra|]. rewrite S_INR. lra. }
  do 2 eexists. split; [|split; [reflexivity|split; [reflexivity|split; [exact E0|split; [exact En|split; [exact Inc|split]]]]]].
  - unfold multipoles. destruct (Rle_dec l_max l_min); [lra|]. rewrite S1, S2.
    assert (Q : match n_ell with NNone => Err EValueError | NInt z => Ok z | NFloat x => Ok (trunc x) | NOther => Err ETypeError end = Ok (Z.of_nat n)).
    { destruct n_ell; cbn in Ha; try discriminate; injection Ha as ->; reflexivity. }
    rewrite Q. cbn [rbind]. destruct (Z.ltb_spec (Z.of_nat n + 1) 0); [lia|]. destruct (Z.leb_spec (Z.of_nat n) 0); [lia|].
    destruct (Rle_dec l_min 0); [lra|]. rewrite Nat2Z.id. unfold logspace. replace (n + 1)%nat with (S n) by lia. rewrite midpoints_map, diffs_map. reflexivity.
  - apply Forall_forall. intros x Hx. apply in_map_iff in Hx. destruct Hx as [i [<- _]]. pose proof (Inc i). lra.
  - rewrite rsum_tel, E0, En. reflexivity.
Qed.
(** The widths recomputed from the centres of such a grid are its widths. *)
Theorem C51_widths_from_centers l_min l_max s n_ell n c w : 0 < l_min -> l_min < l_max -> log_spacing s -> (2 <= n)%nat -> asked n_ell = Some (Z.of_nat n) ->
  multipoles l_min l_max s n_ell = Ok (Some (c, w)) -> widths_from_centers c = Ok w.
Proof.
  intros P H Hs Pn Ha E. destruct (C51_log l_min l_max s n_ell n P H Hs ltac:(lia) Ha) as [c' [w' [E' [-> [-> [E0 [En [Inc _]]]]]]]].
  rewrite E in E'. injection E' as -> ->.
  set (t := (log10 l_max - log10 l_min) / INR n). set (r := Rpower 10 t).
  assert (Rec : forall i, edge l_min l_max n (S i) = r * edge l_min l_max n i).
  { intros i. unfold edge, r. fold t. rewrite <- Rpower_plus. f_equal. rewrite S_INR. ring. }
  assert (Pos : forall i, 0 < edge l_min l_max n i) by (intros i; apply exp_pos).
  assert (R1 : 1 < r).
  { pose proof (Inc 0%nat) as I. rewrite Rec, E0 in I. nra. }
  destruct n as [|[|n]]; [lia|lia|]. cbn [seq map widths_from_centers]. f_equal.
  set (e := edge l_min l_max (S (S n))) in *.
  assert (Q : Rpower 10 (log10 ((e 1%nat + e 2%nat) / 2 / ((e 0%nat + e 1%nat) / 2))) = r).
  { replace ((e 1%nat + e 2%nat) / 2 / ((e 0%nat + e 1%nat) / 2)) with r; [apply pow_log; lra|].
    rewrite (Rec 1%nat), (Rec 0%nat). pose proof (Pos 0%nat) as P0. field. nra. }
  rewrite Q. assert (W : forall i, 2 * ((r - 1) / (r + 1)) * ((e i + e (S i)) / 2) = e (S i) - e i) by (intros i; rewrite (Rec i); field; lra).
  cbn [map]. rewrite !W. do 2 f_equal. rewrite map_map. apply map_ext. intros i. apply W.
Qed.
(** What is refused. *)
Theorem C51_rejects l_min l_max s n_ell : (exists e, multipoles l_min l_max s n_ell = Err e) <->
  l_max <= l_min \/ (~ linear_spacing s /\ (~ log_spacing s \/ match asked n_ell with None => True | Some z => (z < -1)%Z end)).
Proof.
  unfold multipoles, linear_spacing, log_spacing. destruct (Rle_dec l_max l_min) as [A|A]; [split; [tauto|eexists; reflexivity]|].
  destruct (smem_spec s lin_names) as [B|B]; [split; [intros [e E]; discriminate|intros [C|[C _]]; contradiction]|].
  destruct (smem_spec s log_names) as [C|C]; [|split; [intros _; right; tauto|eexists; reflexivity]].
  assert (G : forall z, (exists e, (if Z.ltb (z + 1) 0 then Err EValueError else if Z.leb z 0 then Ok (Some ([], [])) else if Rle_dec l_min 0 then Ok None
       else let e := logspace (log10 l_min) (log10 l_max) (Z.to_nat z) in Ok (Some (midpoints e, diffs e))) = Err e) <-> (z < -1)%Z).
  { intros z. destruct (Z.ltb_spec (z + 1) 0); [split; [lia|eexists; reflexivity]|]. split; [|lia]. intros [e E]. destruct (Z.leb z 0); [discriminate|]. destruct (Rle_dec l_min 0); discriminate. }
  destruct n_ell; cbn [rbind asked]; try (split; [intros _; right; tauto|eexists; reflexivity]); rewrite G; split; [tauto|intros [D|[_ [D|D]]]; tauto|tauto|intros [D|[_ [D|D]]]; tauto].
Qed.
(** Not refused: no bins at all, and ranges where the logarithm does not exist. *)
Theorem C51_empty_accepted_refuted : exists l_min l_max n_ell, 0 < l_min < l_max /\ multipoles l_min l_max "Logarithmic" n_ell = Ok (Some ([], [])).
Proof. exists 1, 2, (NInt 0). split; [lra|]. unfold multipoles. destruct (Rle_dec 2 1); [lra|]. reflexivity. Qed.
Theorem C51_nan_accepted_refuted : exists l_min l_max n_ell, l_min < l_max /\ multipoles l_min l_max "Logarithmic" n_ell = Ok None.
Proof. exists 0, 2, (NInt 1). split; [lra|]. unfold multipoles. destruct (Rle_dec 2 0); [lra|]. cbn. destruct (Rle_dec 0 0); [reflexivity|lra]. Qed.
Example C51_instance : exists c w, multipoles 10 3000 "Logarithmic" (NFloat 100) = Ok (Some (c, w)) /\ length w = 100%nat /\ rsum w = 2990 /\ widths_from_centers c = Ok w.
Proof.
  assert (T : asked (NFloat 100) = Some (Z.of_nat 100)).
  { cbn [asked]. f_equal. unfold trunc. destruct (Rle_dec 0 100); [|lra]. unfold Int_part. rewrite <- (tech_up 100 101); [lia| |]; lra. }
  destruct (C51_log 10 3000 "Logarithmic" (NFloat 100) 100) as [c [w [E [Ec [Ew [_ [_ [_ [_ Sm]]]]]]]]]; [lra|lra|right; right; left; reflexivity|lia|exact T|].
  exists c, w. split; [exact E|]. split; [rewrite Ew, map_length, seq_length; reflexivity|]. split; [lra|].
  apply (C51_widths_from_centers 10 3000 "Logarithmic" (NFloat 100) 100 c w); [lra|lra|right; right; left; reflexivity|lia|exact T|exact E].
Qed.

Print Assumptions C51_linear.
Print Assumptions C51_linear_integral.
Print Assumptions C51_linear_overshoot_refuted.
Print Assumptions C51_log.
Print Assumptions C51_widths_from_centers.
Print Assumptions C51_rejects.
Print Assumptions C51_empty_accepted_refuted.
Print Assumptions C51_nan_accepted_refuted.
