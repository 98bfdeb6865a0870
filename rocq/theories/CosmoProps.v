(** Properties C54, C55, C56, C58, C78, C79: background cosmology, inputs of the
    Boltzmann codes, growth rescaling. *)
From Coq Require Import Reals Lra Lia.
From Verif Require Import Base SortLib StrLib ParamModel RealInst KeyModel CosmoModel.
Open Scope list_scope.
Open Scope R_scope.

(** ** Rounding *)
Lemma nearest_near x : Rabs (x - IZR (nearest x)) <= 1 / 2.
Proof.
  unfold nearest. destruct (base_Int_part x) as [A B].
  assert (D0 : 0 <= x - IZR (Int_part x)) by lra. assert (D1 : x - IZR (Int_part x) < 1) by lra.
  destruct (Rlt_dec (x - IZR (Int_part x)) (1 / 2)); [apply Rabs_le; lra|].
  destruct (Rlt_dec (1 / 2) (x - IZR (Int_part x))); [rewrite plus_IZR; apply Rabs_le; lra|].
  destruct (Z.even (Int_part x)); [apply Rabs_le; lra|rewrite plus_IZR; apply Rabs_le; lra].
Qed.
Lemma nearest_zero x : nearest x = 0%Z <-> Rabs x <= 1 / 2.
Proof.
  pose proof (nearest_near x) as N. split; [intros E; rewrite E in N; rewrite Rminus_0_r in N; exact N|].
  intros H. assert (Hx : -(1/2) <= x <= 1/2) by (revert H; unfold Rabs; destruct (Rcase_abs x); lra).
  destruct (base_Int_part x) as [A B]. assert (C : (Int_part x = 0 \/ Int_part x = -1)%Z).
  { assert (L : (-2 < Int_part x)%Z) by (apply lt_IZR; lra). assert (U : (Int_part x < 1)%Z) by (apply lt_IZR; lra). lia. }
  unfold nearest. destruct C as [C|C]; rewrite C.
  - destruct (Rlt_dec (x - 0) (1 / 2)); [reflexivity|]. destruct (Rlt_dec (1 / 2) (x - 0)); [lra|reflexivity].
  - destruct (Rlt_dec (x - -1) (1 / 2)); [lra|]. destruct (Rlt_dec (1 / 2) (x - -1)); reflexivity.
Qed.
Lemma pow10_pos n : 0 < 10 ^ n. Proof. apply pow_lt. lra. Qed.
Lemma round_to_near n x : Rabs (round_to n x - x) <= / (2 * 10 ^ n).
Proof.
  unfold round_to. pose proof (pow10_pos n) as P. pose proof (nearest_near (x * 10 ^ n)) as N.
  replace (IZR (nearest (x * 10 ^ n)) / 10 ^ n - x) with (- ((x * 10 ^ n - IZR (nearest (x * 10 ^ n))) * / 10 ^ n)) by (field; lra).
  rewrite Rabs_Ropp, Rabs_mult, (Rabs_right (/ 10 ^ n)) by (apply Rle_ge, Rlt_le, Rinv_0_lt_compat; exact P).
  rewrite Rinv_mult. apply Rmult_le_compat_r; [apply Rlt_le, Rinv_0_lt_compat; exact P|]. lra.
Qed.
Lemma round_to_zero n x : round_to n x = 0 <-> Rabs x <= / (2 * 10 ^ n).
Proof.
  unfold round_to. pose proof (pow10_pos n) as P. split.
  - intros E. assert (Z : nearest (x * 10 ^ n) = 0%Z).
    { apply eq_IZR. apply (Rmult_eq_reg_r (/ 10 ^ n)); [|apply Rinv_neq_0_compat; lra]. rewrite Rmult_0_l. exact E. }
    apply nearest_zero in Z. rewrite Rabs_mult, (Rabs_right (10 ^ n)) in Z by lra.
    apply (Rmult_le_reg_r (10 ^ n)); [exact P|]. replace (/ (2 * 10 ^ n) * 10 ^ n) with (1 / 2) by (field; lra). exact Z.
  - intros H. assert (Z : nearest (x * 10 ^ n) = 0%Z).
    { apply nearest_zero. rewrite Rabs_mult, (Rabs_right (10 ^ n)) by lra. replace (1 / 2) with (/ (2 * 10 ^ n) * 10 ^ n) by (field; lra).
      apply Rmult_le_compat_r; lra. }
    rewrite Z. unfold Rdiv. apply Rmult_0_l.
Qed.

(** ** Background *)
Section background.
Variables (d : cpars) (w0 wa m l : R).
Hypotheses (Hw0 : cur d "w0" = Ok w0) (Hwa : cur d "wa" = Ok wa) (Hm : cur d "Omm" = Ok m) (Hl : cur d "OmDE" = Ok l).

Lemma hubble_eq z : hubble d z = Ok (sqrt (radicand z w0 wa m l)).
Proof. unfold hubble. rewrite Hw0, Hwa, Hm, Hl. reflexivity. Qed.
Lemma Omega_m_eq z : Omega_m d z = Ok (m * (1 + z) ^ 3 / (sqrt (radicand z w0 wa m l)) ^ 2).
Proof. unfold Omega_m. rewrite Hm, hubble_eq. reflexivity. Qed.
Lemma radicand_0 : radicand 0 w0 wa m l = 1.
Proof.
  unfold radicand. rewrite Rplus_0_r. unfold Rpower. rewrite ln_1. replace (-3 * wa * 0 / 1) with 0 by field.
  rewrite Rmult_0_r, exp_0. ring.
Qed.

(** The dimensionless Hubble rate is 1 today and the matter fraction is Omm. *)
Theorem C54_today : hubble d 0 = Ok 1 /\ Omega_m d 0 = Ok m /\ inv_hubble d 0 = Ok 1 /\ forall h, cur d "h" = Ok h -> hubble_kms d 0 = Ok (100 * h).
Proof.
  unfold inv_hubble, hubble_kms. rewrite Omega_m_eq, hubble_eq, radicand_0, sqrt_1. cbn [rbind]. repeat split.
  - f_equal. field.
  - f_equal. field.
  - intros h ->. cbn. f_equal. ring.
Qed.
(** At every redshift the fractions of the critical density add up to one: matter
    (as the program reports it), dark energy with equation of state w0 + wa z/(1+z),
    and curvature. *)
Theorem C54_closure z e om : -1 < z -> 0 < radicand z w0 wa m l -> hubble d z = Ok e -> Omega_m d z = Ok om ->
  0 < e /\ om + l * (Rpower (1 + z) (3 * (1 + w0 + wa)) * exp (-3 * wa * z / (1 + z))) / e ^ 2 + (1 - m - l) * (1 + z) ^ 2 / e ^ 2 = 1.
Proof.
  intros Hz Hr. rewrite Omega_m_eq, hubble_eq. intros E1 E2.
  assert (X1 : e = sqrt (radicand z w0 wa m l)) by congruence. assert (X2 : om = m * (1 + z) ^ 3 / sqrt (radicand z w0 wa m l) ^ 2) by congruence.
  clear E1 E2. subst e om.
  split; [apply sqrt_lt_R0; exact Hr|]. replace (sqrt (radicand z w0 wa m l) ^ 2) with (radicand z w0 wa m l).
  - assert (X : m * (1 + z) ^ 3 + l * (Rpower (1 + z) (3 * (1 + w0 + wa)) * exp (-3 * wa * z / (1 + z))) + (1 - m - l) * (1 + z) ^ 2 = radicand z w0 wa m l) by (unfold radicand; ring).
    assert (F : forall a b c r, 0 < r -> a + b + c = r -> a / r + b / r + c / r = 1) by (intros a b c r P <-; field; lra).
    apply F; assumption.
  - cbn [pow]. rewrite Rmult_1_r, sqrt_sqrt by lra. reflexivity.
Qed.
(** The rate is defined at every redshift whenever no density is negative. *)
Theorem C54_positive z : -1 < z -> 0 <= m -> 0 <= l -> m + l <= 1 -> 0 < radicand z w0 wa m l.
Proof.
  intros Hz M L S. unfold radicand. assert (Z : 0 < 1 + z) by lra. assert (A : 0 < (1 + z) ^ 3) by (apply pow_lt; exact Z).
  assert (B : 0 < (1 + z) ^ 2) by (apply pow_lt; exact Z). assert (C : 0 < Rpower (1 + z) (3 * (1 + w0 + wa)) * exp (-3 * wa * z / (1 + z))) by (apply Rmult_lt_0_compat; [apply exp_pos|apply exp_pos]).
  rewrite Rmult_assoc. set (c := Rpower _ _ * exp _) in *. clearbody c. set (a := (1 + z) ^ 3) in *. set (b := (1 + z) ^ 2) in *. clearbody a b.
  assert (P1 : 0 <= m * a) by (apply Rmult_le_pos; lra). assert (P2 : 0 <= l * c) by (apply Rmult_le_pos; lra). assert (P3 : 0 <= (1 - m - l) * b) by (apply Rmult_le_pos; lra).
  destruct (Rle_lt_or_eq_dec 0 m M) as [M'|M']; [assert (0 < m * a) by (apply Rmult_lt_0_compat; lra); lra|].
  destruct (Rle_lt_or_eq_dec 0 l L) as [L'|L']; [assert (0 < l * c) by (apply Rmult_lt_0_compat; lra); lra|].
  assert (0 < (1 - m - l) * b) by (apply Rmult_lt_0_compat; lra). lra.
Qed.
(** The cosmological constant: w0 = -1, wa = 0 makes dark energy constant. *)
Theorem C54_lambda z : -1 < z -> w0 = -1 -> wa = 0 -> radicand z w0 wa m l = m * (1 + z) ^ 3 + l + (1 - m - l) * (1 + z) ^ 2.
Proof.
  clear. intros Hz -> ->. unfold radicand. replace (3 * (1 + -1 + 0)) with 0 by ring. rewrite Rpower_O by lra.
  replace (-3 * 0 * z / (1 + z)) with 0 by (field; lra). rewrite exp_0. ring.
Qed.
(** The curvature the class reports is within 5e-11 of what closes the budget ... *)
Theorem C54_curvature : exists k, OmK d = Ok k /\ Rabs (m + l + k - 1) <= 5 / 10 ^ 11.
Proof.
  unfold OmK. rewrite Hm, Hl. cbn [rbind]. eexists. split; [reflexivity|]. pose proof (round_to_near 10 (1 - (m + l))) as H.
  replace (m + l + round_to 10 (1 - (m + l)) - 1) with (round_to 10 (1 - (m + l)) - (1 - (m + l))) by ring.
  replace (5 / 10 ^ 11) with (/ (2 * 10 ^ 10)) by (cbn; field). exact H.
Qed.
(** ... and a flat cosmology is accepted exactly when the budget closes to 5e-11
    and the equation of state is in range. *)
Theorem C54_accepted pw pa flat : dget String.eqb d "w0" = Some pw -> dget String.eqb d "wa" = Some pa ->
  (make_cosmo (Some d) (Some flat) = Ok tt <->
   (fiducial pw < 1 /\ current pw < 1 /\ Rabs (fiducial pa) < 2 /\ Rabs (current pa) < 2 /\ (flat = true -> Rabs (1 - (m + l)) <= / (2 * 10 ^ 10)))).
Proof.
  intros Gw Ga. unfold make_cosmo, check_cosmo, OmK. rewrite Gw, Ga, Hm, Hl. cbn [rbind].
  destruct (Rle_dec 1 (fiducial pw)); [split; [discriminate|intros; lra]|].
  destruct (Rle_dec 1 (current pw)); [split; [discriminate|intros; lra]|]. cbn [rbind].
  destruct (Rle_dec 2 (Rabs (fiducial pa))); [split; [discriminate|intros; lra]|].
  destruct (Rle_dec 2 (Rabs (current pa))); [split; [discriminate|intros; lra]|]. cbn [rbind].
  destruct flat.
  - destruct (Req_EM_T (round_to 10 (1 - (m + l))) 0) as [E|E].
    + split; [intros _|reflexivity]. repeat split; try lra. intros _. apply round_to_zero. exact E.
    + split; [discriminate|]. intros (_ & _ & _ & _ & H). exfalso. apply E. apply round_to_zero. apply H. reflexivity.
  - split; [intros _|reflexivity]. repeat split; try lra.
Qed.
End background.

Definition mkpar (n : string) (v : R) : string * param R := (n, mkPar n v v true None 1 true "" "" "").
Definition sample (m l : R) : cpars :=
  [mkpar "w0" (-1); mkpar "wa" 0; mkpar "Omm" m; mkpar "OmDE" l; mkpar "h" (1 / 2); mkpar "Omb" (1 / 20); mkpar "mnu" 0; mkpar "ns" 1; mkpar "sigma8" (4 / 5)].
(** The three reported densities need not add up to one, even in a cosmology
    accepted as flat. *)
Theorem C54_rounded_refuted : exists d m l k, cur d "Omm" = Ok m /\ cur d "OmDE" = Ok l /\ make_cosmo (Some d) (Some true) = Ok tt /\
  OmK d = Ok k /\ m + l + k <> 1.
Proof.
  exists (sample (1 / 2) (1 / 2 - / 10 ^ 11)), (1 / 2), (1 / 2 - / 10 ^ 11), 0.
  assert (P : 0 < / 10 ^ 11) by (apply Rinv_0_lt_compat, pow_lt; lra).
  assert (Z : round_to 10 (1 - (1 / 2 + (1 / 2 - / 10 ^ 11))) = 0).
  { apply round_to_zero. replace (1 - (1 / 2 + (1 / 2 - / 10 ^ 11))) with (/ 10 ^ 11) by (cbn; field). rewrite Rabs_right by lra.
    apply Rinv_le_contravar; [apply Rmult_lt_0_compat; [lra|apply pow_lt; lra]|]. cbn. lra. }
  split; [reflexivity|]. split; [reflexivity|]. split.
  - apply (C54_accepted (sample (1 / 2) (1 / 2 - / 10 ^ 11)) (1 / 2) (1 / 2 - / 10 ^ 11) eq_refl eq_refl (snd (mkpar "w0" (-1))) (snd (mkpar "wa" 0)) true eq_refl eq_refl).
    cbn [mkpar snd fiducial current]. rewrite Rabs_R0. repeat split; try lra. intros _. apply round_to_zero. exact Z.
  - split; [unfold OmK; cbn [sample cur dgetr dget rmap rbind]|lra].
    change (Ok (round_to 10 (1 - (1 / 2 + (1 / 2 - / 10 ^ 11)))) = Ok 0). rewrite Z. reflexivity.
Qed.
Example C54_instance : let d := sample (3 / 10) (7 / 10) in
  cur d "w0" = Ok (-1) /\ cur d "Omm" = Ok (3 / 10) /\ make_cosmo (Some d) (Some true) = Ok tt /\ 0 < radicand 1 (-1) 0 (3 / 10) (7 / 10).
Proof.
  split; [reflexivity|]. split; [reflexivity|]. split.
  - apply (C54_accepted (sample (3 / 10) (7 / 10)) (3 / 10) (7 / 10) eq_refl eq_refl (snd (mkpar "w0" (-1))) (snd (mkpar "wa" 0)) true eq_refl eq_refl).
    cbn [mkpar snd fiducial current]. rewrite Rabs_R0. repeat split; try lra. intros _. replace (1 - (3 / 10 + 7 / 10)) with 0 by field. rewrite Rabs_R0.
    apply Rlt_le, Rinv_0_lt_compat, Rmult_lt_0_compat; [lra|apply pow_lt; lra].
  - apply C54_positive; lra.
Qed.

(** ** Boltzmann inputs *)
Definition entry (b : dict string R) (n : string) (v : R) : Prop := dget String.eqb b n = Some v.
(** The basis is produced whenever the eight parameters are there, and matter is
    baryons + cold dark matter + neutrinos. *)
Theorem C55_camb d h m b nu l : cur d "h" = Ok h -> cur d "Omm" = Ok m -> cur d "Omb" = Ok b -> cur d "mnu" = Ok nu -> cur d "OmDE" = Ok l ->
  (exists w0 wa ns, cur d "w0" = Ok w0 /\ cur d "wa" = Ok wa /\ cur d "ns" = Ok ns) ->
  exists bs ob oc on ok, camb_basis d = Ok bs /\ entry bs "ombh2" ob /\ entry bs "omch2" oc /\ entry bs "omnuh2" on /\ entry bs "omk" ok /\
    entry bs "hubble" (100 * h) /\ ob = b * h ^ 2 /\ on = nu * 100 / 9314 /\ ob + oc + on = m * h ^ 2 /\ m + l + ok = 1.
Proof.
  intros H1 H2 H3 H4 H5 (w0 & wa & ns & H6 & H7 & H8). unfold camb_basis. rewrite H1, H2, H3, H4, H5, H6, H7, H8. cbn [rbind].
  do 5 eexists. split; [reflexivity|]. do 4 (split; [reflexivity|]). split; [reflexivity|]. repeat split; try ring; try field.
Qed.
Theorem C55_class d h m b nu l s8 : cur d "h" = Ok h -> cur d "Omm" = Ok m -> cur d "Omb" = Ok b -> cur d "mnu" = Ok nu -> cur d "OmDE" = Ok l -> cur d "sigma8" = Ok s8 ->
  (exists w0 wa ns, cur d "w0" = Ok w0 /\ cur d "wa" = Ok wa /\ cur d "ns" = Ok ns) -> h <> 0 ->
  exists bs oc ok, class_basis d = Ok bs /\ entry bs "Omega_b" b /\ entry bs "Omega_cdm" oc /\ entry bs "m_ncdm" nu /\ entry bs "Omega_fld" l /\ entry bs "Omega_k" ok /\
    entry bs "sigma8" s8 /\ entry bs "h" h /\ b + oc + nu * 100 / (9314 * h ^ 2) = m /\ Rabs (m + l + ok - 1) <= 5 / 10 ^ 7.
Proof.
  intros H1 H2 H3 H4 H5 H9 (w0 & wa & ns & H6 & H7 & H8) Hh. unfold class_basis. rewrite H1, H2, H3, H4, H5, H6, H7, H8, H9. cbn [rbind].
  destruct (Req_EM_T (9314 / 100 * h * h) 0) as [E|E].
  - exfalso. apply Hh. apply Rmult_integral in E. destruct E as [E|E]; [|exact E]. apply Rmult_integral in E. destruct E as [E|E]; [lra|exact E].
  - cbn [rbind]. do 3 eexists. split; [reflexivity|]. do 7 (split; [reflexivity|]). split; [field; exact Hh|].
    pose proof (round_to_near 6 (1 - m - l)) as H. replace (m + l + round_to 6 (1 - m - l) - 1) with (round_to 6 (1 - m - l) - (1 - m - l)) by ring.
    replace (5 / 10 ^ 7) with (/ (2 * 10 ^ 6)) by (cbn; field). exact H.
Qed.
(** With h = 0 no CLASS input is produced; a cold dark matter density below zero is
    passed on as it is. *)
Theorem C55_negative : exists d bs oc, camb_basis d = Ok bs /\ entry bs "omch2" oc /\ oc < 0.
Proof.
  exists (sample (1 / 100) (7 / 10)). eexists. exists (1 / 100 * (1 / 2) * (1 / 2) - 1 / 20 * (1 / 2) * (1 / 2) - 0 / (9314 / 100)).
  split; [reflexivity|]. split; [reflexivity|]. replace (0 / (9314 / 100)) with 0 by field. lra.
Qed.
Example C55_instance : exists bs, class_basis (sample (3 / 10) (7 / 10)) = Ok bs.
Proof.
  destruct (C55_class (sample (3 / 10) (7 / 10)) (1 / 2) (3 / 10) (1 / 20) 0 (7 / 10) (4 / 5)) as (bs & oc & ok & E & _); try reflexivity; [do 3 eexists; repeat split; reflexivity|lra|]. exists bs. exact E.
Qed.

(** ** Batches *)
Section batches.
Open Scope nat_scope.
Lemma cut_concat {A} sizes (l : list A) : list_sum sizes = length l -> concat (cut sizes l) = l.
Proof.
  revert l. induction sizes as [|s ss IH]; intros l H; [destruct l; [reflexivity|discriminate]|].
  change (s + list_sum ss = length l) in H. cbn [cut concat]. rewrite IH; [apply firstn_skipn|]. rewrite skipn_length. lia.
Qed.
Lemma cut_lengths {A} sizes (l : list A) : list_sum sizes = length l -> map (@length A) (cut sizes l) = sizes.
Proof.
  revert l. induction sizes as [|s ss IH]; intros l H; [reflexivity|].
  change (s + list_sum ss = length l) in H. cbn [cut map]. rewrite IH; [rewrite firstn_length_le by lia; reflexivity|]. rewrite skipn_length. lia.
Qed.
Lemma sum_repeat a n : list_sum (repeat a n) = a * n.
Proof. induction n as [|n IH]; cbn; [lia|]. change (a + list_sum (repeat a n) = a * S n). rewrite IH. lia. Qed.
Lemma split_sum n k : k <> 0 -> list_sum (repeat (S (n / k)) (n mod k) ++ repeat (n / k) (k - n mod k)) = n.
Proof.
  intros K. rewrite list_sum_app, !sum_repeat. pose proof (Nat.div_mod n k K) as E. pose proof (Nat.mod_upper_bound n k K). nia.
Qed.
Lemma groups_bounds n : n <> 0 -> groups n <> 0 /\ groups n <= n /\ n <= 150 * groups n.
Proof.
  intros N. unfold groups. pose proof (Nat.div_mod (n + 149) 150 ltac:(lia)) as E. pose proof (Nat.mod_upper_bound (n + 149) 150 ltac:(lia)). lia.
Qed.

Theorem C56_batches {A} (grid : list A) : grid <> [] ->
  exists bs, batches grid = Ok bs /\ concat bs = grid /\ (forall b, In b bs -> 1 <= length b <= 150) /\
    (forall b b', In b bs -> In b' bs -> length b <= length b' + 1) /\ length bs = groups (length grid).
Proof.
  intros N. set (n := length grid). assert (Hn : n <> 0) by (unfold n; destruct grid; [contradiction|discriminate]).
  destruct (groups_bounds n Hn) as (K & Kn & Kb). unfold batches, array_split. fold n. set (k := groups n) in *. clearbody k.
  destruct k as [|k']; [contradiction|]. set (k := S k') in *. clearbody k.
  set (sizes := repeat (S (n / k)) (n mod k) ++ repeat (n / k) (k - n mod k)). eexists. split; [reflexivity|].
  assert (S : list_sum sizes = n) by (apply split_sum; exact K). split; [apply cut_concat; exact S|].
  pose proof (Nat.div_mod n k K) as E. pose proof (Nat.mod_upper_bound n k K) as M.
  assert (Q : forall b, In b (cut sizes grid) -> (length b = n / k \/ length b = Datatypes.S (n / k) /\ n mod k <> 0)).
  { intros b Hb. assert (Hl : In (length b) sizes) by (rewrite <- (cut_lengths sizes grid S); apply in_map; exact Hb).
    unfold sizes in Hl. apply in_app_or in Hl. destruct Hl as [Hl|Hl].
    - right. split; [exact (repeat_spec _ _ _ Hl)|]. intros Z. rewrite Z in Hl. destruct Hl.
    - left. exact (repeat_spec _ _ _ Hl). }
  split; [|split].
  - intros b Hb. assert (D : 1 <= n / k) by (destruct (n / k); nia). destruct (Q b Hb) as [-> | [-> X]]; nia.
  - intros b b' Hb Hb'. destruct (Q b Hb) as [-> | [-> _]]; destruct (Q b' Hb') as [-> | [-> _]]; lia.
  - rewrite <- (map_length (@length A)), (cut_lengths sizes grid S). unfold sizes. rewrite app_length, !repeat_length. lia.
Qed.
(** There is no batch of an empty grid. *)
Theorem C56_empty {A} (grid : list A) : (exists e, batches grid = Err e) <-> grid = [].
Proof.
  split.
  - intros [e E]. destruct grid as [|x g]; [reflexivity|]. destruct (C56_batches (x :: g) ltac:(discriminate)) as (bs & E' & _). congruence.
  - intros ->. exists EValueError. reflexivity.
Qed.
(** One batch more only when the grid needs it. *)
Theorem C56_few {A} (grid : list A) bs : batches grid = Ok bs -> 150 * (length bs - 1) < length grid.
Proof.
  intros E. assert (N : grid <> []) by (intros ->; discriminate). destruct (C56_batches grid N) as (bs' & E' & _ & _ & _ & L).
  rewrite E in E'. injection E' as <-. rewrite L. unfold groups. set (n := length grid). assert (n <> 0) by (unfold n; destruct grid; [contradiction|discriminate]).
  pose proof (Nat.div_mod (n + 149) 150 ltac:(lia)) as Ed. pose proof (Nat.mod_upper_bound (n + 149) 150 ltac:(lia)). lia.
Qed.
Example C56_instance : rmap (map (@length nat)) (batches (seq 0 301)) = Ok [101; 100; 100].
Proof. vm_compute. reflexivity. Qed.
End batches.

(** ** Amplitude tuning *)
Section tuning.
Variables (sig : R -> R) (c : R).
Hypotheses (Hc : 0 < c) (Hs : forall a, 0 <= a -> sig a = c * sqrt a).
Lemma one_pass s8 As : 0 < s8 -> 0 < As -> 0 < sig As /\ 0 < As * (s8 / sig As) ^ 2 /\ sig (As * (s8 / sig As) ^ 2) = s8.
Proof.
  intros P A. assert (Q : 0 < sqrt As) by (apply sqrt_lt_R0; exact A). assert (E : sig As = c * sqrt As) by (apply Hs; lra).
  assert (Sp : 0 < sig As) by (rewrite E; apply Rmult_lt_0_compat; lra). split; [exact Sp|].
  assert (R : 0 < s8 / sig As) by (apply Rdiv_lt_0_compat; lra). assert (B : 0 < As * (s8 / sig As) ^ 2) by (apply Rmult_lt_0_compat; [lra|apply pow_lt; exact R]).
  split; [exact B|]. rewrite (Hs (As * (s8 / sig As) ^ 2)) by lra. rewrite sqrt_mult by (try lra; apply Rlt_le, pow_lt; exact R). rewrite sqrt_pow2 by lra. rewrite E. field. split; lra.
Qed.
(** However bad the start, at most two evaluations are made and the amplitude
    found has the requested sigma8 - provided the loop is entered at all. *)
Theorem C58_tuned fuel s8 As tol eval : (2 <= fuel)%nat -> 0 < s8 -> 0 < As -> 0 <= tol -> tol < Rabs ((s8 - eval) / s8) ->
  exists A, tune fuel sig s8 tol eval As = Ok A /\ 0 < A /\ sig A = s8.
Proof.
  intros F P A T E. destruct fuel as [|[|n]]; try lia. destruct (one_pass s8 As P A) as (S1 & A1 & E1). set (A' := As * (s8 / sig As) ^ 2) in *.
  destruct (one_pass s8 A' P A1) as (S2 & A2 & E2). cbn [tune]. destruct (Req_EM_T s8 0); [lra|].
  destruct (Rlt_dec tol (Rabs ((s8 - eval) / s8))); [|contradiction]. destruct (Req_EM_T (sig As) 0); [lra|]. fold A'.
  destruct (Rlt_dec tol (Rabs ((s8 - sig As) / s8))) as [L|L]; [|exists A'; auto].
  destruct (Req_EM_T (sig A') 0); [lra|].
  assert (Z : Rabs ((s8 - sig A') / s8) = 0) by (rewrite E1; unfold Rdiv; rewrite Rminus_diag_eq by reflexivity; rewrite Rmult_0_l; apply Rabs_R0).
  exists (A' * (s8 / sig A') ^ 2). split; [|auto]. destruct n; cbn [tune]; destruct (Req_EM_T s8 0); try lra; rewrite Z; destruct (Rlt_dec tol 0); try lra; reflexivity.
Qed.
(** The program starts the loop from sigma8 = 10 with tolerance 1e-12. *)
Theorem C58_finetune fuel s8 As : (2 <= fuel)%nat -> 0 < s8 -> 0 < As -> / 10 ^ 12 < Rabs ((s8 - 10) / s8) ->
  exists A, finetune fuel sig s8 As = Ok A /\ 0 < A /\ sig A = s8.
Proof. intros F P A E. apply C58_tuned; auto. apply Rlt_le, Rinv_0_lt_compat, pow_lt. lra. Qed.
(** A requested value within 1e-12 of 10 is never tuned. *)
Theorem C58_ten fuel As : finetune fuel sig 10 As = Ok As.
Proof.
  unfold finetune. assert (Z : Rabs ((10 - 10) / 10) = 0) by (replace ((10 - 10) / 10) with 0 by field; apply Rabs_R0).
  assert (P : 0 < / 10 ^ 12) by (apply Rinv_0_lt_compat, pow_lt; lra).
  destruct fuel; cbn [tune]; destruct (Req_EM_T 10 0); try lra; rewrite Z; destruct (Rlt_dec (/ 10 ^ 12) 0); try lra; reflexivity.
Qed.
End tuning.
Theorem C58_target_refuted : exists sig, (forall a, 0 <= a -> sig a = 1 * sqrt a) /\ exists s8 As, 0 < s8 /\ 0 < As /\
  forall fuel, exists A, finetune fuel sig s8 As = Ok A /\ sig A <> s8.
Proof.
  exists sqrt. split; [intros; ring|]. exists 10, 1. split; [lra|]. split; [lra|]. intros fuel. exists 1. split; [apply C58_ten|]. rewrite sqrt_1. lra.
Qed.
Example C58_instance : exists A, finetune 2 (fun a => 1 * sqrt a) (4 / 5) 2 = Ok A /\ 1 * sqrt A = 4 / 5.
Proof.
  destruct (C58_finetune (fun a => 1 * sqrt a) 1 ltac:(lra) ltac:(reflexivity) 2 (4 / 5) 2) as (A & E & _ & H); try lra; [lia| |eauto].
  rewrite Rabs_left by lra. assert (/ 10 ^ 12 <= 1) by (rewrite <- Rinv_1; apply Rinv_le_contravar; [lra|cbn; lra]). lra.
Qed.

(** ** Growth *)
(** After rescaling, the growth read off the linear spectrum is the given growth,
    normalised to its first entry; the linear and non-linear spectra keep their
    ratio and each row its shape. *)
Theorem C78_growth g lin nonlin lin' nonlin' z : (forall z, 0 < g z) -> (forall z, 0 < lin z 0%nat) ->
  rescale g lin nonlin = (lin', nonlin') ->
  growth_of lin' z = g z / g 0%nat /\ (g 0%nat = 1 -> growth_of lin' z = g z) /\
  forall k k', lin' z k * nonlin z k' = lin z k * nonlin' z k' /\ lin' z k * lin z k' = lin z k * lin' z k' /\ nonlin' z k * nonlin z k' = nonlin z k * nonlin' z k'.
Proof.
  intros Hg Hl E. injection E as <- <-.
  assert (G : forall z, 0 < growth_of lin z) by (intros y; apply sqrt_lt_R0, Rdiv_lt_0_compat; apply Hl).
  assert (M : growth_of (fun z k => lin z k * (g z / growth_of lin z) ^ 2) z = g z / g 0%nat).
  { unfold growth_of at 1. assert (E1 : forall y, growth_of lin y ^ 2 = lin y 0%nat / lin 0%nat 0%nat).
    { intros y. unfold growth_of. cbn [pow]. rewrite Rmult_1_r, sqrt_sqrt; [reflexivity|]. apply Rlt_le, Rdiv_lt_0_compat; apply Hl. }
    replace (lin z 0%nat * (g z / growth_of lin z) ^ 2 / (lin 0%nat 0%nat * (g 0%nat / growth_of lin 0) ^ 2)) with ((g z / g 0%nat) ^ 2).
    - apply sqrt_pow2, Rlt_le, Rdiv_lt_0_compat; apply Hg.
    - assert (X : forall y, (g y / growth_of lin y) ^ 2 = g y ^ 2 * lin 0%nat 0%nat / lin y 0%nat).
      { intros y. unfold Rdiv at 1. rewrite Rpow_mult_distr, pow_inv. rewrite E1. pose proof (Hl y). pose proof (Hl 0%nat). field. split; lra. }
      rewrite !X. pose proof (Hl z). pose proof (Hl 0%nat). pose proof (Hg 0%nat). field. repeat split; lra. }
  split; [exact M|]. split; [intros H1; transitivity (g z / g 0%nat); [exact M|rewrite H1; field]|]. intros k k'. repeat split; ring.
Qed.
(** The growth read off a spectrum is 1 at the first redshift; rescaling by the
    growth already there changes nothing. *)
Theorem C78_normalised (lin : spectrum) : 0 < lin 0%nat 0%nat -> growth_of lin 0 = 1.
Proof. intros H. unfold growth_of, Rdiv. rewrite Rinv_r by lra. apply sqrt_1. Qed.
Theorem C78_identity lin nonlin z k : (forall z, 0 < lin z 0%nat) ->
  fst (rescale (growth_of lin) lin nonlin) z k = lin z k /\ snd (rescale (growth_of lin) lin nonlin) z k = nonlin z k.
Proof.
  intros H. cbn [rescale fst snd]. assert (G : 0 < growth_of lin z) by (apply sqrt_lt_R0, Rdiv_lt_0_compat; apply H).
  replace (growth_of lin z / growth_of lin z) with 1 by (field; lra). rewrite pow1. split; ring.
Qed.
Example C78_instance : let g (z : nat) := 1 / INR (S z) in let lin (z k : nat) := INR (S k) in
  (forall z, 0 < g z) /\ (forall z, 0 < lin z 0%nat) /\ growth_of (fst (rescale g lin lin)) 1 = 1 / 2.
Proof.
  cbv zeta. assert (P : forall z, 0 < 1 / INR (S z)) by (intros z; apply Rdiv_lt_0_compat; [lra|apply lt_0_INR; lia]).
  split; [exact P|]. split; [intros z; cbn; lra|].
  destruct (C78_growth (fun z => 1 / INR (S z)) (fun _ k => INR (S k)) (fun _ k => INR (S k)) _ _ 1 P ltac:(intros z; cbn; lra) eq_refl) as (E & _).
  transitivity (1 / INR 2 / (1 / INR 1)); [exact E|cbn; field].
Qed.

(** ** The redshift grid *)
(** A first evaluation stores the Hubble rate of every grid point; a second one
    changes nothing. *)
Theorem C79_grid dist growth c c' : c_E c = None -> c_r c = None -> c_D c = None -> eval_grid dist growth c = (c', Ok tt) ->
  exists g e r D, c_grid c = Some g /\ c' = mkCosmo (c_pars c) (Some g) (Some e) (Some r) (Some D) /\
    Forall2 (fun z v => hubble (c_pars c) z = Ok v) g e /\ dist (c_pars c) g = Ok r /\ growth = Ok D.
Proof.
  intros HE Hr HD. unfold eval_grid. rewrite HE, Hr, HD. destruct (c_grid c) as [g|]; [|discriminate].
  destruct (rmapM (hubble (c_pars c)) g) as [e|] eqn:Ee; [|discriminate]. destruct (dist (c_pars c) g) as [r|] eqn:Er; [|discriminate].
  destruct growth as [D|]; [|discriminate]. intros E. injection E as <-. exists g, e, r, D. repeat split; try assumption; try reflexivity.
  clear - Ee. revert e Ee. induction g as [|z g IH]; intros e Ee; cbn in Ee; [injection Ee as <-; constructor|].
  destruct (hubble (c_pars c) z) as [v|] eqn:Ev; [|discriminate]. cbn in Ee. destruct (rmapM (hubble (c_pars c)) g) as [vs|] eqn:Es; [|discriminate]. injection Ee as <-. constructor; [exact Ev|apply IH; reflexivity].
Qed.
Theorem C79_again dist growth dist' growth' c c' : eval_grid dist growth c = (c', Ok tt) -> eval_grid dist' growth' c' = (c', Ok tt).
Proof.
  unfold eval_grid. destruct (c_grid c) as [g|] eqn:Eg; [|discriminate].
  destruct (match c_E c with Some e => Ok e | None => rmapM (hubble (c_pars c)) g end) as [e|]; [|discriminate].
  destruct (match c_r c with Some r => Ok r | None => dist (c_pars c) g end) as [r|]; [|discriminate].
  destruct (match c_D c with Some D => Ok D | None => growth end) as [D|]; [|discriminate].
  intros E. injection E as <-. reflexivity.
Qed.
(** A failed evaluation keeps what was computed before the failure, and arrays
    already there are never replaced. *)
Theorem C79_kept dist growth c c' o : eval_grid dist growth c = (c', o) ->
  c_pars c' = c_pars c /\ c_grid c' = c_grid c /\ (forall e, c_E c = Some e -> c_E c' = Some e) /\ (forall r, c_r c = Some r -> c_r c' = Some r) /\ (forall D, c_D c = Some D -> c_D c' = Some D).
Proof.
  unfold eval_grid. destruct (c_grid c) as [g|] eqn:Eg; [|intros E; injection E as <- <-; rewrite Eg; auto].
  destruct (c_E c) as [e|] eqn:EE.
  - destruct (c_r c) as [r|] eqn:Er; [|destruct (dist (c_pars c) g) as [r|]].
    + destruct (c_D c) as [D|] eqn:ED; [|destruct growth as [D|]]; intros E; injection E as <- <-; cbn; rewrite ?EE, ?Er, ?ED; repeat split; auto; discriminate.
    + destruct (c_D c) as [D|] eqn:ED; [|destruct growth as [D|]]; intros E; injection E as <- <-; cbn; rewrite ?EE, ?Er, ?ED; repeat split; auto; discriminate.
    + intros E; injection E as <- <-; cbn; rewrite ?EE, ?Er; repeat split; auto; discriminate.
  - destruct (rmapM (hubble (c_pars c)) g) as [e|]; [|intros E; injection E as <- <-; rewrite ?EE; repeat split; auto].
    destruct (c_r c) as [r|] eqn:Er; [|destruct (dist (c_pars c) g) as [r|]].
    + destruct (c_D c) as [D|] eqn:ED; [|destruct growth as [D|]]; intros E; injection E as <- <-; cbn; rewrite ?EE, ?Er, ?ED; repeat split; auto; discriminate.
    + destruct (c_D c) as [D|] eqn:ED; [|destruct growth as [D|]]; intros E; injection E as <- <-; cbn; rewrite ?EE, ?Er, ?ED; repeat split; auto; discriminate.
    + intros E; injection E as <- <-; cbn; rewrite ?EE, ?Er; repeat split; auto; discriminate.
Qed.
(** So the arrays go stale when a parameter is changed after the first evaluation. *)
Theorem C79_stale_refuted : exists dist growth c c1 c2 e, eval_grid dist growth c = (c1, Ok tt) /\
  eval_grid dist growth (mkCosmo (sample 0 1) (c_grid c1) (c_E c1) (c_r c1) (c_D c1)) = (c2, Ok tt) /\
  c_pars c2 = sample 0 1 /\ c_grid c2 = Some [1] /\ c_E c2 = Some [e] /\ hubble (c_pars c2) 1 <> Ok e.
Proof.
  exists (fun _ g => Ok g), (Ok []), (mkCosmo (sample 0 0) (Some [1]) None None None).
  set (E0 := sqrt (radicand 1 (-1) 0 0 0)).
  exists (mkCosmo (sample 0 0) (Some [1]) (Some [E0]) (Some [1]) (Some [])), (mkCosmo (sample 0 1) (Some [1]) (Some [E0]) (Some [1]) (Some [])), E0.
  do 5 (split; [reflexivity|]). intros H. assert (X : sqrt (radicand 1 (-1) 0 0 1) = E0) by (unfold hubble in H; cbn in H; injection H as H; exact H).
  unfold E0 in X. assert (R1 : radicand 1 (-1) 0 0 1 = 1) by (rewrite C54_lambda by lra; ring). assert (R0' : radicand 1 (-1) 0 0 0 = 2 ^ 2) by (rewrite C54_lambda by lra; ring).
  rewrite R1, R0', sqrt_1, sqrt_pow2 in X by lra. lra.
Qed.
Example C79_instance : exists c, eval_grid (fun _ g => Ok g) (Ok [1]) (mkCosmo (sample (3 / 10) (7 / 10)) (Some [0]) None None None) = (c, Ok tt).
Proof. eexists. reflexivity. Qed.

Print Assumptions C54_today.
Print Assumptions C54_closure.
Print Assumptions C54_positive.
Print Assumptions C54_lambda.
Print Assumptions C54_curvature.
Print Assumptions C54_accepted.
Print Assumptions C54_rounded_refuted.
Print Assumptions C55_camb.
Print Assumptions C55_class.
Print Assumptions C55_negative.
Print Assumptions C56_batches.
Print Assumptions C56_empty.
Print Assumptions C56_few.
Print Assumptions C58_tuned.
Print Assumptions C58_finetune.
Print Assumptions C58_ten.
Print Assumptions C58_target_refuted.
Print Assumptions C78_growth.
Print Assumptions C78_normalised.
Print Assumptions C78_identity.
Print Assumptions C79_grid.
Print Assumptions C79_again.
Print Assumptions C79_kept.
Print Assumptions C79_stale_refuted.
