(** Lemmas about the noisy spectra. *)
From Verif Require Import Base SortLib StrLib MatInv EvalModel EvalSpec EllLemmas FrameModel NameModel OrdLib FishEval FishEval4 DeltaModel DeltaSpec.
From Coq Require Import Field.
Open Scope list_scope.

Section DeltaL.
  Context {F : Type} {K : Fld F} {O : OFld (F := F)} {SQ : SqrtFld F}.
  Add Field FldDelta : (fth (F := F)).
  Open Scope fld_scope.

  Lemma nth_error_seq s n t : nth_error (seq s n) t = if (t <? n)%nat then Some (s + t)%nat else None.
  Proof.
    destruct (Nat.ltb_spec t n) as [H|H].
    - rewrite (nth_error_nth' (seq s n) 0%nat) by (rewrite seq_length; exact H). rewrite seq_nth by exact H. reflexivity.
    - apply nth_error_None. rewrite seq_length. exact H.
  Qed.
  Lemma bdim_same n : bdim n n = Ok n.
  Proof. unfold bdim. rewrite Nat.eqb_refl. reflexivity. Qed.
  Lemma bdim_one n : bdim 1 n = Ok n.
  Proof. unfold bdim. destruct (Nat.eqb_spec 1 n) as [->|_]; reflexivity. Qed.
  Lemma bix_lt n i : (i < n)%nat -> bix n i = i.
  Proof. unfold bix. destruct (Nat.eqb_spec n 1) as [->|_]; [lia|reflexivity]. Qed.
  Lemma at3_some (c : cube F) t i j x : at3 c t i j = Some x -> (t < length (crows c))%nat /\ (i < cnr c)%nat /\ (j < cnc c)%nat /\ cell c t i j = x.
  Proof.
    unfold at3. destruct (nth_error (crows c) t) as [m|] eqn:E; [|discriminate].
    destruct (Nat.ltb_spec i (cnr c)) as [Hi|]; [|discriminate]. destruct (Nat.ltb_spec j (cnc c)) as [Hj|]; [|discriminate]. cbn [andb].
    intros H. injection H as <-. assert (Ht : (t < length (crows c))%nat) by (apply nth_error_Some; congruence).
    repeat split; auto. unfold cell. rewrite !bix_lt by assumption. rewrite (nth_error_nth _ _ _ E). reflexivity.
  Qed.
  Lemma at3_in (c : cube F) t i j : (t < length (crows c))%nat -> (i < cnr c)%nat -> (j < cnc c)%nat -> at3 c t i j = Some (cell c t i j).
  Proof.
    intros Ht Hi Hj. unfold at3. rewrite (nth_error_nth' (crows c) (fun _ _ => 0) Ht).
    rewrite (proj2 (Nat.ltb_lt _ _) Hi), (proj2 (Nat.ltb_lt _ _) Hj). unfold cell. rewrite !bix_lt by assumption. reflexivity.
  Qed.
  Lemma shape_crepeat r k n m : shape (crepeat (F := F) r k n m) n r k.
  Proof. unfold shape, crepeat. cbn. rewrite repeat_length. auto. Qed.
  Lemma nth_error_repeat_lt {A} (x : A) n t : (t < n)%nat -> nth_error (repeat x n) t = Some x.
  Proof. revert t. induction n as [|n IH]; intros [|t] H; cbn; try lia; auto. apply IH. lia. Qed.
  Lemma at3_crepeat r k n m t i j : (t < n)%nat -> (i < r)%nat -> (j < k)%nat -> at3 (crepeat (F := F) r k n m) t i j = Some (m i j).
  Proof.
    intros Ht Hi Hj. unfold at3, crepeat. cbn [crows cnr cnc]. rewrite nth_error_repeat_lt by exact Ht.
    rewrite (proj2 (Nat.ltb_lt _ _) Hi), (proj2 (Nat.ltb_lt _ _) Hj). reflexivity.
  Qed.

  (** ** Arithmetic of arrays of one shape *)
  Lemma cop_same f (a b : cube F) e r k : shape a e r k -> shape b e r k -> exists c, cop f a b = Ok c /\ shape c e r k /\
    forall t i j x y, at3 a t i j = Some x -> at3 b t i j = Some y -> at3 c t i j = Some (f x y).
  Proof.
    intros (A1 & A2 & A3) (B1 & B2 & B3). unfold cop. rewrite A1, A2, A3, B1, B2, B3, !bdim_same. cbn [rbind].
    eexists. split; [reflexivity|]. split; [unfold shape; cbn; rewrite map_length, seq_length; auto|].
    intros t i j x y Hx Hy. apply at3_some in Hx, Hy. destruct Hx as (T & I & J & Ex), Hy as (_ & _ & _ & Ey).
    unfold at3. cbn [crows cnr cnc]. rewrite nth_error_map, nth_error_seq.
    rewrite (proj2 (Nat.ltb_lt _ _)) by congruence. rewrite (proj2 (Nat.ltb_lt _ _)) by congruence. rewrite (proj2 (Nat.ltb_lt _ _)) by congruence.
    cbn [option_map andb Nat.add]. rewrite Ex, Ey. reflexivity.
  Qed.
  Lemma cop_norm g (ws : list F) (b : cube F) e r k : length ws = e -> shape b e r k ->
    exists c, cop fmul (norm_cube g ws) b = Ok c /\ shape c e r k /\
      forall t i j w y, nth_error ws t = Some w -> at3 b t i j = Some y -> at3 c t i j = Some (fsqrt (1 / (w * g)) * y).
  Proof.
    intros L (B1 & B2 & B3). unfold cop, norm_cube. cbn [crows cnr cnc]. rewrite map_length, L, B1, B2, B3, bdim_same, !bdim_one. cbn [rbind].
    eexists. split; [reflexivity|]. split; [unfold shape; cbn; rewrite map_length, seq_length; auto|].
    intros t i j w y Hw Hy. apply at3_some in Hy. destruct Hy as (T & I & J & Ey).
    unfold at3. cbn [crows cnr cnc]. rewrite nth_error_map, nth_error_seq.
    rewrite (proj2 (Nat.ltb_lt _ _)) by congruence. rewrite (proj2 (Nat.ltb_lt _ _)) by congruence. rewrite (proj2 (Nat.ltb_lt _ _)) by congruence.
    cbn [option_map andb Nat.add]. rewrite Ey. f_equal. f_equal.
    unfold cell. cbn [crows cnr cnc]. rewrite map_length. rewrite bix_lt by congruence.
    rewrite (nth_error_nth (map (fun w0 _ _ => fsqrt (1 / (w0 * g))) ws) t (fun _ _ => 0) (map_nth_error (fun w0 (_ _ : nat) => fsqrt (1 / (w0 * g))) _ _ Hw)). reflexivity.
  Qed.
  Lemma bdim_bad x y : x <> y -> x <> 1%nat -> y <> 1%nat -> bdim x y = Err EValueError.
  Proof.
    intros A B C. unfold bdim. rewrite (proj2 (Nat.eqb_neq _ _) A), (proj2 (Nat.eqb_neq _ _) B), (proj2 (Nat.eqb_neq _ _) C). reflexivity.
  Qed.

  (** ** Inverses *)
  Lemma cube_inv_spec (c : cube F) n I : cnr c = n -> cnc c = n -> cube_inv c = Ok I ->
    length I = length (crows c) /\ forall t M J, nth_error (crows c) t = Some M -> nth_error I t = Some J -> inverse_at n M J.
  Proof.
    intros A B. unfold cube_inv. rewrite A, B, Nat.eqb_refl. cbn [negb]. intros H. apply rmapM_Forall2 in H.
    split; [symmetry; exact (F2_length _ _ _ H)|]. intros t M J HM HJ.
    assert (HI : mat_inv n M = Some J).
    { revert t HM HJ. induction H as [|M' J' Ms Js E H IH]; intros [|t] HM HJ; cbn in *; try discriminate.
      - injection HM as ->. injection HJ as ->. destruct (mat_inv n M); [injection E as ->; reflexivity|discriminate].
      - exact (IH t HM HJ). }
    destruct (mat_inv_some _ _ _ HI) as [H1 H2]. unfold mul, delta in H1, H2. intros r k Hr Hk. split; [exact (H1 r k Hr Hk)|exact (H2 r k Hr Hk)].
  Qed.
  Lemma cube_inv_ok_all (c : cube F) n : cnr c = n -> cnc c = n -> (forall M, In M (crows c) -> regular n M) -> exists I, cube_inv c = Ok I.
  Proof.
    intros A B H. unfold cube_inv. rewrite A, B, Nat.eqb_refl. cbn [negb]. apply rmapM_all. intros M HM.
    destruct (mat_inv_regular n M M (fun _ _ _ _ => eq_refl) (H M HM)) as (I & ->). eauto.
  Qed.

  (** A semidefinite matrix plus a positive diagonal is regular. *)
  Lemma form_split n (C D : nat -> nat -> F) y : form n (fun i j => C i j + D i j) y = form n C y + form n D y.
  Proof.
    unfold form. rewrite <- Fsum_plus. apply Fsum_ext. intros i _. rewrite <- Fsum_plus. apply Fsum_ext. intros j _. ring.
  Qed.
  Lemma form_diag n (dg : nat -> F) y : form n (fun i j => if Nat.eqb i j then dg i else 0) y = Fsum (fun i => dg i * (y i * y i)) (seq 0 n).
  Proof.
    unfold form. apply Fsum_ext. intros i Hi.
    rewrite (@Fsum_single _ _ _ _ (seq 0 n) i (seq_NoDup _ _) Hi); [rewrite Nat.eqb_refl; ring|].
    intros j _ Hj. destruct (Nat.eqb_spec i j); [congruence|ring].
  Qed.
  Lemma Fsum_pos {A} (f : A -> F) l a : (forall x, In x l -> fle 0 (f x)) -> In a l -> flt 0 (f a) -> flt 0 (Fsum f l).
  Proof.
    induction l as [|x l IH]; intros H Ha P; [destruct Ha|]. cbn [Fsum].
    assert (Hl : forall y, In y l -> fle 0 (f y)) by (intros y Hy; apply H; right; exact Hy).
    destruct Ha as [->|Ha].
    - apply flt_le_trans with (f a + 0); [replace (f a + 0) with (f a) by ring; exact P|].
      apply fle_add2; [apply fle_refl|]. apply Fsum_nonneg. exact Hl.
    - apply flt_le_trans with (0 + Fsum f l); [replace (0 + Fsum f l) with (Fsum f l) by ring; exact (IH Hl Ha P)|].
      apply fle_add2; [apply H; left; reflexivity|apply fle_refl].
  Qed.
  Lemma sq_pos (x : F) : x <> 0 -> flt 0 (x * x).
  Proof. intros N. split; [apply fle_sq|]. intros E. symmetry in E. apply f_zero_prod in E. destruct E; contradiction. Qed.
  Lemma regular_noisy n (M C D : nat -> nat -> F) k (dg : nat -> F) :
    (forall i j, (i < n)%nat -> (j < n)%nat -> M i j = k * (C i j + D i j)) -> flt 0 k ->
    (forall i j, (i < n)%nat -> (j < n)%nat -> D i j = if Nat.eqb i j then dg i else 0) ->
    (forall i, (i < n)%nat -> flt 0 (dg i)) -> semidefinite n C -> regular n M.
  Proof.
    intros EM Hk ED Hd HC w Hw r Hr. destruct (fdec (w r) 0) as [e|Ne]; [exact e|]. exfalso.
    assert (Z : form n (fun i j => C i j + D i j) w = 0).
    { assert (Zk : k * form n (fun i j => C i j + D i j) w = 0).
      { unfold form. rewrite <- Fsum_scale. apply Fsum_zero. intros i Hi. apply in_seq in Hi.
        transitivity (w i * Fsum (fun c => M i c * w c) (seq 0 n)).
        - rewrite <- !Fsum_scale. apply Fsum_ext. intros j Hj. apply in_seq in Hj. rewrite EM by lia. ring.
        - rewrite (Hw i) by lia. ring. }
      apply f_zero_prod in Zk. destruct Zk as [e|e]; [exfalso; apply (flt_neq' _ _ Hk); exact e|exact e]. }
    rewrite form_split in Z.
    assert (P : flt 0 (form n D w)).
    { assert (ED2 : form n D w = form n (fun i j => if Nat.eqb i j then dg i else 0) w).
      { unfold form. apply Fsum_ext. intros i Hi. apply Fsum_ext. intros j Hj. apply in_seq in Hi, Hj. rewrite ED by lia. reflexivity. }
      rewrite ED2, form_diag. apply Fsum_pos with (a := r).
      - intros i Hi. apply in_seq in Hi. apply fle_mul; [apply flt_le, Hd; lia|apply fle_sq].
      - apply in_seq. lia.
      - apply flt_mul; [apply Hd; exact Hr|apply sq_pos; exact Ne]. }
    assert (Q : flt 0 (form n C w + form n D w)).
    { apply flt_le_trans with (0 + form n D w); [replace (0 + form n D w) with (form n D w) by ring; exact P|].
      apply fle_add2; [apply HC|apply fle_refl]. }
    apply (flt_neq _ _ Q). symmetry. exact Z.
  Qed.

  (** ** Surface densities *)
  Lemma surface_spec (d : density F) s : surface d = Ok s -> length s = n_bins d /\
    forall i x, nth_error s i = Some x -> (i < n_bins d)%nat /\ has_surface d i x.
  Proof.
    unfold surface. intros H. apply rmapM_Forall2 in H. pose proof (F2_length _ _ _ H) as L. rewrite seq_length in L.
    split; [symmetry; exact L|]. intros i x Hx.
    assert (Hi : (i < n_bins d)%nat) by (rewrite L; apply nth_error_Some; congruence).
    split; [exact Hi|].
    assert (E : surface_at d i = Ok x).
    { apply rmapM_Forall2 in H. destruct (rmapM_seq _ _ _ H) as [_ G]. destruct (G i Hi) as (y & G1 & G2). congruence. }
    unfold surface_at in E. unfold has_surface. destruct (dn_niz d).
    - destruct (dn_bins d) as [l|]; [|discriminate]. destruct (nth_error l i) as [y|] eqn:El; [|discriminate]. exists l. split; [reflexivity|congruence].
    - injection E as <-. unfold n_bins in Hi. exists (nth i (dn_edges d) 0), (nth (Datatypes.S i) (dn_edges d) 0).
      split; [apply nth_error_nth'; lia|]. split; [apply nth_error_nth'; lia|reflexivity].
  Qed.

  (** ** Noise *)
  Lemma dget_str_some {V} (d : dict string V) k v : dget_str d k = Ok v -> dget String.eqb d k = Some v.
  Proof. unfold dget_str. destruct (dget String.eqb d k); congruence. Qed.
  Lemma factor_spec p f : noise_factor (F := F) p = Ok f -> fn (F := F) 10 <> 0 -> factor_of p = Some f.
  Proof.
    unfold noise_factor, factor_of. destruct (String.eqb p "Lensing").
    - intros E N. injection E as <-. f_equal. cbv zeta.
      assert (E10 : 1+1+1+1+1+1+1+1+1+1 = fn 10) by (unfold fn; cbn [Nat.iter nat_rect]; ring).
      assert (E9 : 1+1+1+1+1+1+1+1+1 = fn 3 * fn 3) by (unfold fn; cbn [Nat.iter nat_rect]; ring).
      rewrite E10, E9. change (fn 3 * fn 3 / (fn 10 * fn 10) = fn 3 / fn 10 * (fn 3 / fn 10)). field. exact N.
    - unfold smem. intros E _. destruct (existsb (String.eqb p) _); [injection E as <-; reflexivity|discriminate].
  Qed.
  Lemma noise_spec fc (b : block F) c n p q : b_p1 b = Some p -> b_p2 b = Some q -> b_c b = Some c -> compute_noise fc b = Ok n ->
    fn (F := F) 10 <> 0 -> fc_fourpi fc <> 0 ->
    (forall dp sp, dget String.eqb (fc_probes fc) "PhotometricGalaxy"%string = Some dp -> dn_simps dp = Some sp -> sp * dn_fsky dp <> 0) ->
    exists r k m, n = crepeat r k (length (crows c)) m /\
      (forall i j, (i < r)%nat -> (j < k)%nat -> shot fc p q i j (m i j)) /\
      (if String.eqb p q then exists d, dget String.eqb (fc_probes fc) p = Some d /\ r = n_bins d /\ k = n_bins d else r = cnr c /\ k = cnc c).
  Proof.
    intros E1 E2 Ec H N10 N4 Nt. unfold compute_noise in H. rewrite Ec, E1, E2 in H. cbn [oseqb] in H.
    unfold shot. destruct (String.eqb p q) eqn:Epq; cbn [negb] in H.
    2:{ injection H as <-. do 3 eexists. split; [reflexivity|]. split; [reflexivity|]. auto. }
    destruct (dget_str (fc_probes fc) p) as [d|] eqn:Ed; [|discriminate]. cbn [rbind] in H. apply dget_str_some in Ed.
    destruct (noise_factor p) as [f|] eqn:Ef; [|discriminate]. cbn [rbind] in H. apply factor_spec in Ef; [|exact N10].
    destruct (surface d) as [s|] eqn:Es; [|discriminate]. cbn [rbind] in H. destruct (surface_spec _ _ Es) as [Ls Hs]. cbv zeta in H.
    unfold reduction. destruct (String.eqb p "SpectroscopicGalaxy" && fc_reduced fc) eqn:Er.
    - destruct (dget_str (fc_probes fc) "PhotometricGalaxy") as [dp|] eqn:Edp; [|discriminate]. cbn [rbind] in H. apply dget_str_some in Edp.
      unfold total_number in H. destruct (dn_simps dp) as [sp|] eqn:Esp; [|discriminate]. cbn [rbind] in H.
      destruct (dn_simps d) as [ss|] eqn:Ess; [|discriminate]. cbn [rbind] in H. injection H as <-.
      pose proof (Nt dp sp Edp Esp) as Nsp.
      do 3 eexists. split; [reflexivity|]. split.
      + intros i j Hi Hj. destruct (Hs i (nth i s 0)) as [_ HS]; [apply nth_error_nth'; exact Hi|].
        exists d, f, (nth i s 0), ((ss * dn_fsky d) / (sp * dn_fsky dp)). repeat split; auto.
        * exists d, dp, ss, sp. auto.
        * destruct (Nat.eqb i j); [|ring].
          rewrite !(Fdiv_def fth). assert (Ei : finv (sp * fc_fourpi fc * dn_fsky dp) = finv (sp * dn_fsky dp) * finv (fc_fourpi fc)).
          { field. repeat split; first [exact N4|intros C; apply Nsp; rewrite C; ring]. }
          rewrite Ei. replace (1 * finv (nth i s 0)) with (finv (nth i s 0)) by ring.
          transitivity (f * finv (nth i s 0) * (ss * dn_fsky d) * finv (sp * dn_fsky dp) * (fc_fourpi fc * finv (fc_fourpi fc))); [ring|].
          replace (fc_fourpi fc * finv (fc_fourpi fc)) with (1 : F) by (field; exact N4). ring.
      + exists d. rewrite <- Ls. auto.
    - injection H as <-. do 3 eexists. split; [reflexivity|]. split.
      + intros i j Hi Hj. destruct (Hs i (nth i s 0)) as [_ HS]; [apply nth_error_nth'; exact Hi|].
        exists d, f, (nth i s 0), 1. repeat split; auto. destruct (Nat.eqb i j); [|reflexivity]. rewrite !(Fdiv_def fth). ring.
      + exists d. rewrite <- Ls. auto.
  Qed.

  (** ** Evaluation *)
  Definition eff (fc : fconf F) (fs : option F) : F := match fs with Some x => x | None => fc_fsky fc end.
  Lemma evaluate_noise fc fs (b b' : block F) : evaluate fc fs b = Ok b' ->
    exists n, b_noise b' = Some n /\ match b_noise b with Some n0 => n0 = n | None => compute_noise fc b = Ok n end /\
      b_name b' = b_name b /\ b_p1 b' = b_p1 b /\ b_p2 b' = b_p2 b /\ b_c b' = b_c b /\ b_ells b' = b_ells b /\ b_widths b' = b_widths b /\
      exists ws c s d, b_widths b = Some ws /\ b_c b = Some c /\ cop fadd c n = Ok s /\ cop fmul (norm_cube (eff fc fs) ws) s = Ok d /\ b_delta b' = Some d /\
        if is_auto_block b then exists I, b_inv b' = Some I /\ cube_inv d = Ok I else b_inv b' = b_inv b.
  Proof.
    unfold evaluate. intros H.
    assert (E : exists n, match b_noise b with Some n0 => n0 = n | None => compute_noise fc b = Ok n end /\
      match b_noise b with Some _ => Ok b | None => n0 <- compute_noise fc b ;; Ok (b_set_noise b n0) end = Ok (b_set_noise b n)).
    { destruct (b_noise b) as [n0|] eqn:En.
      - exists n0. split; [reflexivity|]. destruct b; cbn in *; subst; reflexivity.
      - destruct (compute_noise fc b) as [n0|]; [|discriminate]. exists n0. split; reflexivity. }
    destruct E as (n & En & Eb). rewrite Eb in H. cbn [rbind] in H. exists n.
    cbn [b_set_noise b_widths b_c b_noise] in H. destruct (b_widths b) as [ws|] eqn:Ew; [|discriminate].
    destruct (b_c b) as [c|] eqn:Ec; [|discriminate]. fold (eff fc fs) in H.
    destruct (cop fadd c n) as [s|] eqn:Es; [|discriminate]. cbn [rbind] in H.
    destruct (cop fmul (norm_cube (eff fc fs) ws) s) as [d|] eqn:Ed; [|discriminate]. cbn [rbind] in H. cbv zeta in H.
    change (is_auto_block (b_set_delta (b_set_noise b n) d)) with (is_auto_block b) in H.
    destruct (is_auto_block b) eqn:Ea.
    - destruct (cube_inv d) as [I|] eqn:EI; [|discriminate]. cbn [rbind] in H. injection H as <-. cbn.
      rewrite Ew, Ec. repeat split; auto. exists ws, c, s, d. repeat split; auto. exists I. auto.
    - injection H as <-. cbn. rewrite Ew, Ec. repeat split; auto. exists ws, c, s, d. repeat split; auto.
  Qed.
  Lemma evaluate_build fc fs (b : block F) n ws c s d :
    match b_noise b with Some n0 => n0 = n | None => compute_noise fc b = Ok n end ->
    b_widths b = Some ws -> b_c b = Some c -> cop fadd c n = Ok s -> cop fmul (norm_cube (eff fc fs) ws) s = Ok d ->
    (is_auto_block b = true -> exists I, cube_inv d = Ok I) -> exists b', evaluate fc fs b = Ok b'.
  Proof.
    intros En Ew Ec Es Ed HI. unfold evaluate.
    assert (Eb : match b_noise b with Some _ => Ok b | None => n0 <- compute_noise fc b ;; Ok (b_set_noise b n0) end = Ok (b_set_noise b n)).
    { destruct (b_noise b) as [n0|] eqn:Enn; [subst n0; destruct b; cbn in *; subst; reflexivity|rewrite En; reflexivity]. }
    rewrite Eb. cbn [rbind b_set_noise b_widths b_c b_noise]. rewrite Ew, Ec. fold (eff fc fs). rewrite Es. cbn [rbind]. rewrite Ed. cbn [rbind]. cbv zeta.
    change (is_auto_block (b_set_delta (b_set_noise b n) d)) with (is_auto_block b).
    destruct (is_auto_block b); [|eauto]. destruct HI as (I & ->); [reflexivity|]. cbn [rbind]. eauto.
  Qed.
  Lemma evaluate_again fc f1 f2 (b b1 : block F) : evaluate fc f1 b = Ok b1 -> evaluate fc f2 b1 = evaluate fc f2 b.
  Proof.
    unfold evaluate. intros H.
    assert (E : exists n, match b_noise b with Some _ => Ok b | None => n0 <- compute_noise fc b ;; Ok (b_set_noise b n0) end = Ok (b_set_noise b n)).
    { destruct (b_noise b) as [n0|] eqn:En.
      - exists n0. destruct b; cbn in *; subst; reflexivity.
      - destruct (compute_noise fc b) as [n0|]; [|discriminate]. exists n0. reflexivity. }
    destruct E as (n & Eb). rewrite Eb in *. cbn [rbind b_set_noise b_widths b_c b_noise] in *.
    destruct (b_widths b) as [ws|] eqn:Ew; [|discriminate]. destruct (b_c b) as [c|] eqn:Ec; [|discriminate].
    destruct (cop fadd c n) as [s|] eqn:Es; [|discriminate]. cbn [rbind] in *.
    destruct (cop fmul (norm_cube (match f1 with Some x => x | None => fc_fsky fc end) ws) s) as [d|] eqn:Ed; [|discriminate]. cbn [rbind] in H. cbv zeta in H.
    change (is_auto_block (b_set_delta (b_set_noise b n) d)) with (is_auto_block b) in H.
    destruct (is_auto_block b) eqn:Ea.
    - destruct (cube_inv d) as [I|] eqn:EI; [|discriminate]. cbn [rbind] in H. injection H as <-.
      cbn [b_noise rbind b_widths b_c b_set_inv b_set_delta b_set_noise]. rewrite ?Ew, ?Ec, Es. cbn [rbind].
      destruct (cop fmul (norm_cube (match f2 with Some x => x | None => fc_fsky fc end) ws) s) as [d2|]; [|reflexivity]. cbn [rbind]. cbv zeta.
      unfold is_auto_block in *. cbn. rewrite Ea. destruct (cube_inv d2); reflexivity.
    - injection H as <-. cbn [b_noise rbind b_widths b_c b_set_delta b_set_noise]. rewrite ?Ew, ?Ec, Es. cbn [rbind].
      destruct (cop fmul (norm_cube (match f2 with Some x => x | None => fc_fsky fc end) ws) s) as [d2|]; [|reflexivity]. cbn [rbind]. cbv zeta.
      unfold is_auto_block in *. cbn. rewrite Ea. reflexivity.
  Qed.
End DeltaL.
