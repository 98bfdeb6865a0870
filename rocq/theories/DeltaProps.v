(** C83: noisy spectra.  C84: shot-noise files.  C85: matrices of several probes. *)
From Verif Require Import Base SortLib StrLib MatInv LinalgModel LinalgLemmas EvalModel EvalSpec EllLemmas CovLemmas CovLemmas2 FrameModel
  KeyModel KeySpec KeyLemmas NameModel NameLemmas OrdLib FishEval FishEval4 ConfigLemmas DeltaModel DeltaSpec DeltaLemmas DeltaLemmas2 DeltaLemmas3 DeltaLemmas4.
From Verif Require EvalProps.
From Coq Require Import Field.
Open Scope list_scope.

Section C83.
  Context {F : Type} {K : Fld F} {O : OFld (F := F)} {SQ : SqrtFld F}.
  Add Field FfD : (fth (F := F)).
  Open Scope fld_scope.

  (** The densities of the photometric sample can be divided by. *)
  Definition divisible (fc : fconf F) : Prop :=
    fc_fourpi fc <> 0 /\ forall dp sp, dget String.eqb (fc_probes fc) "PhotometricGalaxy"%string = Some dp -> dn_simps dp = Some sp -> sp * dn_fsky dp <> 0.
  Lemma fn_pos n : flt 0 (fn (F := F) (Datatypes.S n)).
  Proof.
    induction n as [|n IH].
    - change (flt 0 (1 + 0 : F)). rewrite (Radd_comm (F_R fth)), (Radd_0_l (F_R fth)). apply flt_0_1.
    - change (flt 0 (1 + fn (F := F) (Datatypes.S n))). rewrite <- (Radd_0_l (F_R fth) (0 : F)) at 1. apply flt_add2; [apply flt_0_1|exact IH].
  Qed.
  Lemma fn10 : fn (F := F) 10 <> 0.
  Proof. apply flt_neq'. apply fn_pos. Qed.

  (** ** C83 *)
  (** Every entry of the noisy spectra is sqrt(1/(width f_sky)) times the sum of
      the spectrum and of the shot noise; everything else is left alone. *)
  Theorem C83_entries fc fs (b b' : block F) p q c ws : evaluate fc fs b = Ok b' -> divisible fc ->
    b_p1 b = Some p -> b_p2 b = Some q -> b_noise b = None -> b_c b = Some c -> b_widths b = Some ws -> length ws = length (crows c) ->
    (forall d, p = q -> dget String.eqb (fc_probes fc) p = Some d -> cnr c = n_bins d /\ cnc c = n_bins d) ->
    exists n d, b_noise b' = Some n /\ b_delta b' = Some d /\
      shape n (length ws) (cnr c) (cnc c) /\ shape d (length ws) (cnr c) (cnc c) /\
      (forall t i j w x, nth_error ws t = Some w -> at3 c t i j = Some x ->
         exists y, shot fc p q i j y /\ at3 n t i j = Some y /\
           at3 d t i j = Some (fsqrt (1 / (w * match fs with Some f => f | None => fc_fsky fc end)) * (x + y))) /\
      b_name b' = b_name b /\ b_p1 b' = Some p /\ b_p2 b' = Some q /\ b_c b' = Some c /\ b_ells b' = b_ells b /\ b_widths b' = Some ws.
  Proof.
    intros E [D1 D2] P1 P2 Nn Ec Ew Lw Hb. destruct (evaluate_noise fc fs b b' E) as (n & En & Hn & A1 & A2 & A3 & A4 & A5 & A6 & ws' & c' & s & d & W & C & S1 & S2 & Dl & _).
    rewrite Nn in Hn. rewrite Ew in W. injection W as <-. rewrite Ec in C. injection C as <-.
    destruct (noise_spec fc b c n p q P1 P2 Ec Hn fn10 D1 D2) as (r & k & m & -> & Hm & Hd).
    assert (Er : r = cnr c /\ k = cnc c).
    { destruct (String.eqb_spec p q) as [->|N]; [|exact Hd]. destruct Hd as (dd & Hg & -> & ->). destruct (Hb dd eq_refl Hg). auto. }
    destruct Er as [-> ->]. assert (Sc : shape c (length ws) (cnr c) (cnc c)) by (repeat split; auto).
    assert (Sn : shape (crepeat (cnr c) (cnc c) (length (crows c)) m) (length ws) (cnr c) (cnc c)) by (rewrite Lw; apply shape_crepeat).
    destruct (cop_same fadd c _ _ _ _ Sc Sn) as (s' & Es' & Ss & Vs). rewrite S1 in Es'. injection Es' as <-.
    destruct (cop_norm (eff fc fs) ws s _ _ _ eq_refl Ss) as (d' & Ed' & Sd & Vd). rewrite S2 in Ed'. injection Ed' as <-.
    exists (crepeat (cnr c) (cnc c) (length (crows c)) m), d. rewrite A1, A2, A3, A4, A5, A6. repeat (split; [solve [auto]|]). split.
    - intros t i j w x Hw Hx. destruct (at3_some c t i j x Hx) as (L1 & L2 & L3 & _). exists (m i j). split; [apply Hm; assumption|].
      assert (Hn' := at3_crepeat (cnr c) (cnc c) (length (crows c)) m t i j L1 L2 L3). split; [exact Hn'|].
      apply (Vd t i j w (x + m i j) Hw). apply Vs; assumption.
    - repeat split; auto.
  Qed.

  (** It succeeds for an auto-correlation when the spectra are positive
      semi-definite and there are galaxies in every bin. *)
  Theorem C83_auto_succeeds fc fs (b : block F) p d c ws s f : b_p1 b = Some p -> b_p2 b = Some p -> b_noise b = None -> b_c b = Some c ->
    b_widths b = Some ws -> length ws = length (crows c) -> dget String.eqb (fc_probes fc) p = Some d -> cnr c = n_bins d -> cnc c = n_bins d ->
    surface d = Ok s -> noise_factor p = Ok f -> (p = "SpectroscopicGalaxy"%string -> fc_reduced fc = false) ->
    Forall (flt 0) s -> Forall (flt 0) ws -> flt 0 (match fs with Some x => x | None => fc_fsky fc end) ->
    (forall M, In M (crows c) -> semidefinite (n_bins d) M) ->
    exists b' D I, evaluate fc fs b = Ok b' /\ b_delta b' = Some D /\ b_inv b' = Some I /\ length I = length ws /\
      forall t M J, nth_error (crows D) t = Some M -> nth_error I t = Some J -> inverse_at (n_bins d) M J.
  Proof.
    intros P1 P2 Nn Ec Ew Lw Hd R1 R2 Hs Hf Hr Ps Pw Pf Hsd. change (flt 0 (eff fc fs)) in Pf.
    destruct (surface_spec d s Hs) as [Ls Vs].
    set (m := fun i j => if Nat.eqb i j then f * (1 / nth i s 0) else 0).
    assert (En : compute_noise fc b = Ok (crepeat (n_bins d) (n_bins d) (length (crows c)) m)).
    { unfold compute_noise. rewrite Ec, P1, P2. cbn [oseqb]. rewrite String.eqb_refl. cbn [negb]. unfold dget_str at 1. rewrite Hd. cbn [rbind]. rewrite Hf. cbn [rbind]. rewrite Hs. cbn [rbind]. cbv zeta.
      rewrite Ls. destruct (String.eqb_spec p "SpectroscopicGalaxy") as [Ep|_]; [rewrite (Hr Ep)|]; cbn [andb]; reflexivity. }
    assert (Sc : shape c (length ws) (n_bins d) (n_bins d)) by (repeat split; auto).
    assert (Sn : shape (crepeat (n_bins d) (n_bins d) (length (crows c)) m) (length ws) (n_bins d) (n_bins d)) by (rewrite Lw; apply shape_crepeat).
    destruct (cop_same fadd c _ _ _ _ Sc Sn) as (s' & Es' & Ss & Vs'). destruct (cop_norm (eff fc fs) ws s' _ _ _ eq_refl Ss) as (D & ED & SD & VD).
    assert (Ff : flt 0 f).
    { unfold noise_factor in Hf. destruct (String.eqb p "Lensing").
      - assert (P : flt 0 (fn (F := F) 3 / fn 10)) by (apply fdiv_pos; apply fn_pos).
        assert (E : f = fn (F := F) 3 / fn 10 * (fn 3 / fn 10)) by congruence. rewrite E. apply flt_mul; exact P.
      - destruct (smem p _); [|discriminate]. assert (E : f = 1) by congruence. rewrite E. apply flt_0_1. }
    assert (EI : exists I, cube_inv D = Ok I).
    { destruct SD as (SD1 & SD2 & SD3). apply (cube_inv_ok_all D (n_bins d) SD2 SD3). intros M HM. apply In_nth_error in HM. destruct HM as (t & Ht).
      assert (Lt : (t < length ws)%nat) by (rewrite <- SD1; apply nth_error_Some; congruence).
      destruct (nth_error ws t) as [w|] eqn:Hw; [|apply nth_error_None in Hw; lia].
      destruct (nth_error (crows c) t) as [C|] eqn:HC; [|apply nth_error_None in HC; lia].
      assert (Pw' : flt 0 (w * eff fc fs)) by (apply flt_mul; [rewrite Forall_forall in Pw; apply Pw; eapply nth_error_In; exact Hw|exact Pf]).
      assert (Pd : flt 0 (1 / (w * eff fc fs))) by (apply fdiv_pos; [apply flt_0_1|exact Pw']).
      apply (regular_noisy (n_bins d) M C m (fsqrt (1 / (w * eff fc fs))) (fun i => f * (1 / nth i s 0))).
      - intros i j Hi Hj. assert (X : at3 c t i j = Some (C i j)).
        { unfold at3. rewrite HC, R1, R2. destruct (Nat.ltb_spec i (n_bins d)); [|lia]. destruct (Nat.ltb_spec j (n_bins d)); [|lia]. reflexivity. }
        assert (Y : at3 (crepeat (n_bins d) (n_bins d) (length (crows c)) m) t i j = Some (m i j)) by (apply at3_crepeat; [congruence|exact Hi|exact Hj]).
        pose proof (VD t i j w _ Hw (Vs' t i j _ _ X Y)) as Z. unfold at3 in Z. rewrite Ht, SD2, SD3 in Z.
        destruct (Nat.ltb_spec i (n_bins d)); [|lia]. destruct (Nat.ltb_spec j (n_bins d)); [|lia]. cbn [andb] in Z. congruence.
      - split; [apply fsqrt_nonneg; apply flt_le; exact Pd|]. intros E0. pose proof (fsqrt_sq (1 / (w * eff fc fs)) (flt_le _ _ Pd)) as Q. rewrite <- E0 in Q.
        replace (0 * 0) with 0 in Q by ring. rewrite <- Q in Pd. exact (flt_irrefl _ Pd).
      - intros i j _ _. reflexivity.
      - intros i Hi. apply flt_mul; [exact Ff|]. apply fdiv_pos; [apply flt_0_1|]. rewrite Forall_forall in Ps. apply Ps. apply nth_In. congruence.
      - apply Hsd. eapply nth_error_In. exact HC. }
    destruct EI as (I & EI).
    destruct (evaluate_build fc fs b (crepeat (n_bins d) (n_bins d) (length (crows c)) m) ws c s' D) as (b' & Eb); try eassumption; [rewrite Nn; exact En|intros _; exists I; exact EI|].
    destruct (evaluate_noise fc fs b b' Eb) as (n & En' & Hn & _ & _ & _ & _ & _ & _ & ws' & c' & s0 & D0 & W & C & S1 & S2 & Dl & Hi).
    rewrite Nn, En in Hn. injection Hn as <-. rewrite Ew in W. injection W as <-. rewrite Ec in C. injection C as <-. rewrite Es' in S1. injection S1 as <-. rewrite ED in S2. injection S2 as <-.
    assert (Ia : is_auto_block b = true) by (unfold is_auto_block; rewrite P1, P2; apply String.eqb_refl). rewrite Ia in Hi. destruct Hi as (I' & Ib & EI'). rewrite EI in EI'. injection EI' as <-.
    destruct SD as (SD1 & SD2 & SD3). destruct (cube_inv_spec D (n_bins d) I SD2 SD3 EI) as [LI VI]. exists b', D, I. repeat split; auto. congruence.
    - apply (VI t M J); assumption.
    - apply (VI t M J); assumption.
  Qed.

  (** The inverse kept beside an auto-correlation is its inverse. *)
  Theorem C83_inverse fc fs (b b' : block F) p D n : evaluate fc fs b = Ok b' -> b_p1 b = Some p -> b_p2 b = Some p -> b_delta b' = Some D -> cnr D = n -> cnc D = n ->
    exists I, b_inv b' = Some I /\ length I = length (crows D) /\
      forall t M J, nth_error (crows D) t = Some M -> nth_error I t = Some J -> inverse_at n M J.
  Proof.
    intros E P1 P2 HD R1 R2. destruct (evaluate_noise fc fs b b' E) as (n0 & _ & _ & _ & _ & _ & _ & _ & _ & ws & c & s & D0 & _ & _ & _ & _ & Dl & Hi).
    rewrite HD in Dl. injection Dl as <-. assert (Ia : is_auto_block b = true) by (unfold is_auto_block; rewrite P1, P2; apply String.eqb_refl).
    rewrite Ia in Hi. destruct Hi as (I & Ib & EI). exists I. split; [exact Ib|]. exact (cube_inv_spec D n I R1 R2 EI).
  Qed.
  (** The noise is kept: evaluating again with another fraction of the sky is
      evaluating with that one only. *)
  Theorem C83_last_f_sky fc f1 f2 (b b1 : block F) : evaluate fc f1 b = Ok b1 -> evaluate fc f2 b1 = evaluate fc f2 b.
  Proof. apply evaluate_again. Qed.

  (** Evaluating a collection evaluates each block by itself, and the
      auto-correlations become entries of the collection (the same objects). *)
  Theorem C83_collection fc fs (cl cl' : dcoll F) : tidy cl -> evaluate_singles fc fs cl = Ok cl' ->
    singles cl' = singles cl /\
    (forall k r, In (k, r) (singles cl) -> evaluate fc fs (deref cl r) = Ok (deref cl' r)) /\
    (forall r, ~ In r (map snd (singles cl)) -> deref cl' r = deref cl r) /\
    forall k r, In (k, r) (singles cl) -> is_auto_block (deref cl r) = true ->
      (forall k' r', In (k', r') (singles cl) -> is_auto_block (deref cl r') = true -> b_name (deref cl r') = b_name (deref cl r) -> r' = r) ->
      dget String.eqb (entries cl') (b_name (deref cl r)) = Some r.
  Proof.
    intros T H. destruct (evaluate_singles_inv fc fs cl cl' H T) as (_ & A & _ & B & C & D). repeat split; auto.
    intros k r Hin Ha U. rewrite D. exact (auto_entries_get cl (singles cl) (entries cl) k r Hin Ha U).
  Qed.

  (** The stage: each spectrum is evaluated by itself; the auto-correlation of
      probe p is also the entry p of the collection. *)
  Theorem C83_stage fc cls (cl : dcoll F) : keyed cls -> Forall plain (dkeys (fc_probes fc)) -> NoDup (dkeys (fc_probes fc)) -> compute_delta_cls fc None cls = Ok cl ->
    dkeys (singles cl) = dkeys cls /\
    forall k a, In (k, a) cls -> exists r b, dget String.eqb (singles cl) k = Some r /\ deref cl r = b /\
      evaluate fc None (from_cl (if String.eqb (a_p1 a) (a_p2 a) then a_p1 a else k) a) = Ok b /\
      (a_p1 a = a_p2 a -> plain (a_p1 a) -> dget String.eqb (entries cl) (a_p1 a) = Some r).
  Proof.
    intros Ky Pl Nd H. destruct (load_keyed cls Ky) as (c1' & E1' & T1' & Ee' & Ek' & L1' & L2').
    destruct (stage_inv fc cls cl Ky H) as (c1 & c4 & E1 & T1 & T4 & E4 & Ex & S4 & Scl & H4 & Dr & V). rewrite E1 in E1'. injection E1' as <-.
    split; [rewrite Scl; exact Ek'|]. intros k a Hin. destruct (L1' k a Hin) as (r & Hr & D). destruct (V k r Hr) as (a' & Ha' & D' & Ev).
    assert (a' = a).
    { destruct Ky as [Nk _]. pose proof (@dget_NoDup_In _ _ String.eqb String.eqb_spec _ _ _ Nk Hin). pose proof (@dget_NoDup_In _ _ String.eqb String.eqb_spec _ _ _ Nk Ha'). congruence. }
    subst a'. destruct Ky as [Nk Hk]. destruct (Hk k a Hin) as (Ek & U1 & U2).
    exists r, (deref cl r). split; [rewrite Scl; apply (@dget_NoDup_In _ _ String.eqb String.eqb_spec); [apply T1|exact Hr]|]. split; [reflexivity|].
    split; [rewrite <- Ev; unfold block_name; rewrite <- Ek; reflexivity|].
    intros Ep Pp. destruct (evaluate_singles_inv _ _ _ _ E4 T1) as (_ & _ & _ & V4 & _ & Ent).
    assert (Bn : b_name (deref c1 r) = a_p1 a) by (rewrite D; cbn [b_name from_cl]; unfold block_name; rewrite Ep, String.eqb_refl; reflexivity).
    assert (G4 : dget String.eqb (entries c4) (a_p1 a) = Some r).
    { rewrite Ent, <- Bn. apply (auto_entries_get c1 (singles c1) (entries c1) k r Hr).
      - rewrite D. unfold is_auto_block. cbn [from_cl b_p1 b_p2]. rewrite Ep. apply String.eqb_refl.
      - intros k' r' Hr' Hau En. destruct (L2' k' r' Hr') as (a' & Hin' & D2). rewrite D2 in Hau. unfold is_auto_block in Hau. cbn [from_cl b_p1 b_p2] in Hau.
        apply String.eqb_eq in Hau. rewrite Bn, D2 in En. cbn [b_name from_cl] in En. unfold block_name in En. rewrite Hau, String.eqb_refl in En.
        destruct (Hk k' a' Hin') as (Ek'' & _ & _). assert (k' = k) by congruence. subst k'. destruct T1 as (N1 & _).
        pose proof (@dget_NoDup_In _ _ String.eqb String.eqb_spec _ _ _ N1 Hr). pose proof (@dget_NoDup_In _ _ String.eqb String.eqb_spec _ _ _ N1 Hr'). congruence. }
    unfold build_xc in Ex. destruct (add_fold _ _ _ _ _ Ex) as (_ & _ & _ & Ke & _).
    - apply xc_names_nodup; assumption.
    - rewrite Ke; [exact G4|]. intros C. apply in_map_iff in C. destruct C as (g & Eg & Hg). change (a_p1 a) with (xc_name [a_p1 a]) in Eg. apply xc_name_inj in Eg.
      + destruct (xc_groups_len _ _ Hg) as [Lg _]. rewrite Eg in Lg. cbn in Lg. lia.
      + apply Forall_forall. intros x Hx. rewrite Forall_forall in Pl. apply Pl. apply (proj2 (xc_groups_len _ _ Hg)). exact Hx.
      + constructor; [exact Pp|constructor].
  Qed.

  (** *** The covariance of noisy spectra *)
  (** The spectra [d] were all made by [evaluate] from spectra whose sum with the
      noise is [T], with widths [w]. *)
  Definition noisy (fc : fconf F) (fs : option F) (w : F -> F) (nb : probe -> nat) (T : probe -> probe -> F -> nat -> nat -> F) (d : spectra (F := F)) : Prop :=
    forall p q l c, stored d p q = Some (l, c) -> exists b b' cc nn, evaluate fc fs b = Ok b' /\ b_delta b' = Some c /\ b_ells b = l /\
      b_widths b = Some (map w l) /\ b_c b = Some cc /\ b_noise b' = Some nn /\ shape cc (length l) (nb p) (nb q) /\ shape nn (length l) (nb p) (nb q) /\
      forall t x i j a n, nth_error l t = Some x -> at3 cc t i j = Some a -> at3 nn t i j = Some n -> T p q x i j = a + n /\ T q p x j i = a + n.
  Lemma noisy_at fc fs w nb T d p q x i j v : noisy fc fs w nb T d -> wf_spectra nb d -> (i < nb p)%nat -> (j < nb q)%nat -> cl_at d p q x i j = Some v ->
    v = fsqrt (1 / (w x * eff fc fs)) * T p q x i j.
  Proof.
    intros N W Hi Hj.
    assert (G : forall p q l c i j M, (i < nb p)%nat -> (j < nb q)%nat -> stored d p q = Some (l, c) -> row_at l (crows c) x = Some M ->
      M i j = fsqrt (1 / (w x * eff fc fs)) * T p q x i j /\ M i j = fsqrt (1 / (w x * eff fc fs)) * T q p x j i).
    { clear p q i j Hi Hj. intros p q l c i j M Hi Hj St Hr. destruct (N p q l c St) as (b & b' & cc & nn & E & Dl & _ & Ew & Ec & Enn & Sc & Sn & HT).
      destruct (evaluate_noise fc fs b b' E) as (n & En & _ & _ & _ & _ & _ & _ & _ & ws & c0 & s & d0 & W0 & C0 & S1 & S2 & Dl' & _).
      rewrite Ew in W0. injection W0 as <-. rewrite Ec in C0. injection C0 as <-. rewrite Enn in En. injection En as <-. rewrite Dl in Dl'. injection Dl' as <-.
      destruct (cop_same fadd cc nn _ _ _ Sc Sn) as (s' & Es & Ss & Vs). rewrite S1 in Es. injection Es as <-.
      destruct (cop_norm (eff fc fs) (map w l) s _ _ _ (map_length w l) Ss) as (c' & Ec' & Sc' & Vc). rewrite S2 in Ec'. injection Ec' as <-.
      unfold row_at in Hr. destruct (find (fun lr => if fdec (fst lr) x then true else false) (combine l (crows c))) as [[x' M']|] eqn:Ef; [|discriminate]. cbn [snd] in Hr. injection Hr as ->.
      apply find_some in Ef. destruct Ef as [Hin Hx]. cbn [fst] in Hx. destruct (fdec x' x) as [->|]; [|discriminate].
      apply In_nth_error in Hin. destruct Hin as (t & Ht). destruct Sc' as (L1 & L2 & L3).
      assert (Lt : (t < length l)%nat). { pose proof (proj1 (nth_error_Some (combine l (crows c)) t) ltac:(congruence)) as Q. rewrite combine_length in Q. lia. }
      assert (Hl : nth_error l t = Some x /\ nth_error (crows c) t = Some M).
      { clear - Ht. revert t Ht. generalize (crows c) as rows. induction l as [|y l IH]; intros rows t Ht; [destruct t; discriminate|].
        destruct rows as [|r rows]; [destruct t; discriminate|]. destruct t as [|t]; cbn in *; [split; congruence|]. apply IH. exact Ht. }
      destruct Hl as [Hl HM]. destruct Sc as (C1 & C2 & C3). destruct Sn as (N1 & N2 & N3).
      assert (Xa : at3 cc t i j = Some (cell cc t i j)) by (apply at3_in; congruence).
      assert (Xn : at3 nn t i j = Some (cell nn t i j)) by (apply at3_in; congruence).
      assert (Hw : nth_error (map w l) t = Some (w x)) by (rewrite nth_error_map, Hl; reflexivity).
      pose proof (Vc t i j (w x) _ Hw (Vs t i j _ _ Xa Xn)) as Z. unfold at3 in Z. rewrite HM, L2, L3 in Z.
      destruct (Nat.ltb_spec i (nb p)); [|lia]. destruct (Nat.ltb_spec j (nb q)); [|lia]. cbn [andb] in Z.
      destruct (HT t x i j _ _ Hl Xa Xn) as [T1 T2]. rewrite T1, T2. split; congruence. }
    unfold cl_at. destruct (stored d p q) as [[l c]|] eqn:St.
    - destruct (row_at l (crows c) x) as [M|] eqn:Er; [|discriminate]. cbn [option_map]. intros E. assert (Ev : v = M i j) by congruence. rewrite Ev. apply (G p q l c); assumption.
    - destruct (stored d q p) as [[l c]|] eqn:St'; [|discriminate]. destruct (row_at l (crows c) x) as [M|] eqn:Er; [|discriminate]. cbn [option_map]. intros E.
      assert (Ev : v = M j i) by congruence. rewrite Ev. apply (G q p l c j i M); assumption.
  Qed.
  Lemma component_bounds nb l A B i j : In ((A, B), (i, j)) (components nb l) -> (i < nb A)%nat /\ (j < nb B)%nat.
  Proof.
    unfold components. rewrite in_flat_map. intros (e & _ & H). apply in_map_iff in H. destruct H as ([i' j'] & E & H). injection E as EA -> ->.
    unfold bin_pairs in H. apply in_flat_map in H. destruct H as (j0 & Hj & H). apply in_map_iff in H. destruct H as (i0 & E & Hi). injection E as -> ->.
    apply in_seq in Hj, Hi. rewrite EA in *. cbn [fst snd] in *. destruct (probe_eqb A B) eqn:Ep; [|lia]. assert (A = B) by (destruct A, B; cbn in Ep; congruence || discriminate). subst B. lia.
  Qed.
  (** The covariance assembled from noisy spectra is the Gaussian covariance of
      spectra observed over a fraction of the sky in multipole bins of a width. *)
  Theorem C83_covariance fc fs w nb T (d : spectra (F := F)) l dv : l <> [] -> dv_of (map spell1 l) = Ok dv ->
    wf_spectra nb d -> symmetric_spectra d -> (forall p q, In p (probes_of l) -> In q (probes_of l) -> available d p q) ->
    noisy fc fs w nb T d -> (forall x, flt 0 (w x)) -> flt 0 (match fs with Some f => f | None => fc_fsky fc end) ->
    exists ells m, assemble dv (raw_spectra d) = Ok (ells, m) /\
      forall t x M r s A B C D i j k n, nth_error ells t = Some x -> nth_error (crows m) t = Some M ->
        nth_error (components nb l) r = Some ((A, B), (i, j)) -> nth_error (components nb l) s = Some ((C, D), (k, n)) -> (1 + 1) * x + 1 <> 0 ->
        M r s = (T A C x i k * T B D x j n + T A D x i n * T B C x j k) / (((1 + 1) * x + 1) * w x * match fs with Some f => f | None => fc_fsky fc end).
  Proof.
    intros Nl E W Sy Av N Pw Pf. change (flt 0 (eff fc fs)) in Pf. destruct (EvalProps.C06_assembled nb d l dv Nl E W Sy Av) as (ells & m & Ea & _ & _ & (_ & _ & _ & L)).
    exists ells, m. split; [exact Ea|]. intros t x M r s A B C D i j k n Ht HM Hr Hs Nx.
    change (match fs with Some f => f | None => fc_fsky fc end) with (eff fc fs).
    pose proof (L t x M r s _ _ Ht HM Hr Hs) as G. unfold gauss in G.
    destruct (component_bounds nb l A B i j (nth_error_In _ _ Hr)) as [B1 B2]. destruct (component_bounds nb l C D k n (nth_error_In _ _ Hs)) as [B3 B4].
    destruct (cl_at d A C x i k) as [ac|] eqn:E1; [|discriminate]. destruct (cl_at d B D x j n) as [bd|] eqn:E2; [|discriminate].
    destruct (cl_at d A D x i n) as [ad|] eqn:E3; [|discriminate]. destruct (cl_at d B C x j k) as [bc|] eqn:E4; [|discriminate].
    pose proof (noisy_at fc fs w nb T d A C x i k ac N W B1 B3 E1) as Z1. pose proof (noisy_at fc fs w nb T d B D x j n bd N W B2 B4 E2) as Z2.
    pose proof (noisy_at fc fs w nb T d A D x i n ad N W B1 B4 E3) as Z3. pose proof (noisy_at fc fs w nb T d B C x j k bc N W B2 B3 E4) as Z4.
    assert (Ev : M r s = (ac * bd + ad * bc) / ((1 + 1) * x + 1)) by congruence. rewrite Ev.
    assert (Pq : flt 0 (w x * eff fc fs)) by (apply flt_mul; [apply Pw|exact Pf]).
    pose proof (fsqrt_sq (1 / (w x * eff fc fs)) (flt_le _ _ (fdiv_pos _ _ flt_0_1 Pq))) as Q.
    assert (Nw : w x <> 0) by (intros E0; pose proof (Pw x) as Pw'; rewrite E0 in Pw'; exact (flt_irrefl _ Pw')).
    assert (Nf : eff fc fs <> 0) by (intros E0; rewrite E0 in Pf; exact (flt_irrefl _ Pf)).
    subst ac bd ad bc. remember (fsqrt (1 / (w x * eff fc fs))) as sq.
    transitivity (sq * sq * (T A C x i k * T B D x j n + T A D x i n * T B C x j k) / ((1 + 1) * x + 1)); [field; exact Nx|]. rewrite Q. field. auto.
  Qed.
End C83.
