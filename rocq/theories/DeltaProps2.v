(** C84: shot-noise files.  C85: matrices of several probes. *)
From Verif Require Import Base SortLib StrLib MatInv LinalgModel LinalgLemmas EvalModel EvalSpec EllLemmas CovLemmas CovLemmas2 FrameModel
  KeyModel KeySpec KeyLemmas NameModel NameLemmas OrdLib FishEval FishEval4 ConfigLemmas DeltaModel DeltaSpec DeltaLemmas DeltaLemmas2 DeltaLemmas3 DeltaLemmas4.
From Coq Require Import Field.
Open Scope list_scope.

Section C84.
  Context {F : Type} {K : Fld F} {O : OFld (F := F)} {SQ : SqrtFld F}.
  Add Field FfD2 : (fth (F := F)).
  Open Scope fld_scope.

  (** ** C84 *)
  (** A run that reads the noise written by another one gives the same noisy
      spectra and matrices, whatever its own densities are. *)
  Theorem C84_replay fc fc' cls (cl : dcoll F) nf : keyed cls -> (forall k a, In (k, a) cls -> length (a_ells a) = length (crows (a_c a))) ->
    compute_delta_cls fc None cls = Ok cl -> write_noise cl = Ok nf ->
    fc_fsky fc' = fc_fsky fc -> dkeys (fc_probes fc') = dkeys (fc_probes fc) ->
    compute_delta_cls fc' (Some (Some nf)) cls = Ok cl.
  Proof.
    intros Ky Le H Wn Ef Ek. destruct (stage_inv fc cls cl Ky H) as (c1 & c4 & E1 & T1 & T4 & E4 & Ex & S4 & Scl & H4 & Dr & V).
    destruct (write_noise_get cl nf Wn) as [Kn Gn]; [rewrite Scl; apply T1|].
    destruct (evaluate_singles_inv _ _ _ _ E4 T1) as (_ & _ & _ & V4 & N4 & Ent).
    assert (L : exists c2, load_noise (Some nf) c1 = Ok c2).
    { apply (load_noise_fold_ok nf (singles c1) c1). intros k Hk. rewrite <- Scl in Hk. apply in_map_iff in Hk. destruct Hk as ([k' r] & E & Hin). cbn in E. subst k'.
      destruct (Gn k r Hin) as (n & m & rest & _ & _ & G). eauto. }
    destruct L as (c2 & E2). destruct (load_noise_inv nf c1 c2 E2 T1) as (T2 & S2 & H2 & Ee2 & D2 & N2).
    assert (Ev : forall k r, In (k, r) (singles c1) -> evaluate fc' None (deref c2 r) = Ok (deref c4 r) /\
                   is_auto_block (deref c2 r) = is_auto_block (deref c1 r) /\ b_name (deref c2 r) = b_name (deref c1 r)).
    { intros k r Hin. destruct (V k r Hin) as (a & Ha & D1 & Ea). rewrite (Dr r) in Ea by (apply (in_map snd) in Hin; exact Hin).
      destruct (D2 k r Hin) as (x & y & v & G & ->). pose proof Hin as Hin'. rewrite <- Scl in Hin'. destruct (Gn k r Hin') as (n & m & rest & Bn & Rn & G').
      rewrite (Dr r) in Bn by (apply (in_map snd) in Hin; exact Hin). rewrite G in G'. injection G' as -> -> ->.
      split; [|split; reflexivity]. rewrite D1. cbn [b_ells from_cl].
      destruct (evaluate_noise fc None _ _ Ea) as (n0 & Bn0 & Hn0 & _). cbn [b_noise from_cl] in Hn0. rewrite Bn in Bn0. injection Bn0 as <-.
      destruct (noise_repeats fc (from_cl (block_name a) a) n (a_c a) eq_refl Hn0) as (m0 & En).
      assert (Em : crepeat (cnr n) (cnc n) (length (a_ells a)) m = n).
      { rewrite (Le k a Ha). rewrite En in Rn. cbn [crows crepeat] in Rn. destruct (length (crows (a_c a))) as [|len] eqn:El; [discriminate|].
        cbn [repeat] in Rn. injection Rn as -> _. symmetry. exact En. }
      rewrite Em. apply (evaluate_set fc fc' None (from_cl (block_name a) a)); [reflexivity|exact Ea|exact Bn|]. cbn [eff]. congruence. }
    assert (S : exists c4', evaluate_singles fc' None c2 = Ok c4').
    { apply (evaluate_fold_ok fc' None (singles c2) c2); [apply T2|apply T2|]. intros k r Hin. rewrite S2 in Hin. destruct (Ev k r Hin) as [Ev' _]. eauto. }
    destruct S as (c4' & E4'). destruct (evaluate_singles_inv _ _ _ _ E4' T2) as (_ & S4' & H4' & V4' & N4' & Ent').
    assert (Eq : c4' = c4).
    { apply coll_eq; [|congruence|].
      - apply heap_ext; [congruence|]. intros r Hr. change (deref c4' r = deref c4 r). destruct (in_dec Nat.eq_dec r (map snd (singles c1))) as [Hin|Hn].
        + apply in_map_iff in Hin. destruct Hin as ([k r'] & E & Hin). cbn in E. subst r'. destruct (Ev k r Hin) as [Ev' _]. rewrite <- S2 in Hin. rewrite (V4' k r Hin) in Ev'. congruence.
        + rewrite N4' by (rewrite S2; exact Hn). rewrite N2 by exact Hn. rewrite N4 by exact Hn. reflexivity.
      - rewrite Ent', Ent, S2, Ee2. apply auto_entries_ext. intros [k r] Hin. cbn [snd]. destruct (Ev k r Hin) as (_ & X & Y). auto. }
    unfold compute_delta_cls. rewrite E1. cbn [rbind]. rewrite E2. cbn [rbind]. rewrite (load_noise_twice nf c1 c2 E2 T1). cbn [rbind]. rewrite E4'. cbn [rbind].
    rewrite Eq. rewrite (build_xc_keys fc' fc c4 Ek). exact Ex.
  Qed.

  (** With a noise file the densities are not used at all. *)
  Theorem C84_densities_unused fc fc' file cls : keyed cls -> fc_fsky fc' = fc_fsky fc -> dkeys (fc_probes fc') = dkeys (fc_probes fc) ->
    compute_delta_cls fc (Some file) cls = compute_delta_cls (F := F) fc' (Some file) cls.
  Proof.
    intros Ky Ef Ek. destruct (load_keyed cls Ky) as (c1 & E1 & T1 & _ & _ & _ & _). unfold compute_delta_cls. rewrite E1. cbn [rbind].
    destruct file as [nf|]; [|reflexivity]. destruct (load_noise (Some nf) c1) as [c2|] eqn:E2; [|reflexivity]. cbn [rbind].
    rewrite (load_noise_twice nf c1 c2 E2 T1). cbn [rbind]. destruct (load_noise_inv nf c1 c2 E2 T1) as (T2 & S2 & H2 & _ & D2 & _).
    assert (Q : forall l cl, (forall k r, In (k, r) l -> b_noise (deref cl r) <> None /\ (r < length (heap cl))%nat) -> rfold (evaluate_one fc None) l cl = rfold (evaluate_one fc' None) l cl).
    { induction l as [|[k r] l IH]; intros cl Hn; [reflexivity|]. cbn [rfold]. unfold evaluate_one at 1 3. cbn [snd]. destruct (Hn k r (or_introl eq_refl)) as [Hn0 Hr].
      rewrite (evaluate_fc fc fc' None (deref cl r)); [|cbn [eff]; congruence|exact Hn0].
      destruct (evaluate fc' None (deref cl r)) as [b|] eqn:Eb; [|reflexivity]. cbn [rbind]. apply IH. intros k' r' Hin. destruct (Hn k' r' (or_intror Hin)) as [Hn1 Hr1].
      assert (Hh : forall b', b_noise b' <> None -> b_noise (nth r' (update_nth (heap cl) r b') no_block) <> None /\ (r' < length (update_nth (heap cl) r b'))%nat).
      { intros b' Hb'. rewrite (length_update _ _ _ Hr). split; [|exact Hr1]. destruct (Nat.eq_dec r r') as [<-|Nr]; [rewrite nth_update_same by exact Hr; exact Hb'|].
        rewrite nth_update_other by assumption. exact Hn1. }
      assert (Bn : b_noise b <> None) by (destruct (evaluate_noise _ _ _ _ Eb) as (n & Bn & _); congruence).
      destruct (is_auto_block b); exact (Hh b Bn). }
    unfold evaluate_singles. rewrite (Q (singles c2) c2).
    - destruct (rfold (evaluate_one fc' None) (singles c2) c2) as [c4|]; [|reflexivity]. cbn [rbind]. apply build_xc_keys. congruence.
    - intros k r Hin. split.
      + rewrite S2 in Hin. destruct (D2 k r Hin) as (x & y & v & _ & ->). cbn. discriminate.
      + destruct T2 as (_ & _ & T3). apply T3. apply (in_map snd) in Hin. exact Hin.
  Qed.

  (** The file must have every pair of the run, also those without noise. *)
  Theorem C84_missing_pair fc nf cls k : keyed cls -> In k (dkeys cls) -> dget String.eqb nf k = None ->
    compute_delta_cls (F := F) fc (Some (Some nf)) cls = Err EKeyError.
  Proof.
    intros Ky Hk Hn. destruct (load_keyed cls Ky) as (c1 & E1 & T1 & _ & Ek & _ & _). unfold compute_delta_cls. rewrite E1. cbn [rbind].
    assert (E2 : load_noise (Some nf) c1 = Err EKeyError).
    { unfold load_noise. apply (load_noise_fold_missing nf (singles c1) k c1); [rewrite Ek; exact Hk|exact Hn]. }
    rewrite E2. reflexivity.
  Qed.
  Theorem C84_no_file fc cls : keyed cls -> compute_delta_cls (F := F) fc (Some None) cls = Err EOSError.
  Proof. intros Ky. destruct (load_keyed cls Ky) as (c1 & E1 & _). unfold compute_delta_cls. rewrite E1. reflexivity. Qed.

  (** Loading puts the array of the file in every multipole of the pair. *)
  Theorem C84_loaded nf (cl cl' : dcoll F) k r t : tidy cl -> load_noise (Some nf) cl = Ok cl' -> In (k, r) (singles cl) -> (t < length (b_ells (deref cl r)))%nat ->
    exists a b v n, dget String.eqb nf k = Some (a, b, v) /\ b_noise (deref cl' r) = Some n /\ shape n (length (b_ells (deref cl r))) a b /\
      forall i j, (i < a)%nat -> (j < b)%nat -> at3 n t i j = Some (v i j).
  Proof.
    intros T H Hin Ht. destruct (load_noise_inv nf cl cl' H T) as (_ & _ & _ & _ & D & _). destruct (D k r Hin) as (a & b & v & G & E).
    exists a, b, v, (crepeat a b (length (b_ells (deref cl r))) v). rewrite E. split; [exact G|]. split; [reflexivity|]. split; [apply shape_crepeat|].
    intros i j Hi Hj. apply at3_crepeat; assumption.
  Qed.

  (** An array of another shape is refused, unless a side is 1. *)
  Theorem C84_wrong_shape fc fs (b : block F) c n ws : b_noise b = Some n -> b_c b = Some c -> b_widths b = Some ws ->
    (cnr n <> cnr c /\ cnr n <> 1%nat /\ cnr c <> 1%nat) \/ (cnr n = cnr c /\ cnc n <> cnc c /\ cnc n <> 1%nat /\ cnc c <> 1%nat) -> length (crows n) = length (crows c) ->
    evaluate fc fs b = Err EValueError.
  Proof.
    intros En Ec Ew H Le. unfold evaluate. rewrite En. cbn [rbind]. cbv zeta. rewrite Ew, Ec, En. unfold cop at 1. rewrite Le, bdim_same. cbn [rbind].
    destruct H as [(H1 & H2 & H3)|(H0 & H1 & H2 & H3)].
    - rewrite (bdim_bad (cnr c) (cnr n)) by congruence. reflexivity.
    - rewrite H0, bdim_same. cbn [rbind]. rewrite (bdim_bad (cnc c) (cnc n)) by congruence. reflexivity.
  Qed.
  (** A 1x1 array is spread over all bins, on and off the diagonal. *)
  Theorem C84_one_by_one fc fs (b b' : block F) c v ws : b_noise b = Some (crepeat 1 1 (length (crows c)) (fun _ _ => v)) -> b_c b = Some c -> b_widths b = Some ws ->
    length ws = length (crows c) -> evaluate fc fs b = Ok b' ->
    exists d, b_delta b' = Some d /\ shape d (length ws) (cnr c) (cnc c) /\
      forall t i j w x, nth_error ws t = Some w -> at3 c t i j = Some x ->
        at3 d t i j = Some (fsqrt (1 / (w * match fs with Some f => f | None => fc_fsky fc end)) * (x + v)).
  Proof.
    intros En Ec Ew Lw E. destruct (evaluate_noise fc fs b b' E) as (n & Bn & Hn & _ & _ & _ & _ & _ & _ & ws' & c' & s & d & W & C & S1 & S2 & Dl & _).
    rewrite En in Hn. subst n. rewrite Ew in W. injection W as <-. rewrite Ec in C. injection C as <-. exists d. split; [exact Dl|].
    assert (Q : exists s', cop fadd c (crepeat 1 1 (length (crows c)) (fun _ _ => v)) = Ok s' /\ shape s' (length ws) (cnr c) (cnc c) /\
       forall t i j x, at3 c t i j = Some x -> at3 s' t i j = Some (x + v)).
    { unfold cop. cbn [crows crepeat cnr cnc]. rewrite repeat_length, bdim_same. cbn [rbind].
      assert (B1 : forall n, bdim n 1 = Ok n).
      { intros n. unfold bdim. destruct (Nat.eqb_spec n 1) as [->|]; [reflexivity|]. cbn. reflexivity. }
      rewrite !B1. cbn [rbind]. eexists. split; [reflexivity|]. split; [repeat split; cbn [crows]; rewrite map_length, seq_length; congruence|].
      intros t i j x Hx. destruct (at3_some c t i j x Hx) as (L1 & L2 & L3 & Ex). rewrite at3_in; cbn [crows cnr cnc]; rewrite ?map_length, ?seq_length; auto.
      f_equal. unfold cell at 1. cbn [crows cnr cnc]. rewrite !bix_lt by (rewrite ?map_length, ?seq_length; assumption).
      rewrite (nth_indep _ _ ((fun t i j => cell c t i j + cell (crepeat 1 1 (length (crows c)) (fun _ _ => v)) t i j) 0%nat)) by (rewrite map_length, seq_length; exact L1).
      rewrite (map_nth (fun t i j => cell c t i j + cell (crepeat 1 1 (length (crows c)) (fun _ _ => v)) t i j)). rewrite seq_nth by exact L1. cbn [Nat.add]. rewrite Ex. f_equal.
      unfold cell. cbn [crows crepeat cnr cnc]. rewrite repeat_length.
      assert (Nr : forall n t, (t < n)%nat -> nth t (repeat (fun _ _ : nat => v) n) (fun _ _ => 0) = fun _ _ => v).
      { clear. induction n as [|n IH]; intros t Ht; [lia|]. destruct t as [|t]; cbn; [reflexivity|]. apply IH. lia. }
      rewrite Nr; [reflexivity|]. rewrite bix_lt by exact L1. exact L1. }
    destruct Q as (s' & Es & Ss & Vs). rewrite S1 in Es. injection Es as <-.
    destruct (cop_norm (eff fc fs) ws s _ _ _ eq_refl Ss) as (d' & Ed' & Sd & Vd). rewrite S2 in Ed'. injection Ed' as <-.
    split; [exact Sd|]. intros t i j w x Hw Hx. apply (Vd t i j w _ Hw). apply Vs. exact Hx.
  Qed.
  (** So a noise array of the wrong shape is not always noticed. *)
  Theorem C84_wrong_shape_refuted : exists fc fs (b b' : block F) c n d, b_noise b = Some n /\ b_c b = Some c /\ cnr n <> cnr c /\
    evaluate fc fs b = Ok b' /\ b_delta b' = Some d /\ at3 c 0 0 1 = Some 0 /\ at3 d 0 0 1 <> Some 0.
  Proof.
    set (c := crepeat 2 2 1 (fun _ _ => 0 : F)). set (n := crepeat 1 1 1 (fun _ _ => 1 : F)).
    set (b := mkBlock "" (Some "A") (Some "B") (Some c) [1] (Some [1]) (Some n) None None). set (fc := mkFc [] 1 false 1 : fconf F).
    assert (E : exists b', evaluate fc None b = Ok b').
    { eexists. unfold evaluate, b. cbn [b_noise rbind b_widths b_c]. cbv zeta. unfold cop, c, n, norm_cube. cbn [crows crepeat repeat length bdim Nat.eqb rbind cnr cnc map seq is_auto_block b_p1 b_p2 b_set_delta].
      reflexivity. }
    destruct E as (b' & E). destruct (C84_one_by_one fc None b b' c 1 [1] eq_refl eq_refl eq_refl eq_refl E) as (d & Ed & _ & Vd).
    exists fc, None, b, b', c, n, d. repeat split; auto; [discriminate|]. rewrite (Vd 0%nat 0%nat 1%nat 1 0 eq_refl eq_refl). cbn [fc fc_fsky].
    intros C. assert (C' : fsqrt (1 / (1 * 1)) * (0 + 1) = 0) by congruence.
    assert (P : fle 0 (1 / (1 * 1) : F)) by (apply flt_le; apply fdiv_pos; [apply flt_0_1|apply flt_mul; apply flt_0_1]).
    pose proof (fsqrt_sq _ P) as Q. assert (Z : fsqrt (1 / (1 * 1)) = (0 : F)).
    { rewrite <- C'. remember (fsqrt (1 / (1 * 1))) as z. ring. }
    rewrite Z in Q. assert (N1 : (1 : F) = 0).
    { transitivity (1 / (1 * 1) : F); [field; apply (F_1_neq_0 fth)|]. rewrite <- Q. ring. }
    apply (F_1_neq_0 fth). exact N1.
  Qed.
End C84.

Section C85.
  Context {F : Type} {K : Fld F} {O : OFld (F := F)} {SQ : SqrtFld F}.
  Open Scope fld_scope.

  (** ** C85 *)
  (** The matrix of several probes: one block per pair of probes, whichever
      orientation is stored, restricted to the multipoles common to all. *)
  Theorem C85_matrix nb probes md (ld : dict string (list F)) : good_blocks nb probes md ld -> probes <> [] ->
    exists ells m, xc_matrix probes md ld = Ok (ells, m) /\ increasing ells /\
      (forall x, In x ells <-> forall p q, In p probes -> In q probes -> In x (pair_ells md ld p q)) /\
      laid ells (positions nb probes) (positions nb probes) (pair_value md ld) m.
  Proof. intros G N. exact (xc_matrix_ok nb probes md ld G N). Qed.
  (** It is symmetric when the auto-correlations are. *)
  Theorem C85_symmetric nb probes md (ld : dict string (list F)) ells m : good_blocks nb probes md ld -> probes <> [] -> xc_matrix probes md ld = Ok (ells, m) ->
    (forall p l c M i j, pair_block md ld p p = Some (l, c) -> In M (crows c) -> M i j = M j i) ->
    forall M r s, In M (crows m) -> (r < cnr m)%nat -> (s < cnr m)%nat -> M r s = M s r.
  Proof.
    intros G N E Sy M r s HM Hr Hs. destruct (xc_matrix_ok nb probes md ld G N) as (ells' & m' & E' & _ & _ & (L1 & L2 & L3 & L4)). rewrite E in E'. injection E' as <- <-.
    apply In_nth_error in HM. destruct HM as (t & Ht). destruct (nth_error ells t) as [x|] eqn:Ex.
    2:{ apply nth_error_None in Ex. assert (nth_error (crows m) t <> None) by congruence. apply nth_error_Some in H. lia. }
    rewrite L1 in Hr, Hs. destruct (nth_error (positions nb probes) r) as [[p i]|] eqn:Er; [|apply nth_error_None in Er; lia].
    destruct (nth_error (positions nb probes) s) as [[q j]|] eqn:Es; [|apply nth_error_None in Es; lia].
    pose proof (L4 t x M r s _ _ Ex Ht Er Es) as G1. pose proof (L4 t x M s r _ _ Ex Ht Es Er) as G2.
    assert (Hp : In p probes) by (apply nth_error_In in Er; apply (positions_In nb probes) in Er; tauto).
    assert (Hq : In q probes) by (apply nth_error_In in Es; apply (positions_In nb probes) in Es; tauto).
    unfold pair_value in G1, G2. cbn [fst snd] in G1, G2. destruct (string_dec p q) as [->|Npq].
    - destruct (pair_block md ld q q) as [[l c]|] eqn:Eb; [|discriminate]. destruct (row_at l (crows c) x) as [M0|] eqn:Ero; [|discriminate]. cbn [option_map] in G1, G2.
      assert (In M0 (crows c)).
      { unfold row_at in Ero. destruct (find _ _) as [[y M1]|] eqn:Ef; [|discriminate]. cbn in Ero. assert (M1 = M0) by congruence. subst M1. apply find_some in Ef. destruct Ef as [Ef _]. eapply in_combine_r. exact Ef. }
      pose proof (Sy q l c M0 i j Eb H). congruence.
    - destruct (pair_block md ld p q) as [[l c]|] eqn:Eb.
      + assert (Eb' : pair_block md ld q p = None).
        { destruct (pair_block md ld q p) as [[l' c']|] eqn:Eb'; [|reflexivity]. exfalso. unfold pair_block in Eb, Eb'.
          destruct (dget String.eqb md (comb_key p q)) eqn:X1; [|discriminate]. destruct (G p q Hp Hq) as (_ & G2' & _). rewrite X1 in G2'. rewrite (G2' Npq) in Eb' by discriminate. discriminate. }
        rewrite Eb' in G2. congruence.
      + destruct (pair_block md ld q p) as [[l c]|]; congruence.
  Qed.
  (** A pair stored in neither orientation is an error. *)
  Theorem C85_missing_pair probes md (ld : dict string (list F)) p q : In p probes -> In q probes ->
    dget String.eqb md (comb_key p q) = None -> dget String.eqb md (comb_key q p) = None -> xc_matrix (F := F) probes md ld = Err EKeyError.
  Proof.
    intros Hp Hq E1 E2. destruct (pairs2_all _ _ _ Hp Hq) as [H|H]; [apply (xc_matrix_missing probes md ld p q)|apply (xc_matrix_missing probes md ld q p)]; assumption.
  Qed.
  (** Names: the probes can be read back, so groups of probes never share a name. *)
  Theorem C85_names ps : Forall plain ps -> probes_of_name (xc_name ps) = ps.
  Proof. apply name_round_trip. Qed.
  Theorem C85_distinct_names ps qs : Forall plain ps -> Forall plain qs -> xc_name ps = xc_name qs -> ps = qs.
  Proof. apply xc_name_inj. Qed.
  (** The groups: all probes, and every pair when there are more than two. *)
  Theorem C85_groups probes : NoDup probes -> (2 <= length probes)%nat ->
    In probes (xc_groups probes) /\ (forall p q, In p probes -> In q probes -> p <> q -> length probes = 2%nat \/ In [p; q] (xc_groups probes) \/ In [q; p] (xc_groups probes)) /\
    NoDup (xc_groups probes) /\ forall g, In g (xc_groups probes) -> g = probes \/ exists p q, g = [p; q] /\ In p probes /\ In q probes /\ p <> q.
  Proof.
    intros N L. pose proof (xc_groups_nodup probes N) as Nx. unfold xc_groups in *. destruct (Nat.leb_spec (length probes) 1) as [Hl|Hl]; [lia|].
    split; [left; reflexivity|]. split.
    - intros p q Hp Hq Npq. destruct (Nat.ltb_spec 2 (length probes)) as [L2|L2]; [right|left; lia].
      destruct (pairs_lt_all probes p q Hp Hq Npq) as [H|H]; [left|right]; right; apply in_map_iff; [exists (p, q)|exists (q, p)]; split; auto.
    - split; [exact Nx|]. intros g [<-|Hg]; [left; reflexivity|]. destruct (Nat.ltb_spec 2 (length probes)); [|destruct Hg]. apply in_map_iff in Hg. destruct Hg as ([p q] & <- & Hpq).
      right. exists p, q. split; [reflexivity|]. destruct (pairs_lt_In _ _ _ Hpq). destruct (pairs_lt_nodup probes N) as [_ Nn]. destruct (Nn p q Hpq). auto.
  Qed.
  (** A single probe gives no group. *)
  Theorem C85_single probes fc (cl : dcoll F) : dkeys (fc_probes fc) = probes -> (length probes <= 1)%nat -> build_xc fc cl = Ok cl.
  Proof. intros E L. unfold build_xc, xc_groups. rewrite E. destruct (Nat.leb_spec (length probes) 1); [reflexivity|lia]. Qed.

  (** Building: each group gets an entry with its matrix, and the inverse of it;
      the single blocks stay as they are. *)
  Theorem C85_built fc (cl cl' : dcoll F) : Forall plain (dkeys (fc_probes fc)) -> NoDup (dkeys (fc_probes fc)) -> build_xc fc cl = Ok cl' ->
    singles cl' = singles cl /\ (forall r, (r < length (heap cl))%nat -> deref cl' r = deref cl r) /\
    (forall k, (forall g, In g (xc_groups (dkeys (fc_probes fc))) -> k <> xc_name g) -> dget String.eqb (entries cl') k = dget String.eqb (entries cl) k) /\
    forall g, In g (xc_groups (dkeys (fc_probes fc))) -> exists r ells m I, dget String.eqb (entries cl') (xc_name g) = Some r /\
      xc_matrix g (delta_arrays cl) (ell_arrays cl) = Ok (ells, m) /\
      b_name (deref cl' r) = xc_name g /\ b_ells (deref cl' r) = ells /\ b_delta (deref cl' r) = Some m /\ b_inv (deref cl' r) = Some I /\
      (cnr m = cnc m -> length I = length (crows m) /\ forall t M J, nth_error (crows m) t = Some M -> nth_error I t = Some J -> inverse_at (cnr m) M J).
  Proof.
    intros P N H. unfold build_xc in H. destruct (add_fold _ _ _ _ _ H (xc_names_nodup _ N P)) as (A & B & _ & C & D).
    split; [exact A|]. split; [exact B|]. split.
    - intros k Hk. apply C. intros Hin. apply in_map_iff in Hin. destruct Hin as (g & E & Hg). exact (Hk g Hg (eq_sym E)).
    - intros g Hg. destruct (D g Hg) as (r & ells & m & I & G & _ & _ & Em & EI & Ed). exists r, ells, m, I. rewrite Ed. cbn. repeat split; auto.
      + destruct (cube_inv_spec m (cnr m) I eq_refl (eq_sym H0) EI). assumption.
      + destruct (cube_inv_spec m (cnr m) I eq_refl (eq_sym H0) EI) as [_ V]. apply (V t M J); assumption.
      + destruct (cube_inv_spec m (cnr m) I eq_refl (eq_sym H0) EI) as [_ V]. apply (V t M J); assumption.
  Qed.
  (** The matrix can be inverted when the spectra of all probes together are
      positive semi-definite and the noise is positive in every bin. *)
  Theorem C85_invertible nb probes md (ld : dict string (list F)) ells m (k : F -> F) (C : F -> string * nat -> string * nat -> F) (N : F -> string * nat -> F) :
    good_blocks nb probes md ld -> probes <> [] -> NoDup probes -> xc_matrix probes md ld = Ok (ells, m) ->
    (forall x u v, In x ells -> In u (positions nb probes) -> In v (positions nb probes) ->
       pair_value md ld x u v = Some (k x * (C x u v + if (if string_dec (fst u) (fst v) then Nat.eqb (snd u) (snd v) else false) then N x u else 0))) ->
    (forall x, In x ells -> flt 0 (k x)) -> (forall x u, In x ells -> In u (positions nb probes) -> flt 0 (N x u)) ->
    (forall x, In x ells -> semidefinite (length (positions nb probes)) (fun i j => C x (nth i (positions nb probes) (""%string, 0%nat)) (nth j (positions nb probes) (""%string, 0%nat)))) ->
    exists I, cube_inv m = Ok I.
  Proof.
    intros G Np Nd E V Pk Pn Sd. destruct (xc_matrix_ok nb probes md ld G Np) as (ells' & m' & E' & _ & _ & (L1 & L2 & L3 & L4)). rewrite E in E'. injection E' as <- <-.
    apply (cube_inv_ok_all m (length (positions nb probes)) L1 L2). intros M HM. apply In_nth_error in HM. destruct HM as (t & Ht).
    destruct (nth_error ells t) as [x|] eqn:Ex.
    2:{ apply nth_error_None in Ex. assert (nth_error (crows m) t <> None) by congruence. apply nth_error_Some in H. lia. }
    assert (Hx : In x ells) by (eapply nth_error_In; exact Ex). set (P := positions nb probes) in *. set (z := (""%string, 0%nat)) in *.
    apply (regular_noisy (length P) M (fun i j => C x (nth i P z) (nth j P z)) (fun i j => if Nat.eqb i j then N x (nth i P z) else 0) (k x) (fun i => N x (nth i P z))).
    - intros i j Hi Hj. pose proof (nth_error_nth' P z Hi) as Ei. pose proof (nth_error_nth' P z Hj) as Ej.
      pose proof (L4 t x M i j _ _ Ex Ht Ei Ej) as Q. rewrite (V x _ _ Hx (nth_In _ _ Hi) (nth_In _ _ Hj)) in Q.
      assert (Eb : (if string_dec (fst (nth i P z)) (fst (nth j P z)) then Nat.eqb (snd (nth i P z)) (snd (nth j P z)) else false) = Nat.eqb i j).
      { pose proof (positions_NoDup nb probes Nd) as NP. fold P in NP. destruct (Nat.eqb_spec i j) as [->|Nij].
        - destruct (string_dec _ _); [apply Nat.eqb_refl|congruence].
        - destruct (string_dec _ _) as [E1|]; [|reflexivity]. apply Nat.eqb_neq. intros E2. apply Nij. apply (proj1 (NoDup_nth P z) NP i j Hi Hj).
          destruct (nth i P z), (nth j P z). cbn in E1, E2. congruence. }
      rewrite Eb in Q. congruence.
    - apply Pk. exact Hx.
    - intros i j _ _. reflexivity.
    - intros i Hi. apply Pn; [exact Hx|]. apply nth_In. exact Hi.
    - apply Sd. exact Hx.
  Qed.

  (** The stage: after it every group of probes has a matrix made of the noisy
      spectra of the single blocks. *)
  Theorem C85_stage fc cls (cl : dcoll F) nb g : keyed cls -> Forall plain (dkeys (fc_probes fc)) -> NoDup (dkeys (fc_probes fc)) ->
    compute_delta_cls fc None cls = Ok cl -> In g (xc_groups (dkeys (fc_probes fc))) -> good_blocks nb g (delta_arrays cl) (ell_arrays cl) ->
    exists r m I, dget String.eqb (entries cl) (xc_name g) = Some r /\ b_delta (deref cl r) = Some m /\ b_inv (deref cl r) = Some I /\
      increasing (b_ells (deref cl r)) /\
      (forall x, In x (b_ells (deref cl r)) <-> forall p q, In p g -> In q g -> In x (pair_ells (delta_arrays cl) (ell_arrays cl) p q)) /\
      laid (b_ells (deref cl r)) (positions nb g) (positions nb g) (pair_value (delta_arrays cl) (ell_arrays cl)) m /\
      forall t M J, nth_error (crows m) t = Some M -> nth_error I t = Some J -> inverse_at (length (positions nb g)) M J.
  Proof.
    intros Ky P N H Hg G. destruct (stage_inv fc cls cl Ky H) as (c1 & c4 & _ & T1 & _ & _ & Ex & S4 & Scl & _ & Dr & _).
    assert (D1 : delta_arrays c4 = delta_arrays cl).
    { unfold delta_arrays. rewrite S4, Scl. apply map_ext_in. intros [k r] Hin. cbn [fst snd]. rewrite (Dr r); [reflexivity|]. apply (in_map snd) in Hin. exact Hin. }
    assert (D2 : ell_arrays c4 = ell_arrays cl).
    { unfold ell_arrays. rewrite S4, Scl. apply map_ext_in. intros [k r] Hin. cbn [fst snd]. rewrite (Dr r); [reflexivity|]. apply (in_map snd) in Hin. exact Hin. }
    destruct (C85_built fc c4 cl P N Ex) as (_ & _ & _ & B). destruct (B g Hg) as (r & ells & m & I & Ge & Em & _ & Be & Bd & Bi & Inv). rewrite D1, D2 in Em.
    assert (Ng : g <> []) by (intros ->; destruct (xc_groups_len _ _ Hg) as [L _]; cbn in L; lia).
    destruct (xc_matrix_ok nb g _ _ G Ng) as (ells' & m' & Em' & Si & Mi & La). rewrite Em in Em'. injection Em' as <- <-.
    exists r, m, I. rewrite Be. repeat (split; [assumption|]). destruct La as (L1 & L2 & _). rewrite <- L1. apply Inv. congruence.
  Qed.

  (** The matrices are copies: evaluating the single blocks again, with another
      fraction of the sky, leaves them as they were until they are built again. *)
  Theorem C85_not_updated fc fs (cl cl1 cl2 : dcoll F) : tidy cl -> Forall plain (dkeys (fc_probes fc)) -> NoDup (dkeys (fc_probes fc)) ->
    build_xc fc cl = Ok cl1 -> evaluate_singles fc fs cl1 = Ok cl2 ->
    forall g r, In g (xc_groups (dkeys (fc_probes fc))) -> dget String.eqb (entries cl1) (xc_name g) = Some r -> deref cl2 r = deref cl1 r.
  Proof.
    intros (T1 & T2 & T3) P N H E g r Hg Hr. unfold build_xc in H. destruct (add_fold _ _ _ _ _ H (xc_names_nodup _ N P)) as (A & B & Lh & C & D).
    destruct (D g Hg) as (r' & ells & m & I & G & Lr & _). assert (r' = r) by congruence. subst r'.
    assert (T' : tidy cl1). { unfold tidy. rewrite A. repeat split; auto. intros x Hx. apply T3 in Hx. lia. }
    destruct (evaluate_singles_inv _ _ _ _ E T') as (_ & _ & _ & _ & Ot & _). apply Ot. rewrite A. intros Hin. apply T3 in Hin. lia.
  Qed.
End C85.

Section Success.
  Context {F : Type} {K : Fld F} {O : OFld (F := F)} {SQ : SqrtFld F}.
  Open Scope fld_scope.

  Lemma add_fold_ok md (ld : dict string (list F)) gs : (forall g, In g gs -> exists ells m I, xc_matrix g md ld = Ok (ells, m) /\ cube_inv m = Ok I) ->
    forall cl : dcoll F, exists cl', rfold (add_xc md ld) gs cl = Ok cl'.
  Proof.
    induction gs as [|g gs IH]; intros H cl; [exists cl; reflexivity|]. cbn [rfold]. destruct (H g (or_introl eq_refl)) as (ells & m & I & E1 & E2).
    unfold add_xc at 1. rewrite E1. cbn [rbind fst snd]. unfold new_block at 1. rewrite E2. cbn [rbind]. apply IH. intros g' Hg'. apply H. right; exact Hg'.
  Qed.
  (** The stage succeeds when every spectrum can be evaluated and every group of
      probes has an invertible matrix. *)
  Theorem C85_stage_succeeds fc (cls : dict string (acl F)) : keyed cls ->
    (forall k a, In (k, a) cls -> exists b, evaluate fc None (from_cl (if String.eqb (a_p1 a) (a_p2 a) then a_p1 a else k) a) = Ok b) ->
    (forall md ld, dkeys md = dkeys cls -> dkeys ld = dkeys cls ->
       (forall k a, In (k, a) cls -> exists b, evaluate fc None (from_cl (if String.eqb (a_p1 a) (a_p2 a) then a_p1 a else k) a) = Ok b /\
          dget String.eqb md k = Some (b_delta b) /\ dget String.eqb ld k = Some (a_ells a)) ->
       forall g, In g (xc_groups (dkeys (fc_probes fc))) -> exists ells m I, xc_matrix g md ld = Ok (ells, m) /\ cube_inv m = Ok I) ->
    exists cl, compute_delta_cls fc None cls = Ok cl.
  Proof.
    intros Ky Ev Hx. destruct (load_keyed cls Ky) as (c1 & E1 & T1 & _ & Ek & L1 & L2). unfold compute_delta_cls. rewrite E1. cbn [rbind].
    assert (Nm : forall k a, In (k, a) cls -> (if String.eqb (a_p1 a) (a_p2 a) then a_p1 a else k) = block_name a).
    { intros k a Hin. destruct Ky as [_ Hk]. destruct (Hk k a Hin) as (-> & _). reflexivity. }
    assert (S : exists c4, evaluate_singles fc None c1 = Ok c4).
    { apply (evaluate_fold_ok fc None (singles c1) c1); [apply T1|apply T1|]. intros k r Hin. destruct (L2 k r Hin) as (a & Ha & ->). destruct (Ev k a Ha) as (b & Eb). rewrite (Nm k a Ha) in Eb. eauto. }
    destruct S as (c4 & E4). rewrite E4. cbn [rbind]. destruct (evaluate_singles_inv _ _ _ _ E4 T1) as (T4 & S4 & _ & V4 & _ & _).
    unfold build_xc. apply add_fold_ok. apply Hx.
    - unfold delta_arrays, dkeys. rewrite map_map. cbn [fst]. rewrite S4. exact Ek.
    - unfold ell_arrays, dkeys. rewrite map_map. cbn [fst]. rewrite S4. exact Ek.
    - intros k a Hin. destruct (L1 k a Hin) as (r & Hr & D). exists (deref c4 r). rewrite (Nm k a Hin). pose proof (V4 k r Hr) as Ev4. rewrite D in Ev4. split; [exact Ev4|].
      pose proof (@dget_NoDup_In _ _ String.eqb String.eqb_spec _ _ _ (proj1 T1) Hr) as Gr. rewrite <- S4 in Gr.
      assert (Gm : forall (W : Type) (f : nat -> W) l, dget String.eqb l k = Some r -> dget String.eqb (map (fun kr : string * nat => (fst kr, f (snd kr))) l) k = Some (f r)).
      { clear. intros W f l. induction l as [|[k0 r0] l IH]; [discriminate|]. cbn. destruct (String.eqb k0 k); [congruence|exact IH]. }
      split; [apply (Gm _ (fun r => b_delta (deref c4 r))); exact Gr|].
      unfold ell_arrays. rewrite (Gm _ (fun r => b_ells (deref c4 r))) by exact Gr. f_equal.
      destruct (evaluate_noise _ _ _ _ Ev4) as (n & _ & _ & _ & _ & _ & _ & Be & _). rewrite Be. reflexivity.
  Qed.
End Success.
