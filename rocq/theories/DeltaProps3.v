(** Instances of the theorems on noisy spectra, and their assumptions. *)
From Verif Require Import Base SortLib StrLib MatInv LinalgModel LinalgLemmas EvalModel EvalSpec EllLemmas CovLemmas CovLemmas2 FrameModel
  KeyModel KeySpec KeyLemmas NameModel NameLemmas OrdLib FishEval FishEval4 ConfigLemmas DeltaModel DeltaSpec DeltaLemmas DeltaLemmas2 DeltaLemmas3 DeltaLemmas4 DeltaProps DeltaProps2.
From Coq Require Import Field.
Open Scope list_scope.

Section Instances.
  Context {F : Type} {K : Fld F} {O : OFld (F := F)} {SQ : SqrtFld F}.
  Add Field FfD3 : (fth (F := F)).
  Open Scope fld_scope.

  (** Lensing with two bins and voids with one; the spectra at one multipole. *)
  Definition ex_d1 : density F := mkDens true [0; 1; 1 + 1] (Some [1; 1 + 1]) (fun a b => b - a) None 1.
  Definition ex_d2 : density F := mkDens true [0; 1] (Some [1]) (fun a b => b - a) None 1.
  Definition ex_fc : fconf F := mkFc [("Lensing"%string, ex_d1); ("Void"%string, ex_d2)] 1 false 1.
  Definition ex_acl (p q : string) (n m : nat) (x : F) : acl F := mkAcl p q (crepeat n m 1 (fun _ _ => x)) [1] [1].
  Definition ex_cls : dict string (acl F) :=
    [("Lensing_Lensing"%string, ex_acl "Lensing" "Lensing" 2 2 1); ("Lensing_Void"%string, ex_acl "Lensing" "Void" 2 1 1); ("Void_Void"%string, ex_acl "Void" "Void" 1 1 1)].
  Lemma ex_keyed : keyed ex_cls.
  Proof.
    split.
    - cbn [ex_cls dkeys map fst]. repeat constructor; intros C; cbn in C; repeat (destruct C as [C|C]; [discriminate C|]); destruct C.
    - intros k a [E|[E|[E|[]]]]; injection E as <- <-; repeat split.
  Qed.
  Lemma ones_semidefinite n : semidefinite n (fun _ _ => 1 : F).
  Proof.
    intros y. unfold form.
    assert (E : Fsum (fun i => Fsum (fun j => y i * 1 * y j) (seq 0 n)) (seq 0 n) = Fsum y (seq 0 n) * Fsum y (seq 0 n)).
    { transitivity (Fsum (fun i => y i * Fsum y (seq 0 n)) (seq 0 n)).
      - apply Fsum_ext. intros i _. rewrite <- Fsum_scale. apply Fsum_ext. intros j _. ring.
      - rewrite Fsum_scale_r. reflexivity. }
    rewrite E. destruct (fdec (Fsum y (seq 0 n)) 0) as [->|N]; [replace (0 * 0) with (0 : F) by ring; apply fle_refl|]. apply flt_le. apply sq_pos. exact N.
  Qed.
  Lemma two_pos : flt 0 (1 + 1 : F).
  Proof. rewrite <- (Radd_0_l (F_R fth) (0 : F)) at 1. apply flt_add2; apply flt_0_1. Qed.
  Lemma ex_divisible : divisible ex_fc.
  Proof. split; [apply (F_1_neq_0 fth)|]. intros dp sp H. cbn in H. discriminate. Qed.

  Lemma ex_auto name p d n s f : dget String.eqb (fc_probes ex_fc) p = Some d -> n_bins d = n -> surface d = Ok s -> noise_factor p = Ok f ->
    (p = "SpectroscopicGalaxy"%string -> fc_reduced ex_fc = false) -> Forall (flt 0) s -> exists b, evaluate ex_fc None (from_cl name (ex_acl p p n n 1)) = Ok b.
  Proof.
    intros Hd Hn Hs Hf Hr Ps. destruct (C83_auto_succeeds ex_fc None (from_cl name (ex_acl p p n n 1)) p d (crepeat n n 1 (fun _ _ => 1)) [1] s f) as (b & D & I & Eb & _); auto.
    - constructor; [apply flt_0_1|constructor].
    - apply flt_0_1.
    - intros M [<-|[]]. apply ones_semidefinite.
    - exists b. exact Eb.
  Qed.
  Lemma ex_singles k a : In (k, a) ex_cls -> exists b, evaluate ex_fc None (from_cl (if String.eqb (a_p1 a) (a_p2 a) then a_p1 a else k) a) = Ok b.
  Proof.
    intros [E|[E|[E|[]]]]; injection E as <- <-.
    - apply (ex_auto "Lensing" "Lensing" ex_d1 2%nat [1; 1 + 1] _ eq_refl eq_refl eq_refl eq_refl); [discriminate|]. constructor; [apply flt_0_1|]. constructor; [apply two_pos|constructor].
    - apply evaluate_build with (n := crepeat 2 1 1 (fun _ _ => 0)) (ws := [1]) (c := crepeat 2 1 1 (fun _ _ => 1))
        (s := mkCube 2 1 (map (fun t i j => cell (crepeat 2 1 1 (fun _ _ => 1)) t i j + cell (crepeat 2 1 1 (fun _ _ => 0)) t i j) (seq 0 1)))
        (d := match cop fmul (norm_cube (eff ex_fc None) [1]) (mkCube 2 1 (map (fun t i j => cell (crepeat 2 1 1 (fun _ _ => 1)) t i j + cell (crepeat 2 1 1 (fun _ _ => 0)) t i j) (seq 0 1))) with Ok d => d | _ => crepeat 0 0 0 (fun _ _ => 0) end);
        [reflexivity|reflexivity|reflexivity|reflexivity|reflexivity|discriminate].
    - apply (ex_auto "Void" "Void" ex_d2 1%nat [1] _ eq_refl eq_refl eq_refl eq_refl); [discriminate|]. constructor; [apply flt_0_1|constructor].
  Qed.

  (** The noise of lensing is 0.09 divided by the density of the bin. *)
  Example C83_instance : exists b d, evaluate ex_fc None (from_cl "Lensing" (ex_acl "Lensing" "Lensing" 2 2 1)) = Ok b /\ b_delta b = Some d /\
    at3 d 0 0 1 = Some (fsqrt (1 / (1 * 1)) * (1 + 0)) /\
    at3 d 0 1 1 = Some (fsqrt (1 / (1 * 1)) * (1 + 1 * (fn 3 / fn 10 * (fn 3 / fn 10)) / (1 + 1))).
  Proof.
    destruct (ex_singles _ _ (or_introl eq_refl)) as (b & Eb). change (if String.eqb _ _ then _ else _) with "Lensing"%string in Eb.
    destruct (C83_entries ex_fc None _ b "Lensing" "Lensing" (crepeat 2 2 1 (fun _ _ => 1)) [1] Eb ex_divisible eq_refl eq_refl eq_refl eq_refl eq_refl eq_refl) as (n & d & _ & Ed & _ & _ & V & _).
    { intros dd _ Hd. cbn in Hd. injection Hd as <-. split; reflexivity. }
    exists b, d. split; [exact Eb|]. split; [exact Ed|]. split.
    - destruct (V 0%nat 0%nat 1%nat 1 1 eq_refl eq_refl) as (y & Sy & _ & E). rewrite E. unfold shot in Sy. rewrite String.eqb_refl in Sy.
      destruct Sy as (dd & f & x & r & _ & _ & _ & _ & Ey). cbn [Nat.eqb] in Ey. rewrite Ey. reflexivity.
    - destruct (V 0%nat 1%nat 1%nat 1 1 eq_refl eq_refl) as (y & Sy & _ & E). rewrite E. unfold shot in Sy. rewrite String.eqb_refl in Sy.
      destruct Sy as (dd & f & x & r & Hd & Hf & Hx & Hr & Ey). cbn in Hd. assert (dd = ex_d1) by congruence. subst dd. cbn [Nat.eqb] in Ey. rewrite Ey.
      destruct Hx as (l & El & Hl). cbn in El. assert (l = [1; 1 + 1]) by congruence. subst l. cbn in Hl. assert (x = 1 + 1) by congruence. subst x.
      cbn in Hr. subst r. assert (Ef : f = fn 3 / fn 10 * (fn 3 / fn 10)).
      { rewrite (factor_spec "Lensing" _ eq_refl fn10) in Hf. congruence. }
      rewrite Ef. reflexivity.
  Qed.

  (** The noisy spectra of the example. *)
  Lemma ex_delta k a b : In (k, a) ex_cls -> evaluate ex_fc None (from_cl (if String.eqb (a_p1 a) (a_p2 a) then a_p1 a else k) a) = Ok b ->
    exists d, b_delta b = Some d /\ shape d 1 (cnr (a_c a)) (cnc (a_c a)) /\
      forall i j, (i < cnr (a_c a))%nat -> (j < cnc (a_c a))%nat -> exists y, shot ex_fc (a_p1 a) (a_p2 a) i j y /\ at3 d 0 i j = Some (fsqrt (1 / (1 * 1)) * (1 + y)).
  Proof.
    intros Hin Eb. assert (Hc : a_c a = crepeat (cnr (a_c a)) (cnc (a_c a)) 1 (fun _ _ => 1) /\ a_widths a = [1] /\
       forall dd, a_p1 a = a_p2 a -> dget String.eqb (fc_probes ex_fc) (a_p1 a) = Some dd -> cnr (a_c a) = n_bins dd /\ cnc (a_c a) = n_bins dd).
    { destruct Hin as [E|[E|[E|[]]]]; injection E as <- <-; (split; [reflexivity|]); (split; [reflexivity|]); intros dd Ep Hd; cbn in Ep, Hd; try discriminate; injection Hd as <-; split; reflexivity. }
    destruct Hc as (Ec & Ew & Hb).
    destruct (C83_entries ex_fc None _ b (a_p1 a) (a_p2 a) (a_c a) (a_widths a) Eb ex_divisible eq_refl eq_refl eq_refl eq_refl eq_refl) as (n & d & _ & Ed & _ & Sd & V & _).
    - rewrite Ew, Ec. reflexivity.
    - exact Hb.
    - exists d. split; [exact Ed|]. rewrite Ew in Sd. split; [exact Sd|]. intros i j Hi Hj. destruct (V 0%nat i j 1 1) as (y & Sy & _ & E); [rewrite Ew; reflexivity| |].
      + rewrite Ec. exact (at3_crepeat (cnr (a_c a)) (cnc (a_c a)) 1 (fun _ _ => 1) 0 i j (Nat.lt_0_succ 0) Hi Hj).
      + exists y. split; [exact Sy|exact E].
  Qed.
  Definition ex_nb (p : string) : nat := if String.eqb p "Lensing" then 2%nat else 1%nat.
  Definition ex_noise (u : string * nat) : F :=
    if String.eqb (fst u) "Lensing" then 1 * (fn 3 / fn 10 * (fn 3 / fn 10)) / (if Nat.eqb (snd u) 0 then 1 else 1 + 1) else 1 * 1 / 1.
  Lemma ex_shot p q i j y : In p ["Lensing"; "Void"]%string -> In q ["Lensing"; "Void"]%string -> (i < ex_nb p)%nat -> (j < ex_nb q)%nat -> shot ex_fc p q i j y ->
    y = if (if string_dec p q then Nat.eqb i j else false) then ex_noise (p, i) else 0.
  Proof.
    intros Hp Hq Hi Hj H. unfold shot in H. destruct (String.eqb_spec p q) as [->|N].
    - destruct (string_dec q q) as [_|C]; [|congruence]. destruct H as (dd & f & x & r & Hd & Hf & Hx & Hr & ->). destruct (Nat.eqb i j); [|reflexivity].
      destruct Hq as [<-|[<-|[]]]; cbn in Hd; injection Hd as <-; destruct Hx as (l & El & Hl); cbn in El; injection El as <-; cbn in Hr; subst r; unfold ex_noise; cbn [fst snd].
      + change (String.eqb "Lensing" "Lensing") with true. cbv iota.
        assert (Ef : f = fn 3 / fn 10 * (fn 3 / fn 10)).
        { rewrite (factor_spec "Lensing" _ eq_refl fn10) in Hf. congruence. }
        rewrite Ef. destruct i as [|[|i]]; [| |cbn in Hi; lia]; cbn in Hl; assert (Ex : Some x = Some x) by reflexivity; cbn [Nat.eqb]; congruence.
      + change (String.eqb "Void" "Lensing") with false. cbv iota. assert (Ef : f = 1) by (cbn in Hf; congruence). rewrite Ef. destruct i as [|i]; [|cbn in Hi; lia]. cbn in Hl. congruence.
    - destruct (string_dec p q); [congruence|exact H].
  Qed.
  Lemma ex_noise_pos u : flt 0 (ex_noise u).
  Proof.
    unfold ex_noise. destruct (String.eqb (fst u) "Lensing").
    - apply fdiv_pos.
      + apply flt_mul; [apply flt_0_1|]. apply flt_mul; apply fdiv_pos; apply fn_pos.
      + destruct (Nat.eqb (snd u) 0); [apply flt_0_1|apply two_pos].
    - apply fdiv_pos; [apply flt_mul; apply flt_0_1|apply flt_0_1].
  Qed.
  Lemma ex_probes g : In g (xc_groups (dkeys (fc_probes ex_fc))) -> g = ["Lensing"; "Void"]%string.
  Proof. cbn. intros [<-|[]]. reflexivity. Qed.
  Lemma ex_good md (ld : dict string (list F)) : dkeys md = dkeys ex_cls ->
    (forall k a, In (k, a) ex_cls -> exists b, evaluate ex_fc None (from_cl (if String.eqb (a_p1 a) (a_p2 a) then a_p1 a else k) a) = Ok b /\
          dget String.eqb md k = Some (b_delta b) /\ dget String.eqb ld k = Some (a_ells a)) ->
    good_blocks ex_nb ["Lensing"; "Void"]%string md ld /\ 
    forall x u v, In x [1] -> In u (positions ex_nb ["Lensing"; "Void"]%string) -> In v (positions ex_nb ["Lensing"; "Void"]%string) ->
       pair_value md ld x u v = Some (fsqrt (1 / (1 * 1)) * (1 + if (if string_dec (fst u) (fst v) then Nat.eqb (snd u) (snd v) else false) then ex_noise u else 0)).
  Proof.
    intros Ek H.
    assert (Miss : dget String.eqb md "Void_Lensing" = None).
    { destruct (dget String.eqb md "Void_Lensing") eqn:E; [|reflexivity]. apply (dget_In _ String.eqb_spec) in E. apply (in_map fst) in E. change (map fst md) with (dkeys md) in E. rewrite Ek in E.
      cbn in E. repeat (destruct E as [E|E]; [discriminate E|]). destruct E. }
    assert (St : forall k a, In (k, a) ex_cls -> exists d, dget String.eqb md k = Some (Some d) /\ dget String.eqb ld k = Some [1] /\ shape d 1 (cnr (a_c a)) (cnc (a_c a)) /\
       forall i j, (i < cnr (a_c a))%nat -> (j < cnc (a_c a))%nat -> exists y M, shot ex_fc (a_p1 a) (a_p2 a) i j y /\ crows d = [M] /\ M i j = fsqrt (1 / (1 * 1)) * (1 + y)).
    { intros k a Hin. destruct (H k a Hin) as (b & Eb & Gm & Gl). destruct (ex_delta k a b Hin Eb) as (d & Ed & Sd & V). exists d. rewrite Ed in Gm. split; [exact Gm|].
      split; [rewrite Gl; destruct Hin as [E|[E|[E|[]]]]; injection E as <- <-; reflexivity|]. split; [exact Sd|]. intros i j Hi Hj. destruct (V i j Hi Hj) as (y & Sy & E).
      destruct Sd as (S1 & S2 & S3). destruct (crows d) as [|M [|? ?]] eqn:Er; try discriminate. exists y, M. split; [exact Sy|]. split; [reflexivity|].
      unfold at3 in E. rewrite Er in E. cbn [nth_error] in E. rewrite S2, S3 in E. destruct (Nat.ltb_spec i (cnr (a_c a))); [|lia]. destruct (Nat.ltb_spec j (cnc (a_c a))); [|lia]. cbn [andb] in E. congruence. }
    destruct (St _ _ (or_introl eq_refl)) as (d1 & M1 & L1 & S1 & V1). destruct (St _ _ (or_intror (or_introl eq_refl))) as (d2 & M2 & L2 & S2 & V2).
    destruct (St _ _ (or_intror (or_intror (or_introl eq_refl)))) as (d3 & M3 & L3 & S3 & V3). cbn [a_c ex_acl cnr cnc crepeat a_p1 a_p2] in *.
    assert (Inc : increasing [1 : F]) by (repeat constructor).
    assert (B1 : pair_block md ld "Lensing" "Lensing" = Some ([1], d1)) by (unfold pair_block; change (comb_key "Lensing" "Lensing") with "Lensing_Lensing"%string; rewrite M1, L1; reflexivity).
    assert (B2 : pair_block md ld "Lensing" "Void" = Some ([1], d2)) by (unfold pair_block; change (comb_key "Lensing" "Void") with "Lensing_Void"%string; rewrite M2, L2; reflexivity).
    assert (B3 : pair_block md ld "Void" "Void" = Some ([1], d3)) by (unfold pair_block; change (comb_key "Void" "Void") with "Void_Void"%string; rewrite M3, L3; reflexivity).
    assert (B4 : pair_block md ld "Void" "Lensing" = None) by (unfold pair_block; change (comb_key "Void" "Lensing") with "Void_Lensing"%string; rewrite Miss; reflexivity).
    split.
    - intros p q [<-|[<-|[]]] [<-|[<-|[]]];
        [change (comb_key "Lensing" "Lensing") with "Lensing_Lensing"%string|change (comb_key "Lensing" "Void") with "Lensing_Void"%string; change (comb_key "Void" "Lensing") with "Void_Lensing"%string
        |change (comb_key "Lensing" "Void") with "Lensing_Void"%string; change (comb_key "Void" "Lensing") with "Void_Lensing"%string|change (comb_key "Void" "Void") with "Void_Void"%string];
        rewrite ?M1, ?M2, ?M3, ?Miss; (split; [intros; congruence|]); (split; [intros; congruence|]); intros Nn; try congruence.
      + exists [1], d1. destruct S1 as (X & Y & Z). split; [exact B1|]. repeat split; auto.
      + exists [1], d2. destruct S2 as (X & Y & Z). split; [exact B2|]. repeat split; auto.
      + exists [1], d3. destruct S3 as (X & Y & Z). split; [exact B3|]. repeat split; auto.
    - intros x [p i] [q j] [<-|[]] Hu Hv. apply (positions_In ex_nb) in Hu, Hv. destruct Hu as [Hp Hi], Hv as [Hq Hj].
      assert (Row : forall d M, crows d = [M] -> row_at [1] (crows d) 1 = Some (M : nat -> nat -> F)).
      { intros d M ->. unfold row_at. cbn. destruct (fdec 1 1); [reflexivity|congruence]. }
      assert (Hp' := Hp). assert (Hq' := Hq).
      destruct Hp as [<-|[<-|[]]], Hq as [<-|[<-|[]]]; unfold pair_value; cbn [fst snd]; rewrite ?B1, ?B2, ?B3, ?B4.
      + destruct (V1 i j Hi Hj) as (y & M & Sy & Er & E). rewrite (Row _ _ Er). cbn [option_map]. rewrite E, (ex_shot _ _ _ _ _ Hp' Hq' Hi Hj Sy). reflexivity.
      + destruct (V2 i j Hi Hj) as (y & M & Sy & Er & E). rewrite (Row _ _ Er). cbn [option_map]. rewrite E, (ex_shot _ _ _ _ _ Hp' Hq' Hi Hj Sy). reflexivity.
      + destruct (V2 j i Hj Hi) as (y & M & Sy & Er & E). rewrite (Row _ _ Er). cbn [option_map]. rewrite E, (ex_shot _ _ _ _ _ Hq' Hp' Hj Hi Sy). reflexivity.
      + destruct (V3 i j Hi Hj) as (y & M & Sy & Er & E). rewrite (Row _ _ Er). cbn [option_map]. rewrite E, (ex_shot _ _ _ _ _ Hp' Hq' Hi Hj Sy). reflexivity.
  Qed.

  (** A run with both probes succeeds. *)
  Example C85_instance : exists cl, compute_delta_cls ex_fc None ex_cls = Ok cl.
  Proof.
    apply C85_stage_succeeds; [exact ex_keyed|exact ex_singles|]. intros md ld Km Kl H g Hg. rewrite (ex_probes g Hg).
    destruct (ex_good md ld Km H) as [G V]. destruct (C85_matrix ex_nb _ md ld G ltac:(discriminate)) as (ells & m & E & Si & Mi & La).
    assert (Hx : forall x, In x ells -> In x [1]).
    { intros x Hin. pose proof (proj1 (Mi x) Hin "Lensing"%string "Lensing"%string (or_introl eq_refl) (or_introl eq_refl)) as Q. unfold pair_ells, pair_block in Q.
      change (comb_key "Lensing" "Lensing") with "Lensing_Lensing"%string in Q. destruct (H _ _ (or_introl eq_refl)) as (b & Eb & Gm & Gl).
      destruct (ex_delta _ _ _ (or_introl eq_refl) Eb) as (dd & Ed & _). rewrite Ed in Gm. rewrite Gm, Gl in Q. exact Q. }
    destruct (C85_invertible ex_nb ["Lensing"; "Void"]%string md ld ells m (fun _ => fsqrt (1 / (1 * 1))) (fun _ _ _ => 1) (fun _ u => ex_noise u)) as (I & EI); auto.
    - discriminate.
    - repeat constructor; intros C; cbn in C; repeat (destruct C as [C|C]; [discriminate C|]); destruct C.
    - intros x _. assert (P : flt 0 (1 / (1 * 1) : F)) by (apply fdiv_pos; [apply flt_0_1|apply flt_mul; apply flt_0_1]).
      split; [apply fsqrt_nonneg; apply flt_le; exact P|]. intros E0. pose proof (fsqrt_sq _ (flt_le _ _ P)) as Q. rewrite <- E0 in Q. replace (0 * 0) with (0 : F) in Q by ring. rewrite <- Q in P. exact (flt_irrefl _ P).
    - intros x u _ _. apply ex_noise_pos.
    - intros x _. apply ones_semidefinite.
    - exists ells, m, I. auto.
  Qed.
  Example C84_instance : exists cl nf, compute_delta_cls ex_fc None ex_cls = Ok cl /\ write_noise cl = Ok nf /\
    compute_delta_cls (mkFc [("Lensing"%string, ex_d2); ("Void"%string, ex_d1)] 1 true 0) (Some (Some nf)) ex_cls = Ok cl.
  Proof.
    destruct C85_instance as (cl & E). destruct (stage_inv ex_fc ex_cls cl ex_keyed E) as (c1 & c4 & _ & _ & _ & _ & _ & _ & Scl & _ & _ & V).
    assert (W : exists nf, write_noise cl = Ok nf).
    { unfold write_noise. rewrite Scl. assert (Q : forall l, incl l (singles c1) -> exists nf, rmapM (fun kr : string * nat =>
             match b_noise (deref cl (snd kr)) with
             | None => Err ETypeError
             | Some n => match crows n with [] => Err EIndexError | m :: _ => Ok (fst kr, (cnr n, cnc n, m)) end
             end) l = Ok nf).
      { induction l as [|[k r] l IH]; intros Hl; [eexists; reflexivity|]. cbn [rmapM fst snd]. destruct (V k r (Hl _ (or_introl eq_refl))) as (a & Ha & _ & Ev).
        destruct (evaluate_noise _ _ _ _ Ev) as (n & Bn & Hn & _). rewrite Bn. cbn [b_noise from_cl] in Hn. destruct (noise_repeats _ (from_cl (block_name a) a) n (a_c a) eq_refl Hn) as (m & En). rewrite En.
        assert (El : length (crows (a_c a)) = 1%nat) by (destruct Ha as [E0|[E0|[E0|[]]]]; injection E0 as <- <-; reflexivity). rewrite El. cbn [crows crepeat repeat rbind].
        destruct (IH (fun x Hx => Hl x (or_intror Hx))) as (nf & Enf). rewrite Enf. cbn [rbind]. eexists. reflexivity. }
      apply Q. intros x Hx; exact Hx. }
    destruct W as (nf & W). exists cl, nf. split; [exact E|]. split; [exact W|].
    apply (C84_replay ex_fc _ ex_cls cl nf ex_keyed); auto. intros k a [E0|[E0|[E0|[]]]]; injection E0 as <- <-; reflexivity.
  Qed.
End Instances.
From Coq Require Import Reals.
From Verif Require Import RealInst.
Example C85_instance_R : exists cl, compute_delta_cls (F := R) ex_fc None ex_cls = Ok cl.
Proof. apply C85_instance. Qed.

Print Assumptions C83_entries.
Print Assumptions C83_auto_succeeds.
Print Assumptions C83_inverse.
Print Assumptions C83_last_f_sky.
Print Assumptions C83_collection.
Print Assumptions C83_stage.
Print Assumptions C83_covariance.
Print Assumptions C84_replay.
Print Assumptions C84_densities_unused.
Print Assumptions C84_missing_pair.
Print Assumptions C84_no_file.
Print Assumptions C84_loaded.
Print Assumptions C84_wrong_shape.
Print Assumptions C84_one_by_one.
Print Assumptions C84_wrong_shape_refuted.
Print Assumptions C85_matrix.
Print Assumptions C85_symmetric.
Print Assumptions C85_missing_pair.
Print Assumptions C85_names.
Print Assumptions C85_distinct_names.
Print Assumptions C85_groups.
Print Assumptions C85_single.
Print Assumptions C85_built.
Print Assumptions C85_invertible.
Print Assumptions C85_stage.
Print Assumptions C85_stage_succeeds.
Print Assumptions C85_not_updated.
