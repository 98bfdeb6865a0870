From Verif Require Import Base SortLib MatInv LabLin FrameModel FrameLemmas FisherModel FisherSpec.
From Coq Require Import Permutation Field.

Section FiL.
  Context {F : Type} {K : Fld F} {SO : SetOrder}.
  Add Field FldFi : (fth (F := F)).
  Open Scope fld_scope.
  Notation isinv := (isinv string_dec).
  Implicit Types f g t : fisher F.

  Definition pvf (m : frame F) (a b : string) : F :=
    if smem a (ix m) && smem b (ix m) then fv m a b else 0.

  Lemma smem_app x l m : smem x (l ++ m) = smem x l || smem x m.
  Proof. unfold smem. apply existsb_app. Qed.

  Lemma phys_In f x : In x (phys f) <-> In x (fcosmo f) \/ In x (fnuis f).
  Proof. unfold phys. rewrite set_union_In. tauto. Qed.

  Lemma pad_step p (m : frame F) : frame_ok m -> ~ In p (ix m) ->
    frame_ok (f_setrow p 0 (f_setcol p 0 m)) /\
    ix (f_setrow p 0 (f_setcol p 0 m)) = ix m ++ [p] /\
    forall a b, In a (ix m ++ [p]) -> In b (ix m ++ [p]) ->
      fv (f_setrow p 0 (f_setcol p 0 m)) a b = pvf m a b.
  Proof.
    intros (Hnd & Hc & He) Hp. unfold f_setrow, f_setcol. cbn [ix cx ce].
    rewrite Hc. rewrite (proj2 (smem_false p (ix m)) Hp).
    assert (HE : forall a b, In a (ix m ++ [p]) -> In b (ix m ++ [p]) ->
      (if (a =? p)%string then Some 0 else if (b =? p)%string then Some 0 else ce m a b) = Some (pvf m a b)).
    { intros a b Ha Hb. unfold pvf.
      destruct (String.eqb_spec a p) as [->|na].
      - rewrite (proj2 (smem_false p (ix m)) Hp). reflexivity.
      - destruct (String.eqb_spec b p) as [->|nb].
        + rewrite (proj2 (smem_false p (ix m)) Hp), andb_false_r. reflexivity.
        + apply in_app_iff in Ha, Hb.
          destruct Ha as [Ha|[Ha|[]]]; [|congruence]. destruct Hb as [Hb|[Hb|[]]]; [|congruence].
          rewrite (proj2 (smem_In a _) Ha), (proj2 (smem_In b _) Hb). cbn [andb].
          unfold fv. specialize (He a b Ha Hb). destruct (ce m a b); [reflexivity|congruence]. }
    split; [|split].
    - split; [|split]; cbn [ix cx ce].
      + eapply Permutation_NoDup; [apply Permutation_cons_append|]. constructor; assumption.
      + reflexivity.
      + intros a b Ha Hb. rewrite HE by assumption. discriminate.
    - reflexivity.
    - intros a b Ha Hb. unfold fv. cbn [ce]. rewrite HE by assumption. reflexivity.
  Qed.

  Lemma pad1_spec ps (m : frame F) : frame_ok m -> NoDup ps -> (forall p, In p ps -> ~ In p (ix m)) ->
    frame_ok (pad1 ps m) /\ ix (pad1 ps m) = ix m ++ ps /\
    forall a b, In a (ix m ++ ps) -> In b (ix m ++ ps) -> fv (pad1 ps m) a b = pvf m a b.
  Proof.
    unfold pad1. revert m. induction ps as [|p ps IH]; intros m Hok Hnd Hd.
    - cbn. rewrite app_nil_r. split; [exact Hok|]. split; [reflexivity|].
      intros a b Ha Hb. unfold pvf. rewrite (proj2 (smem_In a _) Ha), (proj2 (smem_In b _) Hb). reflexivity.
    - cbn [fold_left]. inversion Hnd as [|? ? Hn Hnd']; subst.
      destruct (pad_step p m Hok (Hd p (or_introl eq_refl))) as (Ok1 & Ix1 & V1).
      destruct (IH (f_setrow p 0 (f_setcol p 0 m)) Ok1 Hnd') as (Ok2 & Ix2 & V2).
      { intros q Hq. rewrite Ix1, in_app_iff. intros [C|[C|[]]]; [exact (Hd q (or_intror Hq) C)|subst; contradiction]. }
      rewrite Ix1 in Ix2, V2. rewrite <- app_assoc in Ix2, V2. cbn [app] in Ix2, V2.
      split; [exact Ok2|]. split; [exact Ix2|]. intros a b Ha Hb. rewrite V2 by assumption.
      unfold pvf at 1. rewrite Ix1.
      destruct (smem_spec a (ix m ++ [p])) as [Ia|Na], (smem_spec b (ix m ++ [p])) as [Ib|Nb]; cbn [andb].
      + apply V1; assumption.
      + unfold pvf. rewrite (proj2 (smem_false b (ix m))), andb_false_r; [reflexivity|].
        intros C; apply Nb, in_or_app; auto.
      + unfold pvf. rewrite (proj2 (smem_false a (ix m))); [reflexivity|].
        intros C; apply Na, in_or_app; auto.
      + unfold pvf. rewrite (proj2 (smem_false a (ix m))); [reflexivity|].
        intros C; apply Na, in_or_app; auto.
  Qed.

  Lemma f_op_spec op (m n : frame F) : frame_ok m -> frame_ok n -> (forall x, In x (ix m) <-> In x (ix n)) ->
    frame_ok (f_op op m n) /\ (forall x, In x (ix (f_op op m n)) <-> In x (ix m)) /\
    forall a b, In a (ix m) -> In b (ix m) -> fv (f_op op m n) a b = op (fv m a b) (fv n a b).
  Proof.
    intros Hm Hn Hs. pose proof Hm as (Nm & Cm & Em). pose proof Hn as (Nn & Cn & En).
    assert (HE : forall a b, In a (ix m) -> In b (ix m) ->
       ce (f_op op m n) a b = Some (op (fv m a b) (fv n a b))).
    { intros a b Ha Hb. unfold f_op. cbn [ce]. unfold f_get. rewrite Cm, Cn.
      rewrite (proj2 (smem_In a _) Ha), (proj2 (smem_In b _) Hb).
      rewrite (proj2 (smem_In a (ix n))) by (apply Hs; exact Ha).
      rewrite (proj2 (smem_In b (ix n))) by (apply Hs; exact Hb). cbn [andb].
      rewrite (ce_fv m a b Hm Ha Hb). rewrite (ce_fv n a b Hn) by (apply Hs; assumption). reflexivity. }
    assert (HI : forall x, In x (ix (f_op op m n)) <-> In x (ix m)).
    { intros x. unfold f_op. cbn [ix]. rewrite ijoin_In. specialize (Hs x). tauto. }
    split; [|split].
    - split; [|split].
      + unfold f_op. cbn [ix]. apply ijoin_NoDup. exact Nm.
      + unfold f_op. cbn [ix cx]. rewrite Cm, Cn. reflexivity.
      + intros a b Ha Hb. rewrite HE; [discriminate| |]; apply HI; assumption.
    - exact HI.
    - intros a b Ha Hb. unfold fv at 1. rewrite HE by assumption. reflexivity.
  Qed.

  (** ** Sum and difference. *)
  Lemma fcombine_spec op sym f g : wf f -> wf g ->
    let h := fcombine op sym f g in
    wf h /\ (forall x, In x (labels h) <-> In x (labels f) \/ In x (labels g)) /\
    (forall a b, In a (labels h) -> In b (labels h) -> fval h a b = op (pval f a b) (pval g a b)) /\
    (forall x, In x (fcosmo h) <-> In x (fcosmo f) \/ In x (fcosmo g)) /\
    (forall x, In x (fnuis h) <-> In x (fnuis f) \/ In x (fnuis g)) /\
    fname h = (fname f ++ sym ++ fname g)%string /\ finverse h = None.
  Proof.
    intros (Of & Cf & Nf & Lf) (Og & Cg & Ng & Lg). cbn zeta.
    unfold fcombine, zero_pad, fcopy, new_fisher. cbn [fcosmo fnuis fmat fname].
    set (cf := set_of (fcosmo f)). set (nf := set_of (fnuis f)).
    set (cg := set_of (fcosmo g)). set (ng := set_of (fnuis g)).
    set (sp := set_union (set_union cf cg) (set_union nf ng)).
    assert (Hcf : forall x, In x cf <-> In x (fcosmo f)) by (intros; apply set_of_In).
    assert (Hnf : forall x, In x nf <-> In x (fnuis f)) by (intros; apply set_of_In).
    assert (Hcg : forall x, In x cg <-> In x (fcosmo g)) by (intros; apply set_of_In).
    assert (Hng : forall x, In x ng <-> In x (fnuis g)) by (intros; apply set_of_In).
    assert (Hsp : forall x, In x sp <-> In x (labels f) \/ In x (labels g)).
    { intros x. unfold sp. rewrite !set_union_In, Hcf, Hnf, Hcg, Hng, Lf, Lg. tauto. }
    unfold phys, with_mat. cbn [fcosmo fnuis fmat fname]. fold cf nf cg ng.
    set (mf := set_diff sp (set_union nf cf)). set (mg := set_diff sp (set_union ng cg)).
    assert (Hmf : forall x, In x mf <-> (In x (labels f) \/ In x (labels g)) /\ ~ In x (labels f)).
    { intros x. unfold mf. rewrite set_diff_In, Hsp, set_union_In, Hcf, Hnf. rewrite (Lf x). tauto. }
    assert (Hmg : forall x, In x mg <-> (In x (labels f) \/ In x (labels g)) /\ ~ In x (labels g)).
    { intros x. unfold mg. rewrite set_diff_In, Hsp, set_union_In, Hcg, Hng. rewrite (Lg x). tauto. }
    assert (NDsp : NoDup sp) by apply set_union_NoDup.
    destruct (pad1_spec mf (fmat f) Of) as (O1 & I1 & V1).
    { apply set_diff_NoDup; exact NDsp. }
    { intros p Hp. apply Hmf in Hp. tauto. }
    destruct (pad1_spec mg (fmat g) Og) as (O2 & I2 & V2).
    { apply set_diff_NoDup; exact NDsp. }
    { intros p Hp. apply Hmg in Hp. tauto. }
    assert (L1 : forall x, In x (ix (pad1 mf (fmat f))) <-> In x (labels f) \/ In x (labels g)).
    { intros x. rewrite I1, in_app_iff, Hmf. fold (labels f).
      destruct (in_dec string_dec x (labels f)); tauto. }
    assert (L2 : forall x, In x (ix (pad1 mg (fmat g))) <-> In x (labels f) \/ In x (labels g)).
    { intros x. rewrite I2, in_app_iff, Hmg. fold (labels g).
      destruct (in_dec string_dec x (labels g)); tauto. }
    destruct (f_op_spec op _ _ O1 O2) as (O3 & L3 & V3).
    { intros x. rewrite L1, L2. reflexivity. }
    unfold labels, fval. cbn [fmat fcosmo fnuis].
    assert (L3' : forall x, In x (ix (f_op op (pad1 mf (fmat f)) (pad1 mg (fmat g)))) <-> In x (labels f) \/ In x (labels g)).
    { intros x. rewrite L3. apply L1. }
    split; [|split; [exact L3'|split; [|split; [|split; [|split; reflexivity]]]]].
    - split; [exact O3|]. split; [apply set_of_NoDup|]. split; [apply set_of_NoDup|].
      intros x. unfold labels. cbn [fmat fcosmo fnuis]. rewrite L3', !set_of_In, !set_union_In, Hcf, Hnf, Hcg, Hng, Lf, Lg. tauto.
    - intros a b Ha Hb. apply L3 in Ha, Hb. rewrite V3 by assumption.
      rewrite V1 by (rewrite <- I1; assumption).
      apply L1, L2 in Ha. apply L1, L2 in Hb.
      rewrite V2 by (rewrite <- I2; assumption). reflexivity.
    - intros x. rewrite set_of_In, set_union_In, Hcf, Hcg. reflexivity.
    - intros x. rewrite set_of_In, set_union_In, Hnf, Hng. reflexivity.
  Qed.

  (** ** Fixing parameters. *)
  Lemma fix_spec ps f : wf f -> (forall x, In x ps -> In x (labels f)) ->
    exists t, fix_parameters ps f = (t, Ok tt) /\ wf t /\
      labels t = filter (fun x => negb (smem x ps)) (labels f) /\
      (forall a b, ce (fmat t) a b = ce (fmat f) a b) /\
      (forall x, In x (fcosmo t) <-> In x (fcosmo f) /\ ~ In x ps) /\
      (forall x, In x (fnuis t) <-> In x (fnuis f) /\ ~ In x ps) /\
      fname t = fname f /\ finverse t = finverse f.
  Proof.
    intros (Of & Cf & Nf & Lf) Hps. unfold fix_parameters.
    assert (Hnil : set_diff (set_of ps) (phys f) = []).
    { apply set_diff_nil. intros x Hx. rewrite set_of_In in Hx. apply phys_In, Lf, Hps, Hx. }
    rewrite Hnil. pose proof Of as (Nd & Cx & Ce).
    assert (S0 : subsetb (set_of ps) (ix (fmat f)) = true).
    { apply subsetb_spec. intros x Hx. rewrite set_of_In in Hx. apply Hps; exact Hx. }
    unfold f_drop0. rewrite S0. cbn [rbind]. unfold f_drop1. cbn [cx ix ce]. rewrite Cx, S0.
    assert (Efil : filter (fun x => negb (smem x (set_of ps))) (ix (fmat f)) = filter (fun x => negb (smem x ps)) (labels f)).
    { apply filter_ext. intros x. f_equal. destruct (smem_spec x (set_of ps)) as [H|H], (smem_spec x ps) as [H'|H']; try reflexivity;
        rewrite set_of_In in H; contradiction. }
    eexists. split; [reflexivity|].
    assert (Hl : labels (with_mat (with_sets f (set_diff (fcosmo f) (set_of ps)) (set_diff (fnuis f) (set_of ps)))
            (mkF (filter (fun x => negb (smem x (set_of ps))) (ix (fmat f)))
                 (filter (fun x => negb (smem x (set_of ps))) (ix (fmat f))) (ce (fmat f))))
            = filter (fun x => negb (smem x ps)) (labels f)).
    { exact Efil. }
    split; [|split; [exact Hl|split; [reflexivity|split; [|split; [|split; reflexivity]]]]].
    - split; [|split; [|split]].
      + split; [|split]; cbn [with_mat fmat ix cx ce].
        * apply NoDup_filter; exact Nd.
        * reflexivity.
        * intros a b Ha Hb. apply filter_In in Ha, Hb. apply Ce; tauto.
      + apply set_diff_NoDup; exact Cf.
      + apply set_diff_NoDup; exact Nf.
      + intros x. rewrite Hl. cbn [with_mat with_sets fcosmo fnuis].
        rewrite filter_In, negb_true_iff, smem_false, !set_diff_In, set_of_In, Lf. tauto.
    - intros x. cbn [with_mat with_sets fcosmo]. rewrite set_diff_In, set_of_In. reflexivity.
    - intros x. cbn [with_mat with_sets fnuis]. rewrite set_diff_In, set_of_In. reflexivity.
  Qed.

  Lemma fix_unknown ps f : wf f -> (exists x, In x ps /\ ~ In x (labels f)) ->
    fix_parameters ps f = (f, Err EException).
  Proof.
    intros (Of & Cf & Nf & Lf) (x & Hx & Hn). unfold fix_parameters.
    destruct (set_diff (set_of ps) (phys f)) as [|y l] eqn:E; [|reflexivity].
    exfalso. apply Hn. rewrite set_diff_nil in E. apply Lf, phys_In, E, set_of_In, Hx.
  Qed.

  (** ** Marginalisation. *)
  Lemma eval_inverse_spec f i : invert_dataframe (fmat f) = Ok i -> eval_inverse f = (with_inv f i, Ok tt).
  Proof. intros E. unfold eval_inverse. rewrite E. reflexivity. Qed.

  Lemma marg_ok ps rc f f' r : wf f -> marginalize ps rc f = (f', Ok r) ->
    exists i t s, invert_dataframe (fmat f) = Ok i /\
      (r = if rc then Some t else None) /\ f' = (if rc then with_inv f i else t) /\
      wf t /\ (forall x, In x (labels t) <-> In x (labels f) /\ ~ In x ps) /\
      labels t = ssort (labels t) /\
      finverse t = Some s /\ frame_ok s /\ Permutation (ix s) (labels t) /\
      (forall a b, In a (labels t) -> In b (labels t) -> fv s a b = fv i a b) /\
      isinv (labels t) (fval t) (fv i) /\
      (forall x, In x (fcosmo t) <-> In x (fcosmo f) /\ ~ In x ps) /\
      (forall x, In x (fnuis t) <-> In x (fnuis f) /\ ~ In x ps) /\
      fname t = fname f /\ fmflag t = fmflag f /\ (forall x, In x ps -> In x (labels f)) /\
      ix s = set_diff (set_of (labels f)) (set_of ps) /\
      (fcorr t = if rc then None else fcorr f).
  Proof.
    intros (Of & Cf & Nf & Lf). unfold marginalize.
    destruct (set_diff (set_of ps) (set_of (ix (fmat f)))) as [|y l] eqn:Em; [|discriminate].
    rewrite set_diff_nil in Em.
    assert (Hps : forall x, In x ps -> In x (labels f)).
    { intros x Hx. rewrite <- set_of_In. apply Em, set_of_In, Hx. }
    unfold eval_inverse. destruct (invert_dataframe (fmat f)) as [i|e] eqn:Ei; [|discriminate].
    cbn [with_inv finverse].
    destruct (invert_ok _ _ Of Ei) as (Ii & Oi & Vi).
    set (keep := set_diff (set_of (ix (fmat f))) (set_of ps)).
    assert (Hk : forall x, In x keep <-> In x (labels f) /\ ~ In x ps).
    { intros x. unfold keep. rewrite set_diff_In, !set_of_In. reflexivity. }
    assert (NDk : NoDup keep) by (apply set_diff_NoDup, set_of_NoDup).
    destruct (loc_ok i keep Oi NDk) as (s & Es & Os & Is & Vs).
    { intros x Hx. rewrite Ii. apply Hk in Hx. apply Hx. }
    rewrite Es.
    destruct (invert_dataframe s) as [mg|e] eqn:Emg; [|discriminate].
    destruct (invert_ok _ _ Os Emg) as (Img & Omg & Vmg).
    destruct (sort_ok mg Omg) as (Osrt & Psrt & Vsrt).
    assert (Pl : Permutation (ix (f_sort1 (f_sort0 mg))) keep) by (rewrite Psrt, Img, Is; reflexivity).
    assert (HlS : ix (f_sort1 (f_sort0 mg)) = ssort (ix (f_sort1 (f_sort0 mg)))).
    { change (ssort (ix mg) = ssort (ssort (ix mg))). symmetry. apply ssort_idem. }
    assert (Hinv : isinv keep (fv (f_sort1 (f_sort0 mg))) (fv i)).
    { rewrite Is in Vmg. apply isinv_swap in Vmg.
      eapply isinv_ext; [| |exact Vmg].
      - intros a b Ha Hb. symmetry. apply Vsrt; rewrite Psrt, Img, Is; assumption.
      - intros a b Ha Hb. unfold fv. rewrite Vs. reflexivity. }
    assert (Hinvt : isinv (ix (f_sort1 (f_sort0 mg))) (fv (f_sort1 (f_sort0 mg))) (fv i)).
    { eapply isinv_perm; [apply Permutation_sym; exact Pl|exact Hinv]. }
    assert (HlIn : forall x, In x (ix (f_sort1 (f_sort0 mg))) <-> In x (labels f) /\ ~ In x ps).
    { intros x. rewrite <- Hk. split; apply Permutation_in; [exact Pl|apply Permutation_sym; exact Pl]. }
    destruct rc; intros E; injection E as <- <-; cbn beta iota.
    all: eexists; eexists; exists s; split; [reflexivity|]; split; [reflexivity|]; split; [reflexivity|].
    all: unfold labels, fval; cbn [with_mat with_inv with_sets fcopy new_fisher fmat fname fcosmo fnuis finverse fcorr fmflag].
    all: split; [|split; [exact HlIn|split; [exact HlS|split; [reflexivity|split; [exact Os|
           split; [rewrite Is; apply Permutation_sym; exact Pl|split;
             [intros a b _ _; unfold fv; rewrite Vs; reflexivity|split; [exact Hinvt|split; [|split; [|split; [reflexivity|split; [reflexivity|split; [exact Hps|split; [exact Is|reflexivity]]]]]]]]]]]]]].
    - split; [exact Osrt|]. split; [apply set_diff_NoDup, set_of_NoDup|]. split; [apply set_diff_NoDup, set_of_NoDup|].
      intros x. unfold labels. cbn [with_mat with_inv with_sets fcopy new_fisher fmat fname fcosmo fnuis].
      rewrite HlIn, !set_diff_In, !set_of_In, Lf. tauto.
    - intros x. rewrite set_diff_In, !set_of_In. reflexivity.
    - intros x. rewrite set_diff_In, !set_of_In. reflexivity.
    - split; [exact Osrt|]. split; [apply set_diff_NoDup; exact Cf|]. split; [apply set_diff_NoDup; exact Nf|].
      intros x. unfold labels. cbn [with_mat with_inv with_sets fmat fname fcosmo fnuis].
      rewrite HlIn, !set_diff_In, !set_of_In, Lf. tauto.
    - intros x. rewrite set_diff_In, !set_of_In. reflexivity.
    - intros x. rewrite set_diff_In, !set_of_In. reflexivity.
  Qed.

  Lemma marg_unknown ps rc f : (exists x, In x ps /\ ~ In x (labels f)) ->
    marginalize ps rc f = (f, Err EDomain).
  Proof.
    intros (x & Hx & Hn). unfold marginalize.
    destruct (set_diff (set_of ps) (set_of (ix (fmat f)))) as [|y l] eqn:Em; [|reflexivity].
    exfalso. apply Hn. rewrite set_diff_nil in Em. unfold labels. rewrite <- set_of_In. apply Em, set_of_In, Hx.
  Qed.

  (** Failure: only because one of the two inversions is impossible. *)
  Lemma marg_err ps rc f f' e : wf f -> (forall x, In x ps -> In x (labels f)) ->
    marginalize ps rc f = (f', Err e) ->
    e = ELinAlg /\
    ((exists e', invert_dataframe (fmat f) = Err e') \/
     exists i x, invert_dataframe (fmat f) = Ok i /\
       (exists a, (In a (labels f) /\ ~ In a ps) /\ x a <> 0) /\
       (forall keep, NoDup keep -> (forall a, In a keep <-> In a (labels f) /\ ~ In a ps) ->
         forall a, In a keep -> Fsum (fun b => fv i a b * x b) keep = 0)).
  Proof.
    intros (Of & Cf & Nf & Lf) Hps. unfold marginalize.
    assert (Em : set_diff (set_of ps) (set_of (ix (fmat f))) = []).
    { apply set_diff_nil. intros x Hx. rewrite set_of_In in *. apply Hps; exact Hx. }
    rewrite Em. unfold eval_inverse. destruct (invert_dataframe (fmat f)) as [i|e0] eqn:Ei.
    2:{ intros E; injection E as <- <-. destruct (invert_err _ _ Of Ei) as [-> _]. split; [reflexivity|left; eexists; reflexivity]. }
    cbn [with_inv finverse].
    destruct (invert_ok _ _ Of Ei) as (Ii & Oi & Vi).
    set (keep := set_diff (set_of (ix (fmat f))) (set_of ps)).
    assert (Hk : forall x, In x keep <-> In x (labels f) /\ ~ In x ps).
    { intros x. unfold keep. rewrite set_diff_In, !set_of_In. reflexivity. }
    assert (NDk : NoDup keep) by (apply set_diff_NoDup, set_of_NoDup).
    destruct (loc_ok i keep Oi NDk) as (s & Es & Os & Is & Vs).
    { intros x Hx. rewrite Ii. apply Hk in Hx. apply Hx. }
    rewrite Es.
    destruct (invert_dataframe s) as [mg|e1] eqn:Emg.
    { destruct rc; discriminate. }
    intros E. assert (e = e1) as -> by (injection E; auto). clear E.
    destruct (invert_err _ _ Os Emg) as (-> & x & (a & Ha & Hx) & Hz). split; [reflexivity|].
    right. exists i, x. split; [reflexivity|]. rewrite Is in Ha, Hz. split.
    - exists a. split; [apply Hk; exact Ha|exact Hx].
    - intros keep' Hnd' Hk' b Hb.
      assert (P : Permutation keep' keep).
      { apply NoDup_Permutation; [exact Hnd'|exact NDk|]. intros y. rewrite Hk', Hk. reflexivity. }
      rewrite (Fsum_perm _ P).
      rewrite <- (Hz b) by (eapply Permutation_in; [exact P|exact Hb]).
      apply Fsum_ext. intros y _. unfold fv. rewrite Vs. reflexivity.
  Qed.
End FiL.
