From Verif Require Import Base SortLib MatInv LabLin FrameModel FrameLemmas FisherModel FisherSpec FisherHistory FisherLemmas FisherLemmas2 FisherLemmas3.
From Coq Require Import Permutation Field.

(** ** Priors. *)
Section Prior.
  Context {F : Type} {K : Fld F} {SO : SetOrder}.
  Add Field FldPr : (fth (F := F)).
  Open Scope fld_scope.
  Implicit Types f g h t : fisher F.

  Lemma prior_frame_spec frac fid : forall (p : frame F),
    NoDup (dkeys fid) -> NoDup (ix p) -> cx p = ix p ->
    (forall n v, In (n, v) fid -> frac * v <> 0) ->
    exists p', prior_frame fid frac p = Ok p' /\ NoDup (ix p') /\ cx p' = ix p' /\
      (forall x, In x (ix p') <-> In x (ix p) \/ In x (dkeys fid)) /\
      ((forall x, In x (dkeys fid) -> In x (ix p)) -> ix p' = ix p) /\
      forall a b, f_get p' a b =
        match dget String.eqb fid a with
        | Some v => if String.eqb a b then Some (1 / ((frac * v) * (frac * v))) else f_get p a b
        | None => f_get p a b
        end.
  Proof.
    induction fid as [|[n v] fid IH]; intros p Hnd Hp Hc Hz; cbn [prior_frame].
    - exists p. split; [reflexivity|]. split; [exact Hp|]. split; [exact Hc|]. split; [intros x; cbn; tauto|].
      split; [auto|]. reflexivity.
    - inversion Hnd as [|? ? Hn Hnd']; subst. cbn [fst] in Hn.
      assert (Hv : frac * v <> 0) by (apply (Hz n); left; reflexivity).
      destruct (fdec (frac * v * (frac * v)) 0) as [e|ne].
      { exfalso. apply Hv. transitivity (frac * v * (frac * v) / (frac * v)); [field; split; intros ->; apply Hv; ring|].
        rewrite e. field. split; intros ->; apply Hv; ring. }
      set (q := f_setcell n n (1 / (frac * v * (frac * v))) p).
      assert (Hq : NoDup (ix q) /\ cx q = ix q /\ forall x, In x (ix q) <-> In x (ix p) \/ x = n).
      { unfold q, f_setcell. cbn [ix cx]. rewrite Hc. destruct (smem_spec n (ix p)) as [Hi|Ho].
        - split; [exact Hp|]. split; [reflexivity|]. intros x. split; [auto|]. intros [H| ->]; assumption.
        - split; [|split; [reflexivity|]].
          + eapply Permutation_NoDup; [apply Permutation_cons_append|]. constructor; assumption.
          + intros x. rewrite in_app_iff. cbn. split; [intros [H|[H|[]]]|intros [H|H]]; auto. }
      destruct Hq as (Q1 & Q2 & Q3).
      destruct (IH q Hnd' Q1 Q2) as (p' & E & N' & C' & L' & S' & V').
      { intros m w Hm. apply (Hz m). right; exact Hm. }
      exists p'. split; [exact E|]. split; [exact N'|]. split; [exact C'|]. split; [|split].
      + intros x. rewrite L', Q3. cbn [dkeys map fst In]. unfold dkeys. split; [intros [[H|H]|H]|intros [H|[H|H]]]; auto.
      + intros Hs. assert (Eq : ix q = ix p).
        { unfold q, f_setcell. cbn [ix]. rewrite (proj2 (smem_In n (ix p))); [reflexivity|]. apply Hs. left; reflexivity. }
        rewrite S', Eq; [reflexivity|]. intros x Hx. rewrite Eq. apply Hs. right; exact Hx.
      + intros a b. rewrite V'.
        assert (Gq : f_get q a b = if String.eqb a n && String.eqb b n then Some (1 / (frac * v * (frac * v))) else f_get p a b).
        { unfold f_get at 1. rewrite Q2.
          destruct (String.eqb_spec a n) as [ea|na], (String.eqb_spec b n) as [eb|nb]; cbn [andb].
          - subst a b. rewrite (proj2 (smem_In n (ix q))) by (apply Q3; auto). cbn [andb].
            unfold q, f_setcell. cbn [ce]. rewrite String.eqb_refl. reflexivity.
          - subst a. destruct (smem_spec n (ix q)) as [i1|o1]; [|exfalso; apply o1, Q3; auto].
            cbn [andb]. destruct (smem_spec b (ix q)) as [i2|o2].
            + unfold q, f_setcell. cbn [ce]. destruct (String.eqb_spec b n); [contradiction|]. rewrite andb_false_r. reflexivity.
            + unfold f_get. rewrite Hc. rewrite (proj2 (smem_false b (ix p))) by (intros C; apply o2, Q3; auto).
              rewrite andb_false_r. reflexivity.
          - subst b. destruct (smem_spec a (ix q)) as [i1|o1]; cbn [andb].
            + rewrite (proj2 (smem_In n (ix q))) by (apply Q3; auto).
              unfold q, f_setcell. cbn [ce]. destruct (String.eqb_spec a n); [contradiction|]. reflexivity.
            + unfold f_get. rewrite (proj2 (smem_false a (ix p))) by (intros C; apply o1, Q3; auto). reflexivity.
          - destruct (smem_spec a (ix q)) as [i1|o1]; cbn [andb].
            + destruct (smem_spec b (ix q)) as [i2|o2].
              * unfold q, f_setcell. cbn [ce]. destruct (String.eqb_spec a n); [contradiction|]. reflexivity.
              * unfold f_get. rewrite Hc. rewrite (proj2 (smem_false b (ix p))) by (intros C; apply o2, Q3; auto).
                rewrite andb_false_r. reflexivity.
            + unfold f_get. rewrite (proj2 (smem_false a (ix p))) by (intros C; apply o1, Q3; auto). reflexivity. }
        cbn [dget]. destruct (String.eqb_spec n a) as [->|na].
        * assert (D : dget String.eqb fid a = None) by (apply (dget_None _ String.eqb_spec); exact Hn).
          rewrite D, Gq, String.eqb_refl. cbn [andb]. rewrite (String.eqb_sym b a). reflexivity.
        * destruct (String.eqb_spec a n) as [e|_]; [congruence|]. cbn [andb] in Gq. rewrite Gq. reflexivity.
  Qed.

  Lemma add_prior_spec fid frac f : wf f -> NoDup (dkeys fid) -> (forall n v, In (n, v) fid -> frac * v <> 0) ->
    exists t, add_prior fid frac f = (t, Ok tt) /\
      (forall x, In x (labels t) <-> In x (labels f) \/ In x (dkeys fid)) /\
      NoDup (labels t) /\ cx (fmat t) = labels t /\
      (forall a b, In a (labels f) -> In b (labels f) -> ce (fmat t) a b = Some (fval f a b + prior_term fid frac a b)) /\
      (forall n v, In (n, v) fid -> ~ In n (labels f) ->
         ce (fmat t) n n = Some (1 / ((frac * v) * (frac * v))) /\
         forall b, b <> n -> ce (fmat t) n b = None /\ ce (fmat t) b n = None) /\
      fcosmo t = fcosmo f /\ fnuis t = fnuis f /\ fname t = fname f /\ finverse t = finverse f /\
      ((forall x, In x (dkeys fid) -> In x (labels f)) -> labels t = labels f).
  Proof.
    intros Wf Hnd Hz. pose proof Wf as (Of & _). pose proof Of as (Nd & Cx & Ce). unfold add_prior.
    destruct (prior_frame_spec frac fid (mkF (ix (fmat f)) (cx (fmat f)) (fun _ _ => Some 0)) Hnd) as (p & E & Np & Cp & Lp & Sp & Vp).
    { exact Nd. } { exact Cx. } { exact Hz. }
    rewrite E. eexists. split; [reflexivity|]. unfold labels. cbn [with_mat fmat fcosmo fnuis fname finverse f_addfill ix cx ce].
    cbn [ix] in Lp, Sp.
    assert (G0 : forall a b, f_get (mkF (ix (fmat f)) (cx (fmat f)) (fun _ _ => Some (0:F))) a b =
                   if smem a (ix (fmat f)) && smem b (ix (fmat f)) then Some 0 else None).
    { intros a b. unfold f_get. cbn [ix cx ce]. rewrite Cx. reflexivity. }
    split; [|split; [|split; [|split; [|split; [|do 4 (split; [reflexivity|])]]]]].
    - intros x. rewrite ijoin_In, Lp. tauto.
    - apply ijoin_NoDup. exact Nd.
    - rewrite Cx, Cp. reflexivity.
    - intros a b Ha Hb. rewrite Vp, G0. unfold f_get. rewrite Cx.
      rewrite (proj2 (smem_In a _) Ha), (proj2 (smem_In b _) Hb). cbn [andb].
      rewrite (ce_fv _ a b Of Ha Hb). fold (fval f a b). unfold prior_term.
      destruct (dget String.eqb fid a); [destruct (String.eqb a b)|]; reflexivity.
    - intros n v Hi Hn. assert (D : dget String.eqb fid n = Some v) by (apply (dget_NoDup_In _ String.eqb_spec); assumption).
      assert (Gn : forall b, f_get (fmat f) n b = None /\ f_get (fmat f) b n = None).
      { intros b. unfold f_get. rewrite Cx. rewrite (proj2 (smem_false n _) Hn), andb_false_r. auto. }
      split.
      + destruct (Gn n) as [-> _]. rewrite Vp, D, String.eqb_refl. f_equal. ring.
      + intros b Hb. destruct (Gn b) as [-> ->]. rewrite !Vp, D.
        destruct (String.eqb_spec n b) as [e|_]; [congruence|]. rewrite !G0.
        rewrite (proj2 (smem_false n _) Hn), andb_false_r. split; [reflexivity|].
        destruct (dget String.eqb fid b); [|reflexivity]. destruct (String.eqb_spec b n); [contradiction|]. reflexivity.
    - intros Hs. rewrite (Sp Hs). apply ijoin_same.
  Qed.

  Lemma add_prior_zero fid frac f : wf f -> NoDup (dkeys fid) -> (exists n v, In (n, v) fid /\ frac * v = 0) ->
    add_prior fid frac f = (f, Err EZeroDivision).
  Proof.
    intros Wf Hnd (n & v & Hi & Hz). unfold add_prior.
    assert (G : forall p : frame F, prior_frame fid frac p = Err EZeroDivision).
    { induction fid as [|[m w] fid IH]; intros p; [destruct Hi|]. cbn [prior_frame].
      destruct (fdec (frac * w * (frac * w)) 0) as [e|ne]; [reflexivity|].
      destruct Hi as [E|Hi]; [injection E as -> ->; exfalso; apply ne; rewrite Hz; ring|].
      apply IH; [inversion Hnd; assumption|exact Hi]. }
    rewrite G. reflexivity.
  Qed.

  Lemma add_prior_wf fid frac f t : wf f -> NoDup (dkeys fid) -> (forall x, In x (dkeys fid) -> In x (labels f)) ->
    add_prior fid frac f = (t, Ok tt) -> wf t.
  Proof.
    intros Wf Hnd Hs E.
    assert (Hz : forall n v, In (n, v) fid -> frac * v <> 0).
    { intros n v Hi C. rewrite (add_prior_zero fid frac f Wf Hnd) in E; [discriminate|]. exists n, v; auto. }
    destruct (add_prior_spec fid frac f Wf Hnd Hz) as (t' & E' & L & N & Cx & V & _ & Co & Nu & _ & _ & Sl).
    rewrite E' in E. injection E as ->. specialize (Sl Hs). pose proof Wf as (_ & NC & NN & Lf).
    split; [|split; [rewrite Co; exact NC|split; [rewrite Nu; exact NN|]]].
    - split; [exact N|]. split; [exact Cx|]. fold (labels t). rewrite Sl. intros a b Ha Hb. rewrite V by assumption. discriminate.
    - intros x. rewrite Sl, Lf, Co, Nu. reflexivity.
  Qed.
End Prior.

(** ** Marginalised against unmarginalised errors. *)
Section Cond.
  Context {F : Type} {K : Fld F} {O : OFld (F := F)} {S : SqrtFld F} {SO : SetOrder}.
  Add Field FldCond : (fth (F := F)).
  Open Scope fld_scope.
  Notation isinv := (isinv string_dec).
  Implicit Types f g h t : fisher F.

  Lemma unmarg_get (oc : bool) f a : wf f -> In a (if oc then fcosmo f else labels f) -> flt 0 (fval f a a) ->
    exists u, unmarginalized_errors oc f = Ok u /\ s_get u a = Some (Some (1 / fsqrt (fval f a a))).
  Proof.
    intros Wf Ha Hp. pose proof Wf as (Of & _ & _ & Lf). pose proof Of as (Nd & Cx & Ce).
    unfold unmarginalized_errors. rewrite Cx, Nat.eqb_refl. cbn [negb].
    set (g := fun a : string => match ce (fmat f) a a with
               | None => (None : option F)
               | Some x => match np_sqrt x with None => None | Some s => if fdec s 0 then None else Some (1 / s) end end).
    assert (E : map (fun rc : string * string => (fst rc, match ce (fmat f) (fst rc) (snd rc) with
               | None => (None : option F)
               | Some x => match np_sqrt x with None => None | Some s => if fdec s 0 then None else Some (1 / s) end end))
               (combine (ix (fmat f)) (ix (fmat f))) = map (fun a => (a, g a)) (labels f)).
    { unfold labels. clear. induction (ix (fmat f)) as [|x l IH]; [reflexivity|]. cbn [combine map fst snd]. f_equal. exact IH. }
    rewrite E.
    assert (Hal : In a (labels f)) by (destruct oc; [apply Lf; auto|exact Ha]).
    assert (G : g a = Some (1 / fsqrt (fval f a a))).
    { unfold g. rewrite (ce_fv _ a a Of Hal Hal). fold (fval f a a).
      rewrite np_sqrt_pos by apply Hp. destruct (fdec (fsqrt (fval f a a)) 0) as [e|n]; [|reflexivity].
      exfalso. destruct (fsqrt_pos _ Hp) as [_ H]. congruence. }
    destruct oc.
    - unfold s_loc. rewrite (rmapM_all _ (fun a => (a, g a))).
      + eexists. split; [reflexivity|]. rewrite (s_get_map g). rewrite (proj2 (smem_In a _) Ha). rewrite G. reflexivity.
      + intros b Hb. rewrite (s_get_map g). rewrite (proj2 (smem_In b (labels f))) by (apply Lf; auto). reflexivity.
    - eexists. split; [reflexivity|]. rewrite (s_get_map g), (proj2 (smem_In a _) Hal), G. reflexivity.
  Qed.

  Lemma inv_single a (A : string -> string -> F) : A a a <> 0 -> isinv [a] A (fun _ _ => 1 / A a a).
  Proof.
    intros Hn x y [<-|[]] [<-|[]]. unfold mm. cbn [Fsum]. rewrite dl_refl. split; field; exact Hn.
  Qed.

  Lemma drop_perm f a : wf f -> In a (labels f) -> exists s, Permutation (labels f) ([a] ++ s) /\ NoDup ([a] ++ s).
  Proof.
    intros Wf Ha. apply in_split in Ha. destruct Ha as (l1 & l2 & E). exists (l1 ++ l2). split.
    - rewrite E. apply Permutation_sym. cbn [app]. apply Permutation_middle.
    - apply (Permutation_NoDup (l := labels f)); [|apply wf_NoDup; exact Wf].
      rewrite E. apply Permutation_sym. cbn [app]. apply Permutation_middle.
  Qed.

  Lemma marg_ge_cond f C a : wf f -> posdef f -> isinv (labels f) (fval f) C -> In a (labels f) ->
    flt 0 (fval f a a) /\ flt 0 (C a a) /\ fle (1 / fval f a a) (C a a).
  Proof.
    intros Wf Hp HC Ha. assert (Nf := wf_NoDup f Wf).
    assert (P1 : flt 0 (fval f a a)) by exact (pd_diag_pos string_dec _ _ a Nf Hp Ha).
    assert (P2 : flt 0 (C a a)) by exact (pd_diag_pos string_dec _ _ a Nf (pd_inv string_dec _ _ _ Nf HC Hp) Ha).
    split; [exact P1|]. split; [exact P2|].
    destruct (drop_perm f a Wf Ha) as (s & P & Hnd).
    apply (restrict_var string_dec [a] s (fval f) C (fun _ _ => 1 / fval f a a) a).
    - exact Hnd.
    - destruct (pd_perm _ _ _ P Hp) as [H _]; exact H.
    - exact (pd_psd _ _ (pd_perm _ _ _ P Hp)).
    - eapply isinv_perm; eassumption.
    - apply inv_single. destruct P1; congruence.
    - left; reflexivity.
  Qed.

  Lemma errors_ge_cond (fom oc : bool) f a : wf f -> posdef f -> finverse f = None ->
    In a (if oc then fcosmo f else labels f) -> a <> "FoM"%string ->
    exists f' e u x y, marginalized_errors fom oc f = (f', Ok e) /\ unmarginalized_errors oc f = Ok u /\
      s_get e a = Some (Some x) /\ s_get u a = Some (Some y) /\ flt 0 y /\ fle y x.
  Proof.
    intros Wf Hp HN Ha Hf. pose proof Wf as (Of & _ & _ & Lf).
    destruct (invert_pd (fmat f) Of Hp) as (i & Ei). destruct (invert_ok _ _ Of Ei) as (Ii & Oi & Vi).
    destruct (held_inv f i Wf Ei) as [Hh Wh].
    assert (Hal : In a (labels f)) by (destruct oc; [apply Lf; auto|exact Ha]).
    destruct (marg_ge_cond f (fv i) a Wf Hp Vi Hal) as (P1 & P2 & Hle).
    destruct (errors_get fom oc (with_inv f i) i a Wh Hh Hf) as (e & Ee & Ge).
    destruct (unmarg_get oc f a Wf Ha P1) as (u & Eu & Gu).
    exists (with_inv f i), e, u, (fsqrt (fv i a a)), (1 / fsqrt (fval f a a)).
    split; [rewrite (errors_none fom oc f i HN Ei); exact Ee|]. split; [exact Eu|].
    split; [|split; [exact Gu|split]].
    - rewrite Ge. change (fcosmo (with_inv f i)) with (fcosmo f). change (labels (with_inv f i)) with (labels f).
      rewrite (proj2 (smem_In a _) Ha). rewrite np_sqrt_pos by apply P2. reflexivity.
    - apply finv_pos, fsqrt_pos; exact P1.
    - rewrite <- fsqrt_inv by exact P1. apply fsqrt_mono; [apply finv_pos; exact P1|exact Hle].
  Qed.

  Lemma fix_lowers_errors ps f t a (fom oc : bool) : wf f -> posdef f -> finverse f = None ->
    fix_parameters ps f = (t, Ok tt) -> In a (if oc then fcosmo t else labels t) -> a <> "FoM"%string ->
    exists f' e t' e' x y, marginalized_errors fom oc f = (f', Ok e) /\ marginalized_errors fom oc t = (t', Ok e') /\
      s_get e a = Some (Some x) /\ s_get e' a = Some (Some y) /\ fle y x.
  Proof.
    intros Wf Hp HN E Ha Hf. pose proof Wf as (Of & _ & _ & Lf). assert (Nf := wf_NoDup f Wf).
    assert (Hps : forall x, In x ps -> In x (labels f)).
    { intros x Hx. destruct (in_dec string_dec x (labels f)) as [i|n]; [exact i|].
      rewrite (fix_unknown ps f Wf) in E; [discriminate|exists x; auto]. }
    destruct (fix_spec ps f Wf Hps) as (t0 & E0 & Wt & Lt & Ct & Cot & Nut & _ & It).
    rewrite E0 in E. injection E as ->.
    assert (Nt := wf_NoDup t Wt). pose proof Wt as (Ot & _ & _ & Ltp).
    set (drop := filter (fun x => smem x ps) (labels f)).
    assert (Hk : forall x, In x (labels t) <-> In x (labels f) /\ ~ In x ps).
    { intros x. rewrite Lt, filter_In, negb_true_iff, smem_false. reflexivity. }
    assert (P : Permutation (labels f) (labels t ++ drop)).
    { apply split_perm; auto; try (apply NoDup_filter; exact Nf).
      - intros y. rewrite Hk. unfold drop. rewrite filter_In, smem_In. tauto.
      - intros y. rewrite Hk. unfold drop. rewrite filter_In, smem_In. destruct (in_dec string_dec y ps); tauto. }
    assert (Nkd : NoDup (labels t ++ drop)) by (eapply Permutation_NoDup; eassumption).
    assert (Eft : forall x y, fval t x y = fval f x y) by (intros x y; unfold fval, fv; rewrite Ct; reflexivity).
    assert (Hpt : posdef t).
    { unfold posdef. apply (pd_ext _ (fval f)); [intros; symmetry; apply Eft|].
      apply (pd_restrict string_dec _ drop); [exact Nkd|]. exact (pd_perm _ _ _ P Hp). }
    destruct (invert_pd (fmat f) Of Hp) as (i & Ei). destruct (invert_ok _ _ Of Ei) as (Ii & Oi & Vi).
    destruct (invert_pd (fmat t) Ot Hpt) as (j & Ej). destruct (invert_ok _ _ Ot Ej) as (Ij & Oj & Vj).
    destruct (held_inv f i Wf Ei) as [Hh Wh]. destruct (held_inv t j Wt Ej) as [Hht Wht].
    assert (Hat : In a (labels t)) by (destruct oc; [apply Ltp; auto|exact Ha]).
    assert (Haf : In a (labels f)) by (apply Hk in Hat; tauto).
    assert (Hof : In a (if oc then fcosmo f else labels f)) by (destruct oc; [apply Cot in Ha; tauto|exact Haf]).
    destruct (errors_get fom oc (with_inv f i) i a Wh Hh Hf) as (e & Ee & Ge).
    destruct (errors_get fom oc (with_inv t j) j a Wht Hht Hf) as (e' & Ee' & Ge').
    assert (P1 : flt 0 (fv i a a)) by exact (pd_diag_pos string_dec _ _ a Nf (pd_inv string_dec _ _ _ Nf Vi Hp) Haf).
    assert (P2 : flt 0 (fv j a a)) by exact (pd_diag_pos string_dec _ _ a Nt (pd_inv string_dec _ _ _ Nt Vj Hpt) Hat).
    exists (with_inv f i), e, (with_inv t j), e', (fsqrt (fv i a a)), (fsqrt (fv j a a)).
    split; [rewrite (errors_none fom oc f i HN Ei); exact Ee|].
    split; [rewrite (errors_none fom oc t j); [exact Ee'|congruence|exact Ej]|].
    change (fcosmo (with_inv f i)) with (fcosmo f) in Ge. change (labels (with_inv f i)) with (labels f) in Ge.
    change (fcosmo (with_inv t j)) with (fcosmo t) in Ge'. change (labels (with_inv t j)) with (labels t) in Ge'.
    rewrite (proj2 (smem_In a _) Hof) in Ge. rewrite (proj2 (smem_In a _) Ha) in Ge'.
    rewrite np_sqrt_pos in Ge by apply P1. rewrite np_sqrt_pos in Ge' by apply P2.
    split; [exact Ge|]. split; [exact Ge'|]. apply fsqrt_mono; [apply P2|].
    apply (restrict_var string_dec (labels t) drop (fval f) (fv i) (fv j) a).
    - exact Nkd.
    - destruct (pd_perm _ _ _ P Hp) as [H _]; exact H.
    - exact (pd_psd _ _ (pd_perm _ _ _ P Hp)).
    - exact (isinv_perm _ _ _ _ _ P Vi).
    - eapply isinv_ext; [|reflexivity|exact Vj]. intros x y _ _. apply Eft.
    - exact Hat.
  Qed.

  (** ** Histories. *)
  Definition inv_state f (s : istate) : Prop :=
    wf f /\ match s with
            | INone => finverse f = None
            | IFresh => exists i, held f i /\ isinv (labels f) (fval f) (fv i)
            | IStale => exists i, finverse f = Some i
            end.

  Lemma reach_inv f0 f s : wf f0 -> reach f0 f s -> inv_state f s.
  Proof.
    intros W0 R. induction R as [HN|f s f' R IH E|f s ps f' R IH E|f s fid frac f' R IH Hs Hnd E|f s ps f' r R IH E
                                |f s ps f' r R IH E|f s fom oc f' e R IH E|f s f' r R IH E].
    - split; assumption.
    - destruct IH as [Wf _]. unfold eval_inverse in E. destruct (invert_dataframe (fmat f)) as [i|] eqn:Ei; [|discriminate].
      injection E as <-. destruct (held_inv f i Wf Ei) as [Hh Wh]. split; [exact Wh|]. exists i. split; [exact Hh|].
      pose proof Wf as (Of & _). destruct (invert_ok _ _ Of Ei) as (_ & _ & Vi). exact Vi.
    - destruct IH as [Wf H].
      assert (Hps : forall x, In x ps -> In x (labels f)).
      { intros x Hx. destruct (in_dec string_dec x (labels f)) as [i|n]; [exact i|].
        rewrite (fix_unknown ps f Wf) in E; [discriminate|exists x; auto]. }
      destruct (fix_spec ps f Wf Hps) as (t0 & E0 & Wt & _ & _ & _ & _ & _ & It).
      rewrite E0 in E. injection E as ->. split; [exact Wt|].
      destruct s; cbn [touch]; rewrite It; [exact H|destruct H as (i & Hi & _); exists i; apply Hi|exact H].
    - destruct IH as [Wf H]. assert (Wt := add_prior_wf fid frac f f' Wf Hnd Hs E). split; [exact Wt|].
      assert (It : finverse f' = finverse f).
      { unfold add_prior in E. destruct (prior_frame _ _ _); [|discriminate]. injection E as <-. reflexivity. }
      destruct s; cbn [touch]; rewrite It; [exact H|destruct H as (i & Hi & _); exists i; apply Hi|exact H].
    - destruct IH as [Wf _]. destruct (marg_ok ps false f f' r Wf E)
        as (i & t & s' & Ei & Er & Ef & Wt & Lt & St & Is & Os & Ps & Vs & Inv & _).
      cbn in Ef. subst f'. split; [exact Wt|]. exists s'. split.
      + split; [exact Is|]. split; [exact Os|]. intros x. apply Permutation_in, Permutation_sym. exact Ps.
      + eapply isinv_ext; [reflexivity| |exact Inv]. intros a b Ha Hb. symmetry. apply Vs; assumption.
    - destruct IH as [Wf _]. destruct (marg_ok ps true f f' r Wf E) as (i & t & s' & Ei & Er & Ef & _).
      cbn in Ef. subst f'. destruct (held_inv f i Wf Ei) as [Hh Wh]. split; [exact Wh|]. exists i. split; [exact Hh|].
      pose proof Wf as (Of & _). destruct (invert_ok _ _ Of Ei) as (_ & _ & Vi). exact Vi.
    - destruct IH as [Wf H].
      assert (Ef : f' = fst (marginalized_errors fom oc f)) by (rewrite E; reflexivity).
      unfold marginalized_errors in E. destruct (finverse f) as [i|] eqn:Ei.
      + injection E as -> _. split; [exact Wf|]. destruct s; [discriminate H|exact H|exists i; exact Ei].
      + destruct (eval_inverse f) as [f1 [[]|e1]] eqn:E1; [|cbn in E; injection E; discriminate].
        injection E as -> _. unfold eval_inverse in E1.
        destruct (invert_dataframe (fmat f)) as [i|] eqn:Ei'; [|discriminate].
        assert (f' = with_inv f i) as -> by (injection E1; auto).
        destruct (held_inv f i Wf Ei') as [Hh Wh]. split; [exact Wh|].
        assert (Fr : exists i0, held (with_inv f i) i0 /\ isinv (labels (with_inv f i)) (fval (with_inv f i)) (fv i0)).
        { exists i. split; [exact Hh|]. pose proof Wf as (Of & _). destruct (invert_ok _ _ Of Ei') as (_ & _ & Vi). exact Vi. }
        destruct s; [exact Fr|exact Fr|eexists; reflexivity].
    - destruct IH as [Wf H].
      assert (G : f' = f \/ exists c, f' = with_corr f c).
      { unfold eval_correlation in E. destruct (finverse f) as [i|]; [|injection E as <- _; auto].
        cbn zeta in E. destruct (negb _) in E; [injection E as <- _; auto|].
        destruct (f_loc _ _ _) in E; injection E as <- _; right; eexists; reflexivity. }
      destruct G as [->|(c & ->)]; [split; assumption|]. split; [exact Wf|exact H].
  Qed.

  Lemma fcopy_wf f : wf f -> wf (fcopy f).
  Proof.
    intros (Of & Nc & Nn & L). split; [exact Of|]. split; [apply set_of_NoDup|]. split; [apply set_of_NoDup|].
    intros x. cbn [fcopy new_fisher fcosmo fnuis]. rewrite !set_of_In. apply L.
  Qed.

  (** With a fresh inverse the report is that of a fresh copy. *)
  Lemma errors_fresh fom oc f s e f' : inv_state f s -> s <> IStale -> marginalized_errors fom oc f = (f', Ok e) ->
    exists g, marginalized_errors fom oc (fcopy f) = (g, Ok e).
  Proof.
    intros [Wf H] Hs E. pose proof Wf as (Of & _). assert (Nf := wf_NoDup f Wf).
    assert (G : exists i j f1, held f1 i /\ wf f1 /\ fcosmo f1 = fcosmo f /\ labels f1 = labels f /\ figure_of_merit "w0" "wa" f1 = figure_of_merit "w0" "wa" f1 /\
              marginalized_errors fom oc f1 = (f', Ok e) /\ invert_dataframe (fmat f) = Ok j /\
              (forall a b, In a (labels f) -> In b (labels f) -> fv i a b = fv j a b)).
    { destruct s; [| |congruence].
      - destruct (invert_dataframe (fmat f)) as [i|er] eqn:Ei.
        + destruct (held_inv f i Wf Ei) as [Hh Wh]. exists i, i, (with_inv f i).
          rewrite (errors_none fom oc f i H Ei) in E. split; [exact Hh|]. split; [exact Wh|]. auto 10.
        + exfalso. unfold marginalized_errors, eval_inverse in E. rewrite H, Ei in E. cbn in E. injection E; discriminate.
      - destruct H as (i & Hh & Vi). destruct (invert_complete (fmat f) (fv i) Of Vi) as (j & Ej).
        exists i, j, f. split; [exact Hh|]. split; [exact Wf|]. do 3 (split; [reflexivity|]). split; [exact E|].
        split; [exact Ej|]. destruct (invert_ok _ _ Of Ej) as (_ & _ & Vj).
        apply (inv_unique string_dec (labels f) (fval f)); assumption. }
    clear E. destruct G as (i & j & f1 & Hh & W1 & C1 & L1 & _ & E & Ej & V).
    assert (Ecopy : invert_dataframe (fmat (fcopy f)) = Ok j) by exact Ej.
    destruct (held_inv (fcopy f) j (fcopy_wf f Wf) Ecopy) as [Hc Wc].
    rewrite (errors_none fom oc (fcopy f) j eq_refl Ecopy).
    destruct (errors_held fom oc f1 i W1 Hh) as (v & Ev & E1). rewrite E1 in E. injection E as <- <-.
    destruct (errors_held fom oc (with_inv (fcopy f) j) j Wc Hc) as (w & Ew & E2).
    eexists. rewrite E2. do 2 f_equal.
    change (labels (with_inv (fcopy f) j)) with (labels f) in *.
    change (fcosmo (with_inv (fcopy f) j)) with (set_of (fcosmo f)) in *.
    rewrite C1, L1 in *.
    assert (Evw : fom && subsetb ["w0"; "wa"]%string (labels f) = true -> v = w).
    { intros Ht. specialize (Ev Ht). specialize (Ew Ht). apply andb_true_iff in Ht. destruct Ht as [_ Ht].
      rewrite subsetb_spec in Ht.
      assert (I0 : In "w0"%string (labels f)) by (apply Ht; left; reflexivity).
      assert (Ia : In "wa"%string (labels f)) by (apply Ht; right; left; reflexivity).
      rewrite (fom_value "w0" "wa" f1 i Hh) in Ev; [|discriminate|rewrite L1; exact I0|rewrite L1; exact Ia].
      rewrite (fom_value "w0" "wa" _ j Hc) in Ew; [|discriminate|exact I0|exact Ia].
      rewrite !V in Ev by assumption. rewrite Ev in Ew. injection Ew as ->. reflexivity. }
    unfold with_fom. change (labels (with_inv (fcopy f) j)) with (labels f). rewrite L1.
    set (b := fom && subsetb ["w0"; "wa"]%string (labels f)) in *.
    set (lf := if oc then fcosmo f else labels f). set (lc := if oc then set_of (fcosmo f) else labels f).
    assert (Pl : Permutation lc lf).
    { unfold lc, lf. destruct oc; [|reflexivity]. apply NoDup_Permutation; [apply set_of_NoDup|apply Wf|].
      intros x. apply set_of_In. }
    assert (Sub : forall x, In x lf -> In x (labels f)).
    { unfold lf. destruct oc; [|auto]. intros x Hx. destruct Wf as (_ & _ & _ & Lf). apply Lf; auto. }
    assert (Gb : forall x, s_get (base_errs j lc) x = s_get (base_errs i lf) x).
    { intros x. unfold base_errs. rewrite (s_get_map (fun a => np_sqrt (fv j a a))), (s_get_map (fun a => np_sqrt (fv i a a))).
      destruct (smem_spec x lf) as [Hi|Hn].
      - rewrite (proj2 (smem_In x lc)) by (eapply Permutation_in; [apply Permutation_sym; exact Pl|exact Hi]).
        rewrite V by (apply Sub; exact Hi). reflexivity.
      - rewrite (proj2 (smem_false x lc)); [reflexivity|]. intros C. apply Hn. eapply Permutation_in; [exact Pl|exact C]. }
    assert (Pk : Permutation (map fst (base_errs j lc)) (map fst (base_errs i lf))).
    { unfold base_errs. rewrite !map_map. cbn [fst]. rewrite !map_id. exact Pl. }
    apply s_sort_eq.
    - destruct b; [|exact Pk].
      pose proof (dkeys_dset _ String.eqb_spec (base_errs j lc) "FoM"%string w) as K1.
      pose proof (dkeys_dset _ String.eqb_spec (base_errs i lf) "FoM"%string v) as K2.
      unfold dkeys in K1, K2. rewrite K1, K2. unfold dmem. specialize (Gb "FoM"%string). unfold s_get in Gb. rewrite Gb.
      destruct (dget String.eqb (base_errs i lf) "FoM"%string); [exact Pk|]. apply Permutation_app_tail. exact Pk.
    - intros x. destruct b; [|apply Gb]. rewrite Evw by reflexivity. unfold s_get.
      destruct (string_dec "FoM" x) as [<-|n].
      + rewrite !(dget_dset_same _ String.eqb_spec). reflexivity.
      + rewrite !(dget_dset_other _ String.eqb_spec) by exact n. apply Gb.
  Qed.

  (** ** Correlation matrix. *)
  Lemma correlation_ok f i : wf f -> finverse f = Some i -> frame_ok i -> ix i = labels f ->
    exists f' c, eval_correlation f = (f', Ok tt) /\ fcorr f' = Some c /\ finverse f' = Some i /\ fmat f' = fmat f /\
      ix c = ssort (fcosmo f) /\ cx c = ssort (fcosmo f) /\
      forall a b, In a (fcosmo f) -> In b (fcosmo f) ->
        ce c a b = corr_div (Some (fv i a b)) (lift2 fmul (np_sqrt (fv i b b)) (np_sqrt (fv i a a))).
  Proof.
    intros Wf Ei Oi Hix. pose proof Wf as (Of & _ & _ & Lf). pose proof Of as (Nd & Cx & _). pose proof Oi as (_ & Cxi & _).
    unfold labels in Hix. unfold eval_correlation. rewrite Ei. cbn zeta. rewrite Cxi, Hix, Cx, !Nat.eqb_refl. cbn [andb negb].
    assert (Hsub : forall x, In x (fcosmo f) -> In x (ix (fmat f))) by (intros x Hx; apply Lf; auto).
    unfold f_loc at 1. unfold f_op. cbn [ix cx]. rewrite !ijoin_same.
    rewrite (proj2 (subsetb_spec (fcosmo f) (ix (fmat f))) Hsub). cbn [andb].
    eexists. eexists. split; [reflexivity|]. split; [reflexivity|]. split; [exact Ei|]. split; [reflexivity|].
    split; [reflexivity|]. split; [reflexivity|]. intros a b Ha Hb. cbn [f_sort0 f_sort1 ce].
    apply Hsub in Ha, Hb.
    unfold f_get. cbn [ix cx ce]. rewrite Cxi, Hix.
    rewrite (proj2 (smem_In a _) Ha), (proj2 (smem_In b _) Hb). cbn [andb].
    rewrite (ce_fv i a b Oi) by (rewrite Hix; assumption). f_equal.
    rewrite (nth_pos a) by exact Ha. rewrite (nth_pos b) by exact Hb.
    rewrite !(ce_fv i) by (try exact Oi; rewrite Hix; assumption). reflexivity.
  Qed.
End Cond.
