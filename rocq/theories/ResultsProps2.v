(** Properties C21 (objects), C29 (subsets), C73 (values) and C100: what the
    matrices of result sets and analyses are. *)
From Verif Require Import Base MatInv LabLin SortLib StrLib FrameModel FrameLemmas FisherModel FisherSpec FisherLemmas FisherLemmas2 FisherLemmas3 FisherLemmas4 FisherLemmas5 RealInst
  HeapModel ResultsModel ResultsSpec HeapLemmas ResultsLemmas ResultsLemmas2 ResultsLemmas3 ResultsLemmas4.
From Coq Require Import Permutation Qcanon Reals.
Close Scope Qc_scope. Close Scope R_scope. Open Scope list_scope.

Section Props.
  Context {F : Type} {K : Fld F} {O : OFld (F := F)} {S : SqrtFld F} {SO : SetOrder}.
  Implicit Types h : heap F.

  (** ** C100 *)
  (** Which cosmological parameters vary in a cosmology. *)
  Definition varies (cosmology x : string) : Prop :=
    In x ["Omm"; "Omb"; "h"; "ns"; "sigma8"]%string \/
    (cosmology <> "LCDM"%string /\ In x ["w0"; "wa"]%string) \/
    (cosmology = "gamma_w0_wa_CDM"%string /\ x = "gamma"%string).
  Theorem C100_free_parameters cosmology :
    match free_names cosmology with
    | Ok l => In cosmology ["LCDM"; "w0_wa_CDM"; "gamma_w0_wa_CDM"]%string /\ NoDup l /\ forall x, In x l <-> varies cosmology x
    | Err e => e = EKeyError /\ ~ In cosmology ["LCDM"; "w0_wa_CDM"; "gamma_w0_wa_CDM"]%string
    end.
  Proof.
    unfold free_names, varies, LCDM_params.
    destruct (String.eqb_spec cosmology "LCDM") as [->|N1]; [|destruct (String.eqb_spec cosmology "w0_wa_CDM") as [->|N2]; [|destruct (String.eqb_spec cosmology "gamma_w0_wa_CDM") as [->|N3]]].
    1-3: (split; [cbn; auto|]; split; [apply (NoDup_count_occ' string_dec); intros x Hx; cbn in Hx; repeat destruct Hx as [<-|Hx]; try destruct Hx; reflexivity|]; intros x; cbn [In app]; intuition (subst; congruence)).
    split; [reflexivity|]. cbn. intuition congruence.
  Qed.

  (** What a result set makes of a matrix: the cosmological parameters that do
      not vary are fixed; the nuisance parameters are fixed, marginalised or
      kept. *)
  Definition treated (cosmology : string) (fids : dict string F) (mb fx : bool) (f g : fisher F) : Prop :=
    let fixed x := In x (dkeys fids) /\ ~ varies cosmology x in
    let gone x := In x (fnuis f) /\ (fx = true \/ (mb = true /\ fmflag f = true)) in
    wf g /\ (forall x, fixed x -> In x (labels f)) /\
    (forall x, In x (labels g) <-> In x (labels f) /\ ~ fixed x /\ ~ gone x) /\
    (forall x, In x (fcosmo g) <-> In x (fcosmo f) /\ ~ fixed x /\ ~ gone x) /\
    (forall x, In x (fnuis g) <-> In x (fnuis f) /\ ~ fixed x /\ ~ gone x) /\
    fname g = fname f /\
    if negb fx && mb && fmflag f
    then exists l C, NoDup l /\ (forall x, In x l <-> In x (labels f) /\ ~ fixed x) /\
           isinv string_dec l (fval f) C /\ isinv string_dec (labels g) (fval g) C
    else forall a b, In a (labels g) -> In b (labels g) -> fval g a b = fval f a b.

  Lemma fix_inv ps (f : fisher F) : wf f -> snd (fix_parameters ps f) = Ok tt ->
    (forall x, In x ps -> In x (labels f)) /\
    let t := fst (fix_parameters ps f) in wf t /\
      labels t = filter (fun x => negb (smem x ps)) (labels f) /\
      (forall a b, ce (fmat t) a b = ce (fmat f) a b) /\
      (forall x, In x (fcosmo t) <-> In x (fcosmo f) /\ ~ In x ps) /\
      (forall x, In x (fnuis t) <-> In x (fnuis f) /\ ~ In x ps) /\ fname t = fname f /\ fmflag t = fmflag f.
  Proof.
    intros W E. assert (Sb : forall x, In x ps -> In x (labels f)).
    { destruct (subsetb ps (labels f)) eqn:Es; [apply subsetb_spec; exact Es|]. exfalso.
      assert (X : exists x, In x ps /\ ~ In x (labels f)).
      { clear -Es. unfold subsetb in Es. induction ps as [|p ps IH]; [discriminate|]. cbn in Es. destruct (smem p (labels f)) eqn:M.
        - destruct IH as (x & A & B); [exact Es|]. exists x. split; [right; exact A|exact B].
        - exists p. split; [left; reflexivity|apply smem_false; exact M]. }
      rewrite (fix_unknown ps f W X) in E. discriminate E. }
    split; [exact Sb|]. destruct (fix_spec ps f W Sb) as (t & Et & Wt & L & C & A & B & Nm & _).
    assert (Fl : fmflag t = fmflag f).
    { unfold fix_parameters in Et. destruct (set_diff (set_of ps) (phys f)); [|discriminate Et]. destruct (rbind _ _); [|discriminate Et]. injection Et as <-. reflexivity. }
    rewrite Et. cbn [fst]. auto 10.
  Qed.
  Lemma treat_step cosmology (fids : dict string F) free (mb fx : bool) (f f1 g : fisher F) : wf f -> free_names cosmology = Ok free ->
    f1 = fst (fix_parameters (set_of (dkeys (filter (fun nv => negb (smem (fst nv) free)) fids))) (fcopy f)) ->
    snd (fix_parameters (set_of (dkeys (filter (fun nv => negb (smem (fst nv) free)) fids))) (fcopy f)) = Ok tt ->
    (if fx then fix_parameters (fnuis f1) f1 = (g, Ok tt)
     else if mb then exists r, marginalize_nuisance false f1 = (g, Ok r) else g = f1) ->
    treated cosmology fids mb fx f g.
  Proof.
    intros W Ef E1 E2 Eg. pose proof (C100_free_parameters cosmology) as Fr. rewrite Ef in Fr. destruct Fr as (_ & _ & Fr).
    set (ps := set_of (dkeys (filter (fun nv => negb (smem (fst nv) free)) fids))) in *.
    assert (Hp : forall x, In x ps <-> In x (dkeys fids) /\ ~ varies cosmology x).
    { intros x. unfold ps. rewrite set_of_In. unfold dkeys. rewrite !in_map_iff. split.
      - intros ([k v] & <- & H). apply filter_In in H. destruct H as [H B]. cbn in *. apply Bool.negb_true_iff, smem_false in B. rewrite <- Fr. split; [exists (k, v); auto|exact B].
      - intros (([k v] & <- & H) & Nv). exists (k, v). split; [reflexivity|]. apply filter_In. split; [exact H|]. cbn in *. apply Bool.negb_true_iff, smem_false. rewrite Fr. exact Nv. }
    assert (Wc : wf (fcopy f)) by (apply fcopy_wf; exact W).
    destruct (fix_inv ps (fcopy f) Wc E2) as (Sb & W1 & L1 & C1 & A1 & B1 & Nm1 & Fl1). rewrite <- E1 in *. cbn [fcopy new_fisher fmat fcosmo fnuis fname fmflag labels] in *.
    assert (A1' : forall x, In x (fcosmo f1) <-> In x (fcosmo f) /\ ~ In x ps) by (intros x; rewrite A1, set_of_In; reflexivity).
    assert (B1' : forall x, In x (fnuis f1) <-> In x (fnuis f) /\ ~ In x ps) by (intros x; rewrite B1, set_of_In; reflexivity).
    assert (L1' : forall x, In x (labels f1) <-> In x (labels f) /\ ~ In x ps).
    { intros x. rewrite L1, filter_In, Bool.negb_true_iff, smem_false. reflexivity. }
    assert (V1 : forall a b, fval f1 a b = fval f a b) by (intros a b; unfold fval, fv; rewrite C1; reflexivity).
    unfold treated. destruct fx.
    - assert (Sn : forall x, In x (fnuis f1) -> In x (labels f1)) by (intros x Hx; destruct W1 as (_ & _ & _ & Lw); apply Lw; right; exact Hx).
      destruct (fix_spec (fnuis f1) f1 W1 Sn) as (t & Et & Wt & Lt & Ct & At & Bt & Nt & _). rewrite Et in Eg. injection Eg as ->.
      split; [exact Wt|]. split; [intros x Hx; apply Sb, Hp; exact Hx|]. cbn [negb andb].
      assert (Q : forall x, ~ In x (fnuis f1) /\ ~ In x ps <-> ~ (In x (dkeys fids) /\ ~ varies cosmology x) /\ ~ (In x (fnuis f) /\ (true = true \/ mb = true /\ fmflag f = true))).
      { intros x. rewrite <- (Hp x), B1'. intuition. }
      split; [|split; [|split; [|split; [congruence|]]]].
      + intros x. rewrite Lt, filter_In, Bool.negb_true_iff, smem_false, L1', <- Q. tauto.
      + intros x. rewrite At, A1', <- Q. tauto.
      + intros x. rewrite Bt, B1'. rewrite <- (Hp x). intuition.
      + intros a b _ _. rewrite <- V1. unfold fval, fv. rewrite Ct. reflexivity.
    - destruct mb.
      + destruct Eg as (r & Eg). unfold marginalize_nuisance in Eg. rewrite Fl1 in Eg. destruct (fmflag f) eqn:Fl.
        * destruct (margd_spec (fnuis f1) false f1 g W1) as (C & HC & Wt & Lt & _ & Cv & _ & At & Bt & _).
          { exists g, r. split; [exact Eg|]. destruct r; [|reflexivity]. destruct (marg_ok _ _ _ _ _ W1 Eg) as (? & ? & ? & _ & H & _). discriminate H. }
          assert (Nt : fname g = fname f1) by (destruct (marg_ok _ _ _ _ _ W1 Eg) as (? & ? & ? & _ & _ & -> & ?); tauto).
          assert (Q : forall x, ~ In x (fnuis f1) /\ ~ In x ps <-> ~ (In x (dkeys fids) /\ ~ varies cosmology x) /\ ~ (In x (fnuis f) /\ (false = true \/ true = true /\ true = true))).
          { intros x. rewrite <- (Hp x), B1'. intuition. }
          split; [exact Wt|]. split; [intros x Hx; apply Sb, Hp; exact Hx|]. cbn [negb andb].
          split; [|split; [|split; [|split; [congruence|]]]].
          -- intros x. rewrite Lt, L1', <- Q. tauto.
          -- intros x. rewrite At, A1', <- Q. tauto.
          -- intros x. rewrite Bt, B1'. rewrite <- (Hp x). intuition.
          -- exists (labels f1), C. split; [apply wf_NoDup; exact W1|]. split; [intros x; rewrite L1', Hp; reflexivity|]. split; [|exact Cv].
             unfold covariance in HC. eapply isinv_ext; [| |exact HC]; [intros a b _ _; apply V1|reflexivity].
        * injection Eg as <- _. split; [exact W1|]. split; [intros x Hx; apply Sb, Hp; exact Hx|]. cbn [negb andb].
          split; [|split; [|split; [|split; [congruence|]]]].
          -- intros x. rewrite L1', Hp. intuition congruence.
          -- intros x. rewrite A1', Hp. intuition congruence.
          -- intros x. rewrite B1', Hp. intuition congruence.
          -- intros a b _ _. apply V1.
      + subst g. split; [exact W1|]. split; [intros x Hx; apply Sb, Hp; exact Hx|]. cbn [negb andb].
        split; [|split; [|split; [|split; [congruence|]]]].
        * intros x. rewrite L1', Hp. intuition congruence.
        * intros x. rewrite A1', Hp. intuition congruence.
        * intros x. rewrite B1', Hp. intuition congruence.
        * intros a b _ _. apply V1.
  Qed.
  Lemma acts_fixnuis : acts fix_nuis (fun f f' : fisher F => fix_parameters (fnuis f) f = (f', Ok tt)).
  Proof.
    intros a h f h' V E. unfold fix_nuis in E. rewrite (proj2 (hget_view _ _ _) V) in E.
    destruct (acts_unit true (fix_parameters (fnuis f)) a h f h' V E) as ((f' & V' & R1 & R2) & L & Oth).
    split; [|split; [exact L|exact Oth]]. exists f'. split; [exact V'|]. unfold assigned in R2. subst f'. destruct (fix_parameters (fnuis f) f) as [x r]. cbn in *. congruence.
  Qed.
  Lemma comb_wf gs : forall f0 : fisher F, wf f0 -> (forall og, In og gs -> wf (snd og)) -> wf (comb_value f0 gs).
  Proof.
    unfold comb_value. induction gs as [|[b g] gs IH]; intros f0 W Wg; [exact W|]. cbn [fold_left fst snd]. apply IH.
    - assert (W' : wf g) by (apply (Wg (b, g)); left; reflexivity). destruct b.
      + apply (fcombine_spec fadd " + " f0 g W W').
      + apply (fcombine_spec fsub " - " f0 g W W').
    - intros og H. apply Wg. right; exact H.
  Qed.
  Lemma Forall2_l {A B} (R : A -> B -> Prop) l m x : Forall2 R l m -> In x l -> exists y, In y m /\ R x y.
  Proof. intros D. induction D as [|a b ? ? H D IH]; [intros []|]. intros [<-|Hx]; [exists b; split; [left; reflexivity|exact H]|]. destruct (IH Hx) as (y & ? & ?). exists y. split; [right|]; assumption. Qed.
  Lemma Forall2_r {A B} (R : A -> B -> Prop) l m y : Forall2 R l m -> In y m -> exists x, In x l /\ R x y.
  Proof. intros D. induction D as [|a b ? ? H D IH]; [intros []|]. intros [<-|Hy]; [exists a; split; [left; reflexivity|exact H]|]. destruct (IH Hy) as (x & ? & ?). exists x. split; [right|]; assumption. Qed.
  (** The inverse a matrix has cached, if any, is its inverse. *)
  Definition honest (f : fisher F) : Prop := finverse f = None \/ exists i, held f i /\ isinv string_dec (labels f) (fval f) (fv i).
  Lemma step_honest ps (mb fx : bool) (f f1 g : fisher F) : wf f -> f1 = fst (fix_parameters ps (fcopy f)) -> snd (fix_parameters ps (fcopy f)) = Ok tt ->
    (if fx then fix_parameters (fnuis f1) f1 = (g, Ok tt)
     else if mb then exists r, marginalize_nuisance false f1 = (g, Ok r) else g = f1) -> honest g.
  Proof.
    intros W E1 E2 Eg. assert (Wc : wf (fcopy f)) by (apply fcopy_wf; exact W).
    destruct (fix_inv ps (fcopy f) Wc E2) as (Sb & W1 & _). destruct (fix_spec ps (fcopy f) Wc Sb) as (t & Et & _ & _ & _ & _ & _ & _ & It). rewrite Et in E1, W1. cbn [fst] in E1, W1. subst f1. cbn in It.
    destruct fx.
    - assert (Sn : forall x, In x (fnuis t) -> In x (labels t)) by (intros x Hx; destruct W1 as (_ & _ & _ & Lw); apply Lw; right; exact Hx).
      destruct (fix_spec (fnuis t) t W1 Sn) as (u & Eu & _ & _ & _ & _ & _ & _ & Iu). left. congruence.
    - destruct mb; [|left; congruence]. destruct Eg as (r & Eg). unfold marginalize_nuisance in Eg. destruct (fmflag t); [|left; congruence].
      destruct (marg_ok _ _ _ _ _ W1 Eg) as (i & u & s & _ & _ & -> & Wu & _ & _ & Iu & Os & Ps & Vs & Inv & _). right. exists s. split.
      + split; [exact Iu|]. split; [exact Os|]. intros x Hx. eapply Permutation_in; [apply Permutation_sym; exact Ps|exact Hx].
      + eapply isinv_ext; [| |exact Inv]; [reflexivity|]. intros a b Ha Hb. symmetry. apply Vs; assumption.
  Qed.
  Lemma comb_honest gs : forall f0 : fisher F, wf f0 -> (forall og, In og gs -> wf (snd og)) -> honest f0 -> honest (comb_value f0 gs).
  Proof.
    unfold comb_value. induction gs as [|[b g] gs IH]; intros f0 W Wg Hn; [exact Hn|]. cbn [fold_left fst snd]. assert (W' : wf g) by (apply (Wg (b, g)); left; reflexivity). apply IH.
    - destruct b; [apply (fcombine_spec fadd " + " f0 g W W')|apply (fcombine_spec fsub " - " f0 g W W')].
    - intros og H. apply Wg. right; exact H.
    - left. destruct b; [apply (fcombine_spec fadd " + " f0 g W W')|apply (fcombine_spec fsub " - " f0 g W W')].
  Qed.
  (** The row of errors of such a matrix. *)
  Definition row_of (f : fisher F) (r : row (F := F)) : Prop :=
    exists C, isinv string_dec (labels f) (fval f) C /\
      forall a, a <> "FoM"%string -> dget String.eqb r a = if smem a (fcosmo f) then Some (np_sqrt (C a a)) else None.
  Lemma honest_row (f : fisher F) r : wf f -> honest f -> snd (marginalized_errors true true f) = Ok r -> row_of f r.
  Proof.
    intros W [Hn|(i & Hi & Iv)] E.
    - destruct (invert_dataframe (fmat f)) as [i|e] eqn:Ei.
      + rewrite (errors_none true true f i Hn Ei) in E. destruct (held_inv f i W Ei) as (Hh & Wh). pose proof W as (Of & _). destruct (invert_ok _ _ Of Ei) as (_ & _ & Vi).
        exists (fv i). split; [exact Vi|]. intros a Na. destruct (errors_get true true (with_inv f i) i a Wh Hh Na) as (e & Ee & Ge). rewrite Ee in E. injection E as <-. exact Ge.
      + unfold marginalized_errors, eval_inverse in E. rewrite Hn, Ei in E. discriminate E.
    - exists (fv i). split; [exact Iv|]. intros a Na. destruct (errors_get true true f i a W Hi Na) as (e & Ee & Ge). rewrite Ee in E. injection E as <-. exact Ge.
  Qed.
  Definition nothing : fisher F := mkFisher (mkF [] [] (fun _ _ => None)) ""%string [] [] None None true.

  Lemma result_set base cosmology fids cs mb fx h h' an :
    let name (c : string * list (bool * string)) := comb_text (fst c) (snd c) in
    let needs (c : string * list (bool * string)) n := n = fst c \/ In n (map snd (snd c)) in
    NoDup (dkeys base) -> NoDup (map snd base) ->
    (forall k a, In (k, a) base -> exists f, view h a = Some f /\ wf f) -> (forall k, In k (dkeys base) -> plain k) ->
    (forall c n, In c cs -> needs c n -> plain n) ->
    create_results base cosmology fids (map name cs) mb fx h = (h', Ok an) ->
    In cosmology ["LCDM"; "w0_wa_CDM"; "gamma_w0_wa_CDM"]%string /\
    (forall nv, In nv (an_fid an) <-> In nv fids /\ varies cosmology (fst nv)) /\
    (forall k, In k (dkeys (an_fishers an)) <->
       In k (dkeys base) \/ exists c, In c cs /\ k = name c /\ forall n, needs c n -> In n (dkeys base)) /\
    NoDup (dkeys (an_fishers an)) /\ NoDup (map snd (an_fishers an)) /\
    (exists te, an_errs an = Some te /\ an_rel an = Some (rel_table (an_fid an) te) /\ dkeys te = dkeys (an_fishers an) /\
       forall k t, at_key h' (an_fishers an) k = Some t -> exists r, dget String.eqb te k = Some r /\ row_of t r) /\
    exists treat : string -> fisher F,
      (forall k f, at_key h base k = Some f -> treated cosmology fids mb fx f (treat k) /\
         exists t, at_key h' (an_fishers an) k = Some t /\ same t (treat k) /\ wf t /\ fname t = fname (treat k)) /\
      (forall c, In c cs -> (forall n, needs c n -> In n (dkeys base)) ->
         exists t, at_key h' (an_fishers an) (name c) = Some t /\
           let v := comb_value (treat (fst c)) (map (fun on => (fst on, treat (snd on))) (snd c)) in same t v /\ wf t /\ fname t = fname v).
  Proof.
    intros name needs Nk Na Hb Pk Pc E. unfold create_results in E.
    assert (Lv : live h base) by (intros k a Hin; destruct (Hb k a Hin) as (f & V & _); congruence).
    destruct (deep_spec base [] h Na (fun _ _ => eq_refl) Lv) as (h1 & Fs & E1 & G1 & Ks & Nf & Fr & Fa).
    unfold bind at 1 in E. rewrite E1 in E. unfold bind at 1, of_res at 1 in E.
    pose proof (C100_free_parameters cosmology) as Free. destruct (free_names cosmology) as [free|] eqn:Efree; [|discriminate E].
    destruct Free as (Cn & _ & Free). split; [exact Cn|]. cbn zeta in E.
    set (ps := set_of (dkeys (filter (fun nv => negb (smem (fst nv) free)) fids))) in E.
    assert (L1 : live h1 Fs).
    { intros k b Hin. destruct (Forall2_r _ _ _ _ Fa Hin) as (x & _ & _ & f & _ & V). cbn in V. congruence. }
    unfold bind at 1 in E. destruct (for_each (fun ka => h_fix ps (snd ka)) Fs h1) as [h2 [[]|]] eqn:E2; [|discriminate E].
    destruct (each_inv _ _ Fs (acts_unit true (fix_parameters ps)) h1 h2 Nf L1 E2) as (A2 & Ln2 & O2).
    assert (L2 : live h2 Fs).
    { intros k b Hin V. destruct (view h1 b) as [x|] eqn:Vx; [|exact (L1 k b Hin Vx)]. destruct (A2 k b x Hin Vx) as (y & Vy & _). congruence. }
    unfold bind at 1 in E.
    match type of E with context [match ?X with _ => _ end] => destruct X as [h3 [[]|]] eqn:E3 end; [|discriminate E].
    assert (A3 : forall k b f1, In (k, b) Fs -> view h2 b = Some f1 -> exists g, view h3 b = Some g /\
       (if fx then fix_parameters (fnuis f1) f1 = (g, Ok tt) else if mb then exists r, marginalize_nuisance false f1 = (g, Ok r) else g = f1)).
    { intros k b f1 Hin V. destruct fx.
      - destruct (each_inv _ _ Fs acts_fixnuis h2 h3 Nf L2 E3) as (A & _). exact (A k b f1 Hin V).
      - destruct mb.
        + destruct (each_inv _ _ Fs (acts_method true (marginalize_nuisance false) (fun _ => ret tt) (fun _ _ => eq_refl)) h2 h3 Nf L2 E3) as (A & _).
          destruct (A k b f1 Hin V) as (g & Vg & r & R1 & R2). exists g. split; [exact Vg|]. exists r. unfold assigned in R2. subst g. destruct (marginalize_nuisance false f1) as [x y]. cbn in *. congruence.
        + injection E3 as <-. exists f1. auto. }
    assert (Tr : forall k f, at_key h base k = Some f -> exists b g, In (k, b) Fs /\ view h3 b = Some g /\ treated cosmology fids mb fx f g /\ honest g).
    { intros k f Hk. unfold at_key in Hk. destruct (dget String.eqb base k) as [a|] eqn:Gk; [|discriminate Hk]. apply (dget_In _ String.eqb_spec) in Gk.
      destruct (Forall2_l _ _ _ _ Fa Gk) as ([k' b] & Hin & Ek & f' & Vf & Vb). cbn in Ek, Vf, Vb. subst k'. assert (f' = f) by congruence. subst f'.
      destruct (A2 k b _ Hin Vb) as (f1 & V1 & R1 & R2). cbn [assigned] in R2. destruct (A3 k b f1 Hin V1) as (g & Vg & Rg). exists b, g. split; [exact Hin|]. split; [exact Vg|].
      destruct (Hb k a Gk) as (f'' & Vf'' & W). assert (f'' = f) by congruence. subst f''.
      split; [exact (treat_step cosmology fids free mb fx f f1 g W Efree R2 R1 Rg)|exact (step_honest ps mb fx f f1 g W R2 R1 Rg)]. }
    assert (NkF : NoDup (dkeys Fs)) by (rewrite Ks; exact Nk).
    assert (atF : forall k b, In (k, b) Fs -> dget String.eqb Fs k = Some b) by (intros k b; apply (dget_NoDup_In _ String.eqb_spec); exact NkF).
    assert (Base : forall k b, In (k, b) Fs -> exists f g, at_key h base k = Some f /\ view h3 b = Some g /\ treated cosmology fids mb fx f g /\ honest g).
    { intros k b Hin. destruct (Forall2_r _ _ _ _ Fa Hin) as ([k' a] & Ha & Ek & f & Vf & Vb). cbn in Ek, Vf, Vb. subst k'.
      assert (Hk : at_key h base k = Some f) by (unfold at_key; rewrite (dget_NoDup_In _ String.eqb_spec _ _ _ Nk Ha); exact Vf).
      destruct (Tr k f Hk) as (b' & g & Hin' & Vg & T). exists f, g. split; [exact Hk|]. apply atF in Hin'. apply atF in Hin. split; [congruence|exact T]. }
    assert (L3 : live h3 Fs) by (intros k b Hin; destruct (Base k b Hin) as (? & g & _ & V & _); congruence).
    assert (Pcs : Forall all_plain cs).
    { apply Forall_forall. intros c Hc. split; [apply (Pc c); [exact Hc|left; reflexivity]|]. intros on Hon. apply (Pc c); [exact Hc|right; apply in_map; exact Hon]. }
    destruct (combs_spec cs h3 Fs Pcs L3) as (h4 & d4 & E4 & G4 & L4 & K4 & P4 & V4 & M4).
    destruct (combs_nodup cs h3 Fs h4 d4 Pcs L3 NkF Nf E4) as (Nk4 & Na4).
    unfold bind at 1 in E. change (map name cs) with (texts cs) in E. rewrite E4 in E.
    set (treat := fun k => match at_key h3 Fs k with Some g => g | None => nothing end).
    assert (inF : forall k, In k (dkeys base) <-> exists b, In (k, b) Fs).
    { intros k. rewrite <- Ks. unfold dkeys. rewrite in_map_iff. split; [intros ([k' b] & <- & H); exists b; exact H|intros (b & H); exists (k, b); auto]. }
    assert (Ktreat : forall k, In k (dkeys base) -> at_key h3 Fs k = Some (treat k) /\ wf (treat k) /\ honest (treat k)).
    { intros k Hk. apply inF in Hk. destruct Hk as (b & Hin). destruct (Base k b Hin) as (f & g & _ & Vg & (W & _) & Hg). unfold treat, at_key. rewrite (atF k b Hin), Vg. auto. }
    assert (Cops : forall c, In c cs -> (forall n, needs c n -> In n (dkeys base)) ->
      at_key h4 d4 (name c) = Some (comb_value (treat (fst c)) (map (fun on => (fst on, treat (snd on))) (snd c)))).
    { intros c Hc Hn. apply V4; [exact Hc|apply Ktreat, Hn; left; reflexivity|].
      assert (Hn' : forall on, In on (snd c) -> In (snd on) (dkeys base)) by (intros on Hon; apply Hn; right; apply in_map; exact Hon).
      clear -Hn' Ktreat. induction (snd c) as [|on ops IH]; constructor; [|apply IH; intros; apply Hn'; right; assumption].
      split; [reflexivity|]. cbn [snd]. apply Ktreat, Hn'. left; reflexivity. }
    assert (Dec : forall c, (forall n, needs c n -> In n (dkeys base)) \/ exists n, needs c n /\ dget String.eqb Fs n = None).
    { intros [n0 ops]. assert (D : forall l : list string, (forall n, In n l -> In n (dkeys base)) \/ exists n, In n l /\ ~ In n (dkeys base)).
      { induction l as [|x l [H|(n & A & B)]]; [left; intros ? []| |right; exists n; split; [right; exact A|exact B]].
        destruct (in_dec string_dec x (dkeys base)) as [I|I]; [left; intros n [<-|?]; auto|right; exists x; split; [left; reflexivity|exact I]]. }
      destruct (D (n0 :: map snd ops)) as [H|(n & A & B)].
      - left. intros n [->|Hn]; apply H; [left; reflexivity|right; exact Hn].
      - right. exists n. split; [destruct A as [<-|A]; [left; reflexivity|right; exact A]|]. apply (dget_None _ String.eqb_spec). rewrite Ks. exact B. }
    assert (Keys4 : forall k, In k (dkeys d4) <-> In k (dkeys base) \/ exists c, In c cs /\ k = name c /\ forall n, needs c n -> In n (dkeys base)).
    { intros k. assert (Q : forall k (d : odict), In k (dkeys d) <-> dget String.eqb d k <> None).
      { clear. intros k d. destruct (dget String.eqb d k) eqn:G; split; intros H; try discriminate; try congruence.
        - apply (dget_In _ String.eqb_spec) in G. unfold dkeys. apply in_map_iff. exists (k, n); auto.
        - apply (dget_None _ String.eqb_spec) in G. contradiction. }
      rewrite Q, <- Ks, (Q k Fs). split.
      - intros H. destruct (in_dec string_dec k (texts cs)) as [I|I]; [|left; rewrite <- K4 by exact I; exact H].
        unfold texts in I. apply in_map_iff in I. destruct I as (c & <- & Hc). destruct (Dec c) as [D|(n & A & B)].
        + right. exists c. split; [exact Hc|]. split; [reflexivity|]. intros n Hn. rewrite Ks. apply D; exact Hn.
        + left. rewrite <- (M4 c n Hc A B). exact H.
      - intros [H|(c & Hc & -> & Hn)].
        + rewrite P4; [exact H|]. apply Pk. rewrite <- Ks, Q. exact H.
        + rewrite Ks in Hn. specialize (Cops c Hc Hn). unfold at_key in Cops. destruct (dget String.eqb d4 (name c)); [discriminate|discriminate Cops]. }
    assert (W4 : forall k a, In (k, a) d4 -> exists f, view h4 a = Some f /\ (wf f /\ (forall x, In x (fcosmo f) -> true = true \/ ~ In x (fnuis f))) /\ honest f).
    { intros k a Hin. assert (Gk := dget_NoDup_In _ String.eqb_spec _ _ _ Nk4 Hin).
      destruct (proj1 (Keys4 k)) as [Hk|(c & Hc & -> & Hn)]; [unfold dkeys; apply in_map_iff; exists (k, a); auto| |].
      - destruct (Ktreat k Hk) as (T1 & T2 & T3). exists (treat k). unfold at_key in T1. rewrite <- (P4 k (Pk k Hk)), Gk in T1. split; [eapply grows_view; eauto|]. auto.
      - specialize (Cops c Hc Hn). unfold at_key in Cops. rewrite Gk in Cops. eexists. split; [exact Cops|].
        assert (Wo : forall og, In og (map (fun on => (fst on, treat (snd on))) (snd c)) -> wf (snd og)).
        { intros og Hog. apply in_map_iff in Hog. destruct Hog as (on & <- & Hon). cbn [snd]. apply Ktreat, Hn. right. apply in_map; exact Hon. }
        assert (W0 : wf (treat (fst c)) /\ honest (treat (fst c))) by (apply Ktreat, Hn; left; reflexivity). destruct W0 as (W0 & H0).
        split; [split; [apply comb_wf; assumption|auto]|apply comb_honest; assumption]. }
    destruct (init_spec None d4 (filter (fun nv => smem (fst nv) free) fids) true h4 Nk4 Na4) as (h5 & E5 & V5 & _).
    { intros k a Hin. destruct (W4 k a Hin) as (f & A & B & _). exists f. auto. }
    unfold bind at 1 in E. rewrite E5 in E. clear E5. set (an0 := mkAn None d4 None _ None None true) in E. unfold bind at 1 in E.
    destruct (eval_errors an0 h5) as [h6 [an1|]] eqn:E6; [|discriminate E].
    destruct (errors_spec an0 h5 h6 an1 Na4 E6) as (t & T1 & T2 & T3 & T4 & T5 & T6).
    unfold of_res, eval_rel in E. rewrite T1 in E. injection E as <- <-. cbn [an_fid an_fishers an_errs an_rel]. rewrite T3, T4. cbn [an0 an_fid an_fishers] in T5, T6 |- *.
    assert (Fin : forall k g, at_key h4 d4 k = Some g -> exists z, at_key h6 d4 k = Some z /\ (same z g /\ wf z /\ fname z = fname g) /\ exists r, dget String.eqb t k = Some r /\ row_of z r).
    { intros k g Hk. unfold at_key in Hk |- *. destruct (dget String.eqb d4 k) as [a|] eqn:Gk; [|discriminate Hk]. apply (dget_In _ String.eqb_spec) in Gk.
      destruct (W4 k a Gk) as (g' & Vg & (W & Dj) & Hg). assert (g' = g) by congruence. subst g'. pose proof (V5 k a g Gk Hk) as V5'.
      destruct (select_spec (with_flag true g) W Dj) as (u & Eu & Wu & Lu & Cu & Su & Nu & Nmu & Iu & _). rewrite Eu in V5'. cbn [fst] in V5'. cbn [with_flag fmflag orb] in Lu, Nu.
      assert (Lu' : forall x, In x (labels u) <-> In x (labels g)) by (intros x; rewrite Lu, ssort_In, filter_In; cbn; intuition).
      assert (Hu : honest u).
      { destruct Hg as [Hg|(i & (I1 & I2 & I3) & Iv)]; [left; rewrite Iu; exact Hg|right]. exists i. split; [split; [rewrite Iu; exact I1|split; [exact I2|intros x Hx; apply I3, Lu'; exact Hx]]|].
        assert (Pm : Permutation (labels g) (labels u)) by (apply NoDup_perm_iff; [apply wf_NoDup; exact W|apply wf_NoDup; exact Wu|intros x; rewrite Lu'; reflexivity]).
        eapply isinv_ext; [| |eapply isinv_perm; [exact Pm|exact Iv]]; [|reflexivity]. intros x y _ _. unfold fval, fv. rewrite Cu. reflexivity. }
      destruct (T6 k a u Gk V5') as (r & Er & Hr). pose proof (honest_row u r Wu Hu Er) as Ru.
      unfold eval_errors in E6. cbn [an0 an_fishers] in E6. destruct d4 as [|p d4']; [destruct Gk|]. unfold bind at 1 in E6.
      match type of E6 with context [map_each ?ff ?dd h5] => destruct (map_each ff dd h5) as [h7 [rows|]] eqn:E7 end; [|discriminate E6].
      cbn in E6. injection E6 as <- _. destruct (map_rows_keep _ _ _ _ E7 a u V5') as (z & Vz & Z1 & Z2 & Z3 & Z4). exists z. split; [exact Vz|]. split.
      - split; [|split; [unfold wf, labels in *; rewrite Z1, Z2, Z3; exact Wu|rewrite Z4; exact Nmu]].
        unfold same, labels, fval in *. rewrite Z1, Z2, Z3, Su, Nu. cbn [with_flag fcosmo fnuis fmat] in *. split; [|split; [|split; reflexivity]].
        + exact Lu'.
        + intros a0 b0 _ _. unfold fv. rewrite Cu. reflexivity.
      - exists r. split; [apply (dget_NoDup_In _ String.eqb_spec); [rewrite T5; exact Nk4|exact Hr]|]. unfold row_of, labels, fval in *. rewrite Z1, Z2. exact Ru. }
    assert (At4 : forall k z, at_key h6 d4 k = Some z -> exists g, at_key h4 d4 k = Some g).
    { intros k z Hz. unfold at_key in *. destruct (dget String.eqb d4 k) as [a|] eqn:Gk; [|discriminate Hz]. apply (dget_In _ String.eqb_spec) in Gk. destruct (W4 k a Gk) as (f & V & _). exists f. exact V. }
    split; [|split; [exact Keys4|split; [exact Nk4|split; [exact Na4|split]]]].
    - intros nv. rewrite filter_In, smem_In, Free. reflexivity.
    - exists t. split; [reflexivity|]. split; [reflexivity|]. split; [exact T5|]. intros k z Hz. destruct (At4 k z Hz) as (g & Hg). destruct (Fin k g Hg) as (z' & Hz' & _ & R). assert (z' = z) by congruence. subst z'. exact R.
    - exists treat. split.
      + intros k f Hk. destruct (Tr k f Hk) as (b & g & Hin & Vg & T & _). assert (Et : treat k = g) by (unfold treat, at_key; rewrite (atF k b Hin), Vg; reflexivity).
        rewrite Et. split; [exact T|]. assert (Hkb : In k (dkeys base)) by (apply inF; exists b; exact Hin).
        destruct (Fin k g) as (z & A & B & _); [unfold at_key; rewrite (P4 k (Pk k Hkb)), (atF k b Hin); eapply grows_view; eauto|]. exists z. auto.
      + intros c Hc Hn. destruct (Fin _ _ (Cops c Hc Hn)) as (z & A & B & _). exists z. auto.
  Qed.
  Theorem C100_result_set base cosmology fids cs mb fx h h' an :
    let name (c : string * list (bool * string)) := comb_text (fst c) (snd c) in
    let needs (c : string * list (bool * string)) n := n = fst c \/ In n (map snd (snd c)) in
    NoDup (dkeys base) -> NoDup (map snd base) ->
    (forall k a, In (k, a) base -> exists f, view h a = Some f /\ wf f) -> (forall k, In k (dkeys base) -> plain k) ->
    (forall c n, In c cs -> needs c n -> plain n) ->
    create_results base cosmology fids (map name cs) mb fx h = (h', Ok an) ->
    In cosmology ["LCDM"; "w0_wa_CDM"; "gamma_w0_wa_CDM"]%string /\
    (forall nv, In nv (an_fid an) <-> In nv fids /\ varies cosmology (fst nv)) /\
    (forall k, In k (dkeys (an_fishers an)) <->
       In k (dkeys base) \/ exists c, In c cs /\ k = name c /\ forall n, needs c n -> In n (dkeys base)) /\
    exists treat : string -> fisher F,
      (forall k f, at_key h base k = Some f -> treated cosmology fids mb fx f (treat k) /\
         exists t, at_key h' (an_fishers an) k = Some t /\ same t (treat k)) /\
      (forall c, In c cs -> (forall n, needs c n -> In n (dkeys base)) ->
         exists t, at_key h' (an_fishers an) (name c) = Some t /\
           same t (comb_value (treat (fst c)) (map (fun on => (fst on, treat (snd on))) (snd c)))).
  Proof.
    intros name needs Nk Na Hb Pk Pc E. destruct (result_set base cosmology fids cs mb fx h h' an Nk Na Hb Pk Pc E) as (A & B & C & _ & _ & _ & treat & D1 & D2).
    split; [exact A|]. split; [exact B|]. split; [exact C|]. exists treat. split.
    - intros k f Hk. destruct (D1 k f Hk) as (T & t & Et & S1 & _). split; [exact T|]. exists t. auto.
    - intros c Hc Hn. destruct (D2 c Hc Hn) as (t & Et & S1 & _). exists t. auto.
  Qed.

  (** Positive definite matrices and sums of them always give a result set. *)
  Definition good (f : fisher F) : Prop := wf f /\ posdef f /\ (finverse f = None \/ exists i, held f i).
  Lemma each_total g (P Q : fisher F -> Prop) (d : odict) :
    (forall a h f, view h a = Some f -> P f -> exists h', g a h = (h', Ok tt) /\ (exists f', view h' a = Some f' /\ Q f') /\
       (forall b x, b <> a -> view h b = Some x -> view h' b = Some x)) ->
    forall h, NoDup (map snd d) -> (forall k a, In (k, a) d -> exists f, view h a = Some f /\ P f) ->
    exists h', for_each (fun ka => g (snd ka)) d h = (h', Ok tt) /\ (forall k a, In (k, a) d -> exists f, view h' a = Some f /\ Q f) /\
      (forall b x, ~ In b (map snd d) -> view h b = Some x -> view h' b = Some x).
  Proof.
    intros G. induction d as [|[k a] d IH]; intros h N H.
    - exists h. cbn. split; [reflexivity|]. split; [intros ? ? []|auto].
    - inversion N as [|? ? Na N']; subst. destruct (H k a (or_introl eq_refl)) as (f & V & Pf). destruct (G a h f V Pf) as (h1 & E1 & (f' & V' & Q') & O1).
      destruct (IH h1 N') as (h2 & E2 & A2 & O2).
      + intros k' a' Hin. destruct (H k' a' (or_intror Hin)) as (x & Vx & Px). exists x. split; [|exact Px]. apply O1; [|exact Vx]. intros ->. apply Na. apply in_map_iff. exists (k', a); auto.
      + exists h2. cbn [for_each snd]. unfold bind. rewrite E1. split; [exact E2|]. split.
        * intros k' a' [Hin|Hin]; [injection Hin as <- <-; exists f'; split; [apply O2; assumption|exact Q']|apply (A2 k'); exact Hin].
        * intros b x Nb Vb. apply O2; [intros C; apply Nb; right; exact C|]. apply O1; [|exact Vb]. intros ->. apply Nb. left; reflexivity.
  Qed.
  Lemma method_total {A} rb (m : fisher F -> fisher F * res A) (g : A -> M F unit) (P Q : fisher F -> Prop) : (forall x h, g x h = (h, Ok tt)) ->
    (forall f, P f -> exists r, snd (m f) = Ok r /\ Q (assigned rb f (fst (m f)))) ->
    forall a h f, view h a = Some f -> P f -> exists h', bind (h_method rb m a) g h = (h', Ok tt) /\ (exists f', view h' a = Some f' /\ Q f') /\
       (forall b x, b <> a -> view h b = Some x -> view h' b = Some x).
  Proof.
    intros Hg H a h f V Pf. destruct (H f Pf) as (r & E & Qf). unfold bind, h_method. rewrite (proj2 (hget_view _ _ _) V). destruct (m f) as [f' x]. cbn [snd fst] in *. subst x.
    rewrite Hg. eexists. split; [reflexivity|]. split; [|intros; apply assign_other; assumption]. eexists. split; [apply (assign_same rb a f' h f V)|]. destruct rb; exact Qf.
  Qed.
  Lemma fix_good ps f : good f -> finverse f = None -> (forall x, In x ps -> In x (labels f)) ->
    exists t, fix_parameters ps f = (t, Ok tt) /\ good t /\ finverse t = None.
  Proof.
    intros (W & Pd & _) Ni Sb. destruct (fix_spec ps f W Sb) as (t & E & Wt & L & C & _ & _ & _ & Iv). exists t. split; [exact E|]. split; [|congruence]. split; [exact Wt|]. split; [|left; congruence].
    unfold posdef. set (drop := filter (fun x => smem x ps) (labels f)). assert (Nf := wf_NoDup f W).
    assert (Hd : forall x, In x drop <-> In x (labels f) /\ In x ps) by (intros x; unfold drop; rewrite filter_In, smem_In; reflexivity).
    assert (Hl : forall x, In x (labels t) <-> In x (labels f) /\ ~ In x ps) by (intros x; rewrite L, filter_In, Bool.negb_true_iff, smem_false; reflexivity).
    assert (P : Permutation (labels f) (labels t ++ drop)).
    { apply split_perm; [exact Nf|rewrite L; apply NoDup_filter; exact Nf|apply NoDup_filter; exact Nf| |].
      - intros x. rewrite Hl, Hd. tauto.
      - intros x. rewrite Hl, Hd. destruct (in_dec string_dec x ps); tauto. }
    assert (X : pd (labels t) (fval f)) by (apply (pd_restrict string_dec (labels t) drop); [eapply Permutation_NoDup; [exact P|exact Nf]|apply (pd_perm _ _ _ P); exact Pd]).
    eapply pd_ext; [|exact X]. intros a b _ _. unfold fval, fv. rewrite C. reflexivity.
  Qed.
  Lemma errors_good f : good f -> exists r, snd (marginalized_errors true true f) = Ok r.
  Proof.
    intros (W & Pd & [N|(i & H)]).
    - pose proof W as (Of & _). destruct (invert_pd (fmat f) Of Pd) as (i & Ei). rewrite (errors_none true true f i N Ei).
      destruct (held_inv f i W Ei) as (Hh & Wh). destruct (errors_held true true (with_inv f i) i Wh Hh) as (v & _ & E). rewrite E. eexists; reflexivity.
    - destruct (errors_held true true f i W H) as (v & _ & E). rewrite E. eexists; reflexivity.
  Qed.
  Lemma select_good f : good f -> good (fst (select_relevant (with_flag true f))).
  Proof.
    intros (W & Pd & Iv). destruct (select_spec (with_flag true f) W (fun _ _ => or_introl eq_refl)) as (t & E & Wt & L & C & _ & _ & _ & It & _). rewrite E. cbn [fst].
    cbn [with_flag fmflag orb finverse] in *. assert (Lf : labels t = ssort (labels f)).
    { rewrite L. f_equal. change (labels (with_flag true f)) with (labels f). generalize (labels f). intros l. induction l as [|x l IH]; cbn; [reflexivity|]. rewrite IH. reflexivity. }
    split; [exact Wt|]. split.
    - unfold posdef. apply (pd_perm (labels f)); [rewrite Lf; apply Permutation_sym, ssort_perm|]. eapply pd_ext; [|exact Pd]. intros a b _ _. unfold fval, fv. rewrite C. reflexivity.
    - destruct Iv as [N|(i & Hi & Oi & Li)]; [left; congruence|]. right. exists i. split; [congruence|]. split; [exact Oi|]. intros x Hx. apply Li. rewrite Lf, ssort_In in Hx. exact Hx.
  Qed.
  Lemma rows_total (d : odict) : forall h, NoDup (map snd d) -> (forall k a, In (k, a) d -> exists f, view h a = Some f /\ good f) ->
    exists h' t, map_each (fun ka => bind (h_errors true true (snd ka)) (fun r => ret (fst ka, r))) d h = (h', Ok t).
  Proof.
    induction d as [|[k a] d IH]; intros h N H.
    - eexists _, _. reflexivity.
    - inversion N as [|? ? Na N']; subst. destruct (H k a (or_introl eq_refl)) as (f & V & G). destruct (errors_good f G) as (r & E).
      cbn [map_each snd fst]. unfold bind at 1 2. unfold h_errors at 1, h_method at 1. rewrite (proj2 (hget_view _ _ _) V). destruct (marginalized_errors true true f) as [f' x]. cbn [snd] in E. subst x. cbn [ret].
      destruct (IH (h_assign false a f' h) N') as (h' & t & E').
      + intros k' a' Hin. destruct (H k' a' (or_intror Hin)) as (g & Vg & Gg). exists g. split; [|exact Gg]. apply assign_other; [|exact Vg]. intros ->. apply Na. apply in_map_iff. exists (k', a); auto.
      + unfold bind. unfold bind in E'. rewrite E'. eexists _, _. reflexivity.
  Qed.
  Lemma comb_good gs : forall f0 : fisher F, good f0 -> (forall og, In og gs -> fst og = true /\ good (snd og)) -> good (comb_value f0 gs).
  Proof.
    unfold comb_value. induction gs as [|[b g] gs IH]; intros f0 G Gg; [exact G|]. cbn [fold_left fst snd].
    destruct (Gg (b, g) (or_introl eq_refl)) as (Eb & Wg & Pg & _). cbn in Eb, Wg, Pg. subst b. apply IH; [|intros og H; apply Gg; right; exact H].
    destruct G as (W & P & _). destruct (fcombine_spec fadd " + " f0 g W Wg) as (Wt & _). split; [exact Wt|]. split; [apply posdef_add; assumption|]. left.
    unfold fisher_add, fcombine. reflexivity.
  Qed.

  Theorem C100_positive_definite base cosmology fids cs mb fx h :
    let name (c : string * list (bool * string)) := comb_text (fst c) (snd c) in
    let needs (c : string * list (bool * string)) n := n = fst c \/ In n (map snd (snd c)) in
    NoDup (dkeys base) -> NoDup (map snd base) -> base <> [] ->
    (forall k a, In (k, a) base -> exists f, view h a = Some f /\ wf f /\ posdef f /\
       forall x, In x (dkeys fids) -> ~ varies cosmology x -> In x (labels f)) -> (forall k, In k (dkeys base) -> plain k) ->
    (forall c n, In c cs -> needs c n -> plain n) -> (forall c on, In c cs -> In on (snd c) -> fst on = true) ->
    In cosmology ["LCDM"; "w0_wa_CDM"; "gamma_w0_wa_CDM"]%string ->
    exists h' an, create_results base cosmology fids (map name cs) mb fx h = (h', Ok an).
  Proof.
    intros name needs Nk Na Ne Hb Pk Pc Plus Cn. unfold create_results.
    assert (Lv : live h base) by (intros k a Hin; destruct (Hb k a Hin) as (f & V & _); congruence).
    destruct (deep_spec base [] h Na (fun _ _ => eq_refl) Lv) as (h1 & Fs & E1 & G1 & Ks & Nf & Fr & Fa).
    unfold bind at 1. rewrite E1. unfold bind at 1, of_res at 1.
    pose proof (C100_free_parameters cosmology) as Free. destruct (free_names cosmology) as [free|] eqn:Efree; [|destruct Free; contradiction].
    destruct Free as (_ & _ & Free). cbn zeta.
    set (ps := set_of (dkeys (filter (fun nv => negb (smem (fst nv) free)) fids))).
    assert (Hp : forall x, In x ps -> In x (dkeys fids) /\ ~ varies cosmology x).
    { intros x. unfold ps. rewrite set_of_In. unfold dkeys. rewrite !in_map_iff. intros ([k v] & <- & H). apply filter_In in H. destruct H as [H B]. cbn in *.
      apply Bool.negb_true_iff, smem_false in B. rewrite <- Free. split; [exists (k, v); auto|exact B]. }
    destruct (each_total (h_method true (fix_parameters ps)) (fun f => good f /\ finverse f = None /\ forall x, In x ps -> In x (labels f)) (fun f => good f /\ finverse f = None) Fs) with (h := h1) as (h2 & E2 & A2 & _).
    { intros a h0 f V (Gf & Ni & Sb). destruct (fix_good ps f Gf Ni Sb) as (t & Et & Gt).
      destruct (method_total true (fix_parameters ps) (fun _ => ret tt) (fun x => x = f) (fun x => good x /\ finverse x = None) (fun _ _ => eq_refl)) with (a := a) (h := h0) (f := f) as (h' & E & R).
      - intros x ->. exists tt. rewrite Et. split; [reflexivity|exact Gt].
      - exact V.
      - reflexivity.
      - exists h'. split; [|exact R]. unfold bind in E. destruct (h_method true (fix_parameters ps) a h0) as [? [[]|]]; [exact E|discriminate E]. }
    { exact Nf. }
    { intros k b Hin. destruct (Forall2_r _ _ _ _ Fa Hin) as ([k' a] & Ha & _ & f & Vf & Vb). cbn in Vf, Vb. exists (fcopy f). split; [exact Vb|].
      destruct (Hb k' a Ha) as (f' & Vf' & W & Pd & Sb). assert (f' = f) by congruence. subst f'. split; [|split; [reflexivity|]].
      - split; [apply fcopy_wf; exact W|]. split; [exact Pd|left; reflexivity].
      - intros x Hx. apply Hp in Hx. apply Sb; apply Hx. }
    unfold bind at 1. unfold h_fix. rewrite E2.
    assert (Nui : exists h3, (if fx then for_each (fun ka => fix_nuis (snd ka)) Fs
          else if mb then for_each (fun ka => bind (h_margnuis (snd ka)) (fun _ => ret tt)) Fs else ret tt) h2 = (h3, Ok tt) /\ forall k b, In (k, b) Fs -> exists f, view h3 b = Some f /\ good f).
    { destruct fx; [|destruct mb].
      - destruct (each_total fix_nuis (fun f => good f /\ finverse f = None) good Fs) with (h := h2) as (h3 & E3 & A3 & _); [|exact Nf|exact A2|exists h3; auto].
        intros a h0 f V (Gf & Ni). assert (Sn : forall x, In x (fnuis f) -> In x (labels f)) by (intros x Hx; destruct Gf as ((_ & _ & _ & Lw) & _); apply Lw; right; exact Hx).
        destruct (fix_good (fnuis f) f Gf Ni Sn) as (t & Et & Gt & _). unfold fix_nuis. rewrite (proj2 (hget_view _ _ _) V). unfold h_fix, h_method. rewrite (proj2 (hget_view _ _ _) V), Et.
        eexists. split; [reflexivity|]. split; [|intros; apply assign_other; assumption]. exists t. split; [apply (assign_same true a t h0 f V)|exact Gt].
      - destruct (each_total (fun a => bind (h_method true (marginalize_nuisance false) a) (fun _ => ret tt)) (fun f => good f /\ finverse f = None) good Fs) with (h := h2) as (h3 & E3 & A3 & _); [|exact Nf|exact A2|exists h3; auto].
        apply method_total; [reflexivity|]. intros f (Gf & Ni). unfold marginalize_nuisance. destruct (fmflag f); [|exists None; split; [reflexivity|exact Gf]].
        destruct Gf as (W & Pd & _). destruct (posdef_margd (fnuis f) false f W Pd) as (t & Mt).
        { intros x Hx. destruct W as (_ & _ & _ & Lw). apply Lw. right; exact Hx. }
        pose proof (posdef_margd_pd _ _ _ _ W Pd Mt) as Pt. destruct (margd_spec _ _ _ _ W Mt) as (C & _ & Wt & _ & _ & _ & (s & Is & Os & Ps & _) & _).
        destruct Mt as (f' & r & Em & Et). rewrite Em. exists r. split; [reflexivity|]. cbn [fst assigned].
        destruct (marg_ok _ _ _ _ _ W Em) as (? & ? & ? & _ & Er & _). cbn in Er. subst r. cbn in Et. subst t. split; [exact Wt|]. split; [exact Pt|]. right. exists s. split; [exact Is|]. split; [exact Os|].
        intros y Hy. eapply Permutation_in; [apply Permutation_sym; exact Ps|exact Hy].
      - exists h2. split; [reflexivity|]. intros k b Hin. destruct (A2 k b Hin) as (f & V & Gf & _). exists f. auto. }
    destruct Nui as (h3 & E3 & A3). unfold bind at 1. rewrite E3.
    assert (NkF : NoDup (dkeys Fs)) by (rewrite Ks; exact Nk).
    assert (L3 : live h3 Fs) by (intros k b Hin; destruct (A3 k b Hin) as (? & V & _); congruence).
    assert (Pcs : Forall all_plain cs).
    { apply Forall_forall. intros c Hc. split; [apply (Pc c); [exact Hc|left; reflexivity]|]. intros on Hon. apply (Pc c); [exact Hc|right; apply in_map; exact Hon]. }
    destruct (combs_spec cs h3 Fs Pcs L3) as (h4 & d4 & E4 & G4 & L4 & K4 & P4 & V4 & M4).
    destruct (combs_nodup cs h3 Fs h4 d4 Pcs L3 NkF Nf E4) as (Nk4 & Na4).
    unfold bind at 1. change (map name cs) with (texts cs). rewrite E4.
    assert (atg : forall n f, at_key h3 Fs n = Some f -> good f).
    { intros n f H. unfold at_key in H. destruct (dget String.eqb Fs n) as [b|] eqn:Gn; [|discriminate H]. apply (dget_In _ String.eqb_spec) in Gn. destruct (A3 n b Gn) as (x & V & Gx). congruence. }
    assert (W4 : forall k a, In (k, a) d4 -> exists f, view h4 a = Some f /\ good f).
    { intros k a Hin. assert (Gk := dget_NoDup_In _ String.eqb_spec _ _ _ Nk4 Hin).
      assert (Old : dget String.eqb d4 k = dget String.eqb Fs k -> exists f, view h4 a = Some f /\ good f).
      { intros Eo. rewrite Gk in Eo. symmetry in Eo. apply (dget_In _ String.eqb_spec) in Eo. destruct (A3 k a Eo) as (f & V & Gf). exists f. split; [eapply grows_view; eauto|exact Gf]. }
      destruct (in_dec string_dec k (texts cs)) as [I|I]; [|apply Old, K4; exact I].
      unfold texts in I. apply in_map_iff in I. destruct I as (c & <- & Hc). assert (Pcc : all_plain c) by (rewrite Forall_forall in Pcs; apply Pcs; exact Hc).
      destruct (missing_or h3 Fs c Pcc L3) as [(f0 & gs & A & B)|(n & A & B)]; [|apply Old; exact (M4 c n Hc A B)].
      specialize (V4 c f0 gs Hc A B). unfold at_key in V4. rewrite Gk in V4. eexists. split; [exact V4|]. apply comb_good; [eapply atg; exact A|].
      intros og Hog. destruct (Forall2_r _ _ _ _ B Hog) as (on & Hon & Eo & Ao). split; [rewrite <- Eo; apply (Plus c); assumption|eapply atg; exact Ao]. }
    destruct (init_spec None d4 (filter (fun nv => smem (fst nv) free) fids) true h4 Nk4 Na4) as (h5 & E5 & V5 & _).
    { intros k a Hin. destruct (W4 k a Hin) as (f & V & Wf & _). exists f. auto. }
    unfold bind at 1. rewrite E5. clear E5. set (an0 := mkAn None d4 None _ None None true). unfold bind at 1.
    destruct (rows_total d4 h5 Na4) as (h6 & t & E6).
    { intros k a Hin. destruct (W4 k a Hin) as (f & V & Gf). eexists. split; [apply (V5 k a f Hin V)|]. apply select_good. exact Gf. }
    unfold eval_errors. cbn [an0 an_fishers]. destruct d4 as [|p d4'].
    - exfalso. destruct base as [|[k a] base']; [contradiction|]. assert (Hk : In k (dkeys Fs)) by (rewrite Ks; left; reflexivity).
      assert (X : dget String.eqb Fs k <> None) by (intros C; apply (dget_None _ String.eqb_spec) in C; contradiction). rewrite <- (P4 k) in X; [|apply Pk; left; reflexivity]. apply X. reflexivity.
    - unfold bind at 1. rewrite E6. cbn. eexists _, _. reflexivity.
  Qed.

  (** ** C73 *)
  (** Each matrix loses exactly the given parameters it has (all its nuisance
      parameters by default), and its covariance is kept. *)
  Theorem C73_marginalised ps (an : analysis F) h h' : NoDup (map snd (an_fishers an)) ->
    (forall k a, In (k, a) (an_fishers an) -> exists f, view h a = Some f /\ wf f) ->
    marg_fishers ps an h = (h', Ok tt) ->
    (forall k a f, In (k, a) (an_fishers an) -> view h a = Some f -> exists t C, view h' a = Some t /\ wf t /\
       let given x := match ps with None => In x (fnuis f) | Some l => In x l end in
       (forall x, In x (labels t) <-> In x (labels f) /\ ~ given x) /\
       (forall x, In x (fcosmo t) <-> In x (fcosmo f) /\ ~ given x) /\
       (forall x, In x (fnuis t) <-> In x (fnuis f) /\ ~ given x) /\
       covariance f C /\ covariance t C) /\
    (forall b x, ~ In b (map snd (an_fishers an)) -> view h b = Some x -> view h' b = Some x).
  Proof.
    intros N Hw E. set (to := fun f : fisher F => match ps with None => fnuis f | Some l => l end).
    assert (Ac : acts (marg_one ps) (fun f f' => exists r, marginalize (ord (filter (fun x => smem x (phys f)) (to f))) false f = (f', Ok r))).
    { intros a h0 f h1 V E1. unfold marg_one in E1. rewrite (proj2 (hget_view _ _ _) V) in E1.
      change (match ps with None => fnuis f | Some l => l end) with (to f) in E1. set (l := ord (filter (fun x => smem x (phys f)) (to f))) in *. unfold h_marg in E1. cbn zeta in E1.
      destruct (h_method true (marginalize l false) a h0) as [h2 [r|]] eqn:E2; [|discriminate E1]. injection E1 as <-.
      destruct (acts_method true (marginalize l false) (fun _ => ret tt) (fun _ _ => eq_refl) a h0 f h2 V) as ((f' & V' & r' & R1 & R2) & L & Oth).
      - unfold bind. rewrite E2. reflexivity.
      - split; [|split; [exact L|exact Oth]]. exists f'. split; [exact V'|]. exists r'. cbn [assigned] in R2. subst f'. destruct (marginalize l false f) as [x y]. cbn in *. congruence. }
    assert (Lv : live h (an_fishers an)) by (intros k a Hin; destruct (Hw k a Hin) as (f & V & _); congruence).
    destruct (each_inv _ _ (an_fishers an) Ac h h' N Lv E) as (A & _ & B). split; [|exact B].
    intros k a f Hin V. destruct (A k a f Hin V) as (t & Vt & r & Em). destruct (Hw k a Hin) as (f' & Vf' & W). assert (f' = f) by congruence. subst f'.
    set (l := ord (filter (fun x => smem x (phys f)) (to f))) in *.
    assert (Er : r = None) by (destruct (marg_ok _ _ _ _ _ W Em) as (? & ? & ? & _ & Er & _); exact Er). subst r.
    destruct (margd_spec l false f t W) as (C & HC & Wt & Lt & _ & Cv & _ & At & Bt & _); [exists t, None; auto|].
    exists t, C. split; [exact Vt|]. split; [exact Wt|]. cbn zeta.
    assert (Hl : forall x, In x (labels f) -> (In x l <-> match ps with None => In x (fnuis f) | Some m => In x m end)).
    { intros x Hx. assert (Hph : In x (phys f)) by (unfold phys; rewrite set_union_In; destruct W as (_ & _ & _ & Lw); apply Lw in Hx; tauto).
      assert (P : In x l <-> In x (to f)).
      { unfold l. split; intros H.
        - apply (Permutation_in _ (ord_perm _)) in H. apply filter_In in H. apply H.
        - eapply Permutation_in; [apply Permutation_sym, ord_perm|]. apply filter_In. split; [exact H|]. apply smem_In. exact Hph. }
      rewrite P. unfold to. destruct ps; reflexivity. }
    assert (Lc : forall x, In x (fcosmo f) -> In x (labels f)) by (intros x H; destruct W as (_ & _ & _ & Lw); apply Lw; auto).
    assert (Ln : forall x, In x (fnuis f) -> In x (labels f)) by (intros x H; destruct W as (_ & _ & _ & Lw); apply Lw; auto).
    split; [|split; [|split; [|split; [exact HC|exact Cv]]]]; intros x.
    - rewrite Lt. split; intros [H1 H2]; (split; [exact H1|]); rewrite (Hl x H1) in *; exact H2.
    - rewrite At. split; intros [H1 H2]; (split; [exact H1|]); rewrite (Hl x (Lc x H1)) in *; exact H2.
    - rewrite Bt. split; intros [H1 H2]; (split; [exact H1|]); rewrite (Hl x (Ln x H1)) in *; exact H2.
  Qed.

  (** ** C29: a part of an analysis *)
  Lemma subset_get {V} (d : dict string V) names k : dget String.eqb (subset_dict d names) k = if smem k names then dget String.eqb d k else None.
  Proof.
    unfold subset_dict. induction d as [|[x v] d IH]; cbn [filter dget]; [destruct (smem k names); reflexivity|]. cbn [fst].
    destruct (smem x names) eqn:M; cbn [dget]; destruct (String.eqb_spec x k) as [->|Nx]; rewrite ?M; try exact IH; [reflexivity|].
    rewrite IH, M. reflexivity.
  Qed.
  Lemma subset_keys {V} (d : dict string V) names k : In k (dkeys (subset_dict d names)) <-> In k (dkeys d) /\ In k names.
  Proof.
    unfold subset_dict, dkeys. rewrite !in_map_iff. split.
    - intros ([x v] & <- & H). apply filter_In in H. destruct H as [H M]. apply smem_In in M. split; [exists (x, v); auto|exact M].
    - intros (([x v] & <- & H) & M). exists (x, v). split; [reflexivity|]. apply filter_In. split; [exact H|]. apply smem_In. exact M.
  Qed.
  Theorem C29_subset names (an : analysis F) b te tr : an_base an = Some b -> an_errs an = Some te -> an_rel an = Some tr ->
    dkeys te = dkeys (an_fishers an) -> dkeys tr = dkeys (an_fishers an) ->
    match subset_analysis names an with
    | Ok an' => (forall n, In n names -> In n (dkeys (an_fishers an))) /\ fishers_order an' = names /\ an_fid an' = an_fid an /\
        exists b' te' tr', an_base an' = Some b' /\ an_errs an' = Some te' /\ an_rel an' = Some tr' /\
        forall k, (In k names -> dget String.eqb (an_fishers an') k = dget String.eqb (an_fishers an) k /\ dget String.eqb b' k = dget String.eqb b k /\
                                 dget String.eqb te' k = dget String.eqb te k /\ dget String.eqb tr' k = dget String.eqb tr k) /\
                  (~ In k names -> dget String.eqb (an_fishers an') k = None /\ dget String.eqb b' k = None /\
                                   dget String.eqb te' k = None /\ dget String.eqb tr' k = None)
    | Err e => e = EException /\ exists n, In n names /\ ~ In n (dkeys (an_fishers an))
    end.
  Proof.
    intros Eb Ee Er K1 K2. unfold subset_analysis. rewrite Eb, Ee, Er. unfold set_order. cbn [an_fishers].
    destruct (set_eqb names (dkeys (subset_dict (an_fishers an) names))) eqn:Es.
    - rewrite set_eqb_spec in Es. assert (Sb : forall n, In n names -> In n (dkeys (an_fishers an))) by (intros n Hn; apply Es, subset_keys in Hn; apply Hn).
      cbn [rbind]. assert (S1 : subsetb names (dkeys te) = true) by (apply subsetb_spec; rewrite K1; exact Sb). assert (S2 : subsetb names (dkeys tr) = true) by (apply subsetb_spec; rewrite K2; exact Sb).
      rewrite S1, S2. cbn. split; [exact Sb|]. split; [reflexivity|]. split; [reflexivity|]. eexists _, _, _. split; [reflexivity|]. split; [reflexivity|]. split; [reflexivity|].
      intros k. rewrite !subset_get. split; intros H; [apply smem_In in H|apply smem_false in H]; rewrite H; auto.
    - cbn [rbind]. split; [reflexivity|]. destruct (subsetb names (dkeys (an_fishers an))) eqn:Sb.
      + exfalso. rewrite subsetb_spec in Sb. assert (T : set_eqb names (dkeys (subset_dict (an_fishers an) names)) = true); [|congruence].
        apply set_eqb_spec. intros x. rewrite subset_keys. split; [intros H; split; [apply Sb; exact H|exact H]|intros H; apply H].
      + clear -Sb. unfold subsetb in Sb. induction names as [|p l IH]; [discriminate|]. cbn in Sb. destruct (smem p (dkeys (an_fishers an))) eqn:M.
        * destruct IH as (x & A & B); [exact Sb|]. exists x. split; [right; exact A|exact B].
        * exists p. split; [left; reflexivity|apply smem_false; exact M].
  Qed.

  (** ** C21: objects *)
  (** The copy-returning marginalisation stores an inverse in its object and
      changes nothing else; the result is a new object. *)
  Theorem C21_objects ps a h f : wf f -> view h a = Some f -> let o := h_marg_copy ps a h in
    (forall b x, b <> a -> view h b = Some x -> view (fst o) b = Some x) /\
    (exists g, view (fst o) a = Some g /\ fmat g = fmat f /\ fcosmo g = fcosmo f /\ fnuis g = fnuis f /\ fname g = fname f /\ fmflag g = fmflag f) /\
    (forall c, snd o = Ok c -> view h c = None /\ exists t, view (fst o) c = Some t /\ margd ps true f t) /\
    (forall e, snd o = Err e -> snd (marginalize ps true f) = Err e).
  Proof.
    intros W V o. unfold o, h_marg_copy. rewrite (proj2 (hget_view _ _ _) V). destruct (marginalize ps true f) as [f' r] eqn:Em.
    assert (Kp : fmat f' = fmat f /\ fcosmo f' = fcosmo f /\ fnuis f' = fnuis f /\ fname f' = fname f /\ fmflag f' = fmflag f).
    { unfold marginalize in Em. destruct (set_diff (set_of ps) (set_of (ix (fmat f)))); [|injection Em as <- _; auto].
      unfold eval_inverse in Em. destruct (invert_dataframe (fmat f)); [|injection Em as <- _; auto]. cbn [finverse with_inv] in Em.
      destruct (f_loc _ _ _); [|injection Em as <- _; cbn; auto]. destruct (invert_dataframe _); injection Em as <- _; cbn; auto. }
    set (h1 := h_assign false a f' h). assert (V1 := assign_same false a f' h f V). fold h1 in V1. cbn in V1.
    assert (O1 : forall b x, b <> a -> view h b = Some x -> view h1 b = Some x) by (intros; apply assign_other; assumption).
    assert (Self : exists g, view h1 a = Some g /\ fmat g = fmat f /\ fcosmo g = fcosmo f /\ fnuis g = fnuis f /\ fname g = fname f /\ fmflag g = fmflag f).
    { eexists. split; [exact V1|]. cbn. tauto. }
    assert (La : a < length (obs h)) by (eapply view_lt; exact V).
    destruct r as [[t|]|e].
    - pose proof (alloc_spec t h1) as Al. destruct (h_alloc t h1) as [h2 c]. destruct Al as (G & Ec & Vc). cbn [fst snd]. split; [|split; [|split; [|discriminate]]].
      + intros b x Nb Vb. eapply grows_view; eauto.
      + destruct Self as (g & Vg & R). exists g. split; [eapply grows_view; eauto|exact R].
      + intros c' E. injection E as <-. split.
        * subst c. unfold h1. rewrite assign_length. destruct (view h (length (obs h))) eqn:Vx; [apply view_lt in Vx; lia|reflexivity].
        * exists t. split; [exact Vc|]. exists f', (Some t). auto.
    - exfalso. destruct (marg_ok _ _ _ _ _ W Em) as (? & ? & ? & _ & Er & _). discriminate Er.
    - cbn [fst snd]. split; [exact O1|]. split; [exact Self|]. split; [discriminate|]. intros e' E. congruence.
  Qed.
End Props.

(** ** Concrete cases meeting the hypotheses *)
#[local] Existing Instance id_order.
(** C100: two positive definite matrices; a sum asked for, one naming a missing
    matrix skipped; w0 is fixed in LCDM. *)
Definition rm (x y : string) : fisher R := fish2 2%R 1%R 1%R 1%R x y.
Lemma rm_pd x y : x <> y -> posdef (rm x y).
Proof. intros N. apply fish2_pd; [exact N| |]; (split; cbn; [|intros C]); Lra.lra. Qed.
Definition rbase : odict := [("[GCph]"%string, 0); ("[WL]"%string, 1)].
Definition rheap (x : string) : heap R := fst (h_alloc (rm x "aIA") (fst (h_alloc (rm x "bgph0") (mkHeap [] [])))).
Definition rcombs : list (string * list (bool * string)) := [("[GCph]", [(true, "[WL]")]); ("[GCph]", [(true, "[GCsp]")])]%string.
Definition rfids : dict string R := [("Omm", 3%R); ("w0", (-1)%R)]%string.
Definition rnames := map (fun c : string * list (bool * string) => comb_text (fst c) (snd c)) rcombs.
Lemma rplain n : In n ["[GCph]"; "[WL]"; "[GCsp]"]%string -> plain n.
Proof. intros [<-|[<-|[<-|[]]]]; (split; [cbn; intuition discriminate|split; discriminate]). Qed.
Example C100_ex :
  (exists h' an, create_results rbase "w0_wa_CDM" rfids rnames true false (rheap "Omm") = (h', Ok an)) /\
  (exists h' an, create_results rbase "LCDM" rfids rnames false false (rheap "w0") = (h', Ok an)) /\
  rnames = ["[GCph] + [WL]"; "[GCph] + [GCsp]"]%string /\
  varies "w0_wa_CDM" "w0" /\ ~ varies "LCDM" "w0" /\
  NoDup (dkeys rbase) /\ NoDup (map snd rbase) /\ (forall k, In k (dkeys rbase) -> plain k) /\
  (forall c n, In c rcombs -> n = fst c \/ In n (map snd (snd c)) -> plain n) /\
  (forall x, x = "Omm"%string \/ x = "w0"%string -> forall k a, In (k, a) rbase -> exists f, view (rheap x) a = Some f /\ wf f).
Proof.
  assert (N1 : NoDup (dkeys rbase)) by (repeat constructor; cbn; intuition discriminate).
  assert (N2 : NoDup (map snd rbase)) by (repeat constructor; cbn; intuition discriminate).
  assert (Pk : forall k, In k (dkeys rbase) -> plain k) by (intros k [<-|[<-|[]]]; apply rplain; cbn; auto).
  assert (Pc : forall c n, In c rcombs -> n = fst c \/ In n (map snd (snd c)) -> plain n).
  { intros c n [<-|[<-|[]]] [->|[<-|[]]]; apply rplain; cbn; auto. }
  assert (Pl : forall c on, In c rcombs -> In on (snd c) -> fst on = true) by (intros c on [<-|[<-|[]]] [<-|[]]; reflexivity).
  assert (V1 : varies "w0_wa_CDM" "w0") by (right; left; split; [discriminate|left; reflexivity]).
  assert (V2 : ~ varies "LCDM" "w0") by (unfold varies; cbn; intuition discriminate).
  assert (Vo : forall c, varies c "Omm") by (intros c; left; left; reflexivity).
  split; [|split; [|split; [reflexivity|]]].
  - apply (C100_positive_definite rbase "w0_wa_CDM" rfids rcombs true false (rheap "Omm")); auto; [discriminate| |cbn; auto].
    intros k a [H|[H|[]]]; injection H as <- <-; eexists; (split; [reflexivity|]); (split; [apply fish2_wf; discriminate|]); (split; [apply rm_pd; discriminate|]);
      intros x [<-|[<-|[]]] Nv; exfalso; apply Nv; auto.
  - apply (C100_positive_definite rbase "LCDM" rfids rcombs false false (rheap "w0")); auto; [discriminate| |cbn; auto].
    intros k a [H|[H|[]]]; injection H as <- <-; eexists; (split; [reflexivity|]); (split; [apply fish2_wf; discriminate|]); (split; [apply rm_pd; discriminate|]);
      intros x [<-|[<-|[]]] Nv; (exfalso; apply Nv; auto; fail) || (left; reflexivity).
  - split; [exact V1|]. split; [exact V2|]. split; [exact N1|]. split; [exact N2|]. split; [exact Pk|]. split; [exact Pc|].
    intros x Hx k a [H|[H|[]]]; injection H as <- <-; eexists; (split; [reflexivity|]); apply fish2_wf; destruct Hx as [->| ->]; discriminate.
Qed.
(** C73, C29, C21: an analysis marginalised over given parameters, a part of an
    analysis, a marginalised copy. *)
Definition qheap : heap Qc := fst (h_alloc (fish2 (qz 3) (qz 1) (qz 1) (qz 2) "Omm" "aIA") (fst (h_alloc (fish2 (qz 2) (qz 1) (qz 1) (qz 1) "Omm" "bgph0") (mkHeap [] [])))).
Definition qrows : table (F := Qc) := [("[GCph]", [("Omm", Some (qz 1))]); ("[WL]", [("Omm", Some (qz 2))])]%string.
Definition qan : analysis Qc := mkAn (Some rbase) rbase None [("Omm"%string, qz 3)] (Some qrows) (Some qrows) true.
Example C73_C29_C21_ex :
  (exists h', marg_fishers (Some ["bgph0"; "ns"]%string) qan qheap = (h', Ok tt)) /\ (exists h', marg_fishers None qan qheap = (h', Ok tt)) /\
  NoDup (map snd (an_fishers qan)) /\ (forall k a, In (k, a) (an_fishers qan) -> exists f, view qheap a = Some f /\ wf f) /\
  (exists an', subset_analysis ["[WL]"%string] qan = Ok an') /\ subset_analysis ["[WL]"; "[GCsp]"]%string qan = Err EException /\
  dkeys qrows = dkeys (an_fishers qan) /\
  (exists c, snd (h_marg_copy ["bgph0"%string] 0 qheap) = Ok c) /\ snd (h_marg_copy ["ns"%string] 0 qheap) = Err EDomain.
Proof.
  split; [eexists; vm_compute; reflexivity|]. split; [eexists; vm_compute; reflexivity|]. split; [repeat constructor; cbn; intuition discriminate|].
  split; [intros k a [H|[H|[]]]; injection H as <- <-; eexists; (split; [reflexivity|]); apply fish2_wf; discriminate|].
  split; [eexists; reflexivity|]. split; [reflexivity|]. split; [reflexivity|]. split; [eexists; vm_compute; reflexivity|vm_compute; reflexivity].
Qed.
#[local] Remove Hints id_order : typeclass_instances.

Print Assumptions C100_free_parameters.
Print Assumptions C100_result_set.
Print Assumptions C100_positive_definite.
Print Assumptions C73_marginalised.
Print Assumptions C29_subset.
Print Assumptions C21_objects.
