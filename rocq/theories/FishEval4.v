(** Positive spectra give a positive Fisher matrix; when the computation
    succeeds; independence of the order of parameters. *)
From Verif Require Import Base SortLib StrLib MatInv LabLin LinalgModel FrameModel FrameLemmas KeyModel KeySpec KeyLemmas
  ParamModel EvalModel EvalSpec EllLemmas CovLemmas CovLemmas2 DerivLemmas FishEval FishEval2 FishEval3 Wick.
From Coq Require Import Sorted Permutation Field.
Open Scope list_scope.

Section FE4.
  Context {F : Type} {K : Fld F} {O : OFld (F := F)} {SO : SetOrder}.
  Add Field FE4Field : (fth (F := F)).
  Open Scope fld_scope.

  Lemma cl_at_some nb d p q x i j : wf_spectra nb d -> In x (ells_at d p q) -> exists y, cl_at d p q x i j = Some y.
  Proof.
    intros W Hx. assert (Av : available d p q).
    { unfold ells_at in Hx. unfold available. destruct (stored d p q) as [[? ?]|]; [left; discriminate|]. destruct (stored d q p) as [[? ?]|]; [right; discriminate|destruct Hx]. }
    destruct (lk_available d p q Av) as (l & c & E). destruct (lk_wf nb d p q l c W E) as (_ & _ & Ll & _ & El & H).
    rewrite El in Hx. apply In_nth_error in Hx. destruct Hx as (s & Hs).
    destruct (nth_error (crows c) s) as [M|] eqn:EM.
    - exists (M i j). apply (H s x M i j Hs EM).
    - exfalso. apply nth_error_None in EM. assert (s < length l)%nat by (apply nth_error_Some; rewrite Hs; discriminate). lia.
  Qed.

  Definition lstate (u : (probe * probe) * (nat * nat)) : probe * nat := (fst (fst u), fst (snd u)).
  Definition rstate (u : (probe * probe) * (nat * nat)) : probe * nat := (snd (fst u), snd (snd u)).
  Lemma comp_states nb l u : In u (components nb l) -> In (lstate u) (states nb l) /\ In (rstate u) (states nb l) /\
    In (fst (fst u)) (probes_of l) /\ In (snd (fst u)) (probes_of l).
  Proof.
    intros H. unfold components in H. apply in_flat_map in H. destruct H as ([k [p q]] & Hin & Hu). cbn [pair_of fst snd] in Hu.
    apply in_map_iff in Hu. destruct Hu as ([i j] & <- & Hb). apply bin_pairs_In in Hb. cbn [lstate rstate fst snd].
    assert (Hp : In p (probes_of l)) by (unfold probes_of; apply in_flat_map; exists (k, (p, q)); split; [exact Hin|left; reflexivity]).
    assert (Hq : In q (probes_of l)) by (unfold probes_of; apply in_flat_map; exists (k, (p, q)); split; [exact Hin|right; left; reflexivity]).
    unfold lstate, rstate, states. cbn [fst snd]. rewrite !nodup_In. repeat split; auto; apply in_flat_map; [exists p|exists q]; (split; [assumption|]); apply in_map, in_seq; lia.
  Qed.

  Lemma gauss_wick nb l d x u v : wf_spectra nb d -> common d l x -> In u (components nb l) -> In v (components nb l) ->
    gauss d x u v = Some ((spec_mat d x (lstate u) (lstate v) * spec_mat d x (rstate u) (rstate v) +
                           spec_mat d x (lstate u) (rstate v) * spec_mat d x (rstate u) (lstate v)) / ((1 + 1) * x + 1)).
  Proof.
    intros W C Hu Hv. destruct (comp_states nb l u Hu) as (_ & _ & A & B). destruct (comp_states nb l v Hv) as (_ & _ & A' & B').
    destruct u as [[a b] [i j]], v as [[a' b'] [i' j']]. cbn [fst snd] in *. unfold gauss, spec_mat, lstate, rstate. cbn [fst snd].
    destruct (cl_at_some nb d a a' x i i' W (C _ _ A A')) as (y1 & ->).
    destruct (cl_at_some nb d b b' x j j' W (C _ _ B B')) as (y2 & ->).
    destruct (cl_at_some nb d a b' x i j' W (C _ _ A B')) as (y3 & ->).
    destruct (cl_at_some nb d b a' x j i' W (C _ _ B A')) as (y4 & ->). reflexivity.
  Qed.

  Lemma cov_psd nb l d x : wf_spectra nb d -> symmetric_spectra d -> common d l x -> fle 0 x -> psd_spectra nb l d x ->
    psd (seq 0 (length (components nb l))) (cov_at nb l d x).
  Proof.
    intros W S C Hx P w. set (us := components nb l). set (n := length us). unfold bil.
    assert (D : fle 0 ((1 + 1) * x + 1) /\ (1 + 1) * x + 1 <> 0).
    { assert (H2 : fle 0 ((1 + 1) * x)) by (apply fle_mul; [replace (0:F) with (0 + 0) by ring; apply fle_add2; apply fle_0_1|exact Hx]).
      split; [replace (0:F) with (0 + 0) by ring; apply fle_add2; [exact H2|apply fle_0_1]|].
      intros E. apply (one_neq_zero (F := F)). apply fle_antisym; [|apply fle_0_1]. rewrite <- E. replace (1 : F) with (0 + 1) at 1 by ring. apply fle_add. exact H2. }
    destruct D as [D0 D1].
    pose proof (wick_psd state_dec (fun r => lstate (comp nb l r)) (fun r => rstate (comp nb l r)) (seq 0 n) (states nb l) (spec_mat d x)) as Wk.
    assert (Hc : forall r, In r (seq 0 n) -> In (comp nb l r) us) by (intros r Hr; apply in_seq in Hr; unfold comp; apply nth_In; fold us n; lia).
    specialize (Wk (NoDup_nodup _ _)).
    assert (Sy : symm (states nb l) (spec_mat d x)) by (intros a b _ _; unfold spec_mat; rewrite (proj2 (S (fst a) (fst b))); reflexivity).
    specialize (Wk Sy P (fun r Hr => conj (proj1 (comp_states nb l _ (Hc r Hr))) (proj1 (proj2 (comp_states nb l _ (Hc r Hr))))) w).
    match goal with |- fle 0 ?q => replace q with ((1 / ((1 + 1) * x + 1)) * Fsum (fun u => Fsum (fun v => w u *
      (spec_mat d x (lstate (comp nb l u)) (lstate (comp nb l v)) * spec_mat d x (rstate (comp nb l u)) (rstate (comp nb l v)) +
       spec_mat d x (lstate (comp nb l u)) (rstate (comp nb l v)) * spec_mat d x (rstate (comp nb l u)) (lstate (comp nb l v))) * w v) (seq 0 n)) (seq 0 n)) end.
    - apply fle_mul; [apply inv_nonneg; assumption|exact Wk].
    - rewrite <- Fsum_scale. apply Fsum_ext. intros r Hr. rewrite <- Fsum_scale. apply Fsum_ext. intros c Hcc. unfold cov_at.
      rewrite (gauss_wick nb l d x _ _ W C (Hc r Hr) (Hc c Hcc)). cbn [oval]. field. exact D1.
  Qed.

  (** ** Success *)
  Lemma rmapM_all {A B} (f : A -> res B) l : (forall x, In x l -> exists y, f x = Ok y) -> exists r, rmapM f l = Ok r.
  Proof.
    induction l as [|x l IH]; intros H; [exists []; reflexivity|]. cbn [rmapM]. destruct (H x (or_introl eq_refl)) as (y & ->). cbn [rbind].
    destruct IH as (r & ->); [intros z Hz; apply H; right; exact Hz|]. cbn [rbind]. eauto.
  Qed.
  Lemma rfold_all {A B} (f : B -> A -> res B) l : (forall x b, In x l -> exists b', f b x = Ok b') -> forall b, exists r, rfold f l b = Ok r.
  Proof.
    induction l as [|x l IH]; intros H b; [exists b; reflexivity|]. cbn [rfold]. destruct (H x b (or_introl eq_refl)) as (b' & ->). cbn [rbind].
    apply IH. intros z c Hz. apply H. right; exact Hz.
  Qed.
  Lemma mat_inv_regular n M C : (forall r c, (r < n)%nat -> (c < n)%nat -> C r c = M r c) -> regular n C -> exists I, mat_inv n M = Some I.
  Proof.
    intros E R. destruct (mat_inv n M) as [I|] eqn:EI; [eauto|]. exfalso. apply mat_inv_none in EI. destruct EI as (w & (i & Hi & Hw) & Hz).
    apply Hw. apply (R w); [|exact Hi]. intros r Hr. rewrite <- (Hz r Hr). apply Fsum_ext. intros c Hc. apply in_seq in Hc. rewrite E by lia. reflexivity.
  Qed.

  Definition same_ells (d : spectra) l (dd : spectra (F := F)) : Prop :=
    forall x, (forall e, In e l -> In x (ells_at dd (fst (snd e)) (snd (snd e)))) <-> common d l x.

  Lemma compute_ok nb l (c : coll F) d ds autos pars : good_inputs nb l d ds -> l <> [] ->
    free_parameters (map skey l) c = Ok pars -> dkeys pars <> [] ->
    (forall n, In n (dkeys pars) -> exists dd, In (n, dd) ds) ->
    (forall n dd, In (n, dd) ds -> same_ells d l dd) ->
    (exists x y, x <> y /\ common d l x /\ common d l y) ->
    (forall x, common d l x -> regular (length (components nb l)) (cov_at nb l d x)) ->
    (single l = false -> exists au, autos = Some au /\ forall p, In p (auto_probes l) -> dget String.eqb au (pname Alias p) <> None) ->
    exists m fe, compute_fisher (map skey l) c (raw_derivs ds) (raw_spectra d) autos = Ok (m, fe).
  Proof.
    intros (W & S & Av & Wd) Nl Ep Nn Hds Hse (x0 & y0 & Nxy & Cx & Cy) Hr Ha.
    destruct (assemble_ok nb d l Nl W S Av) as (ells & m & Ea & Si & MM & Lm).
    assert (Nells : ells <> []) by (intros E; apply MM in Cx; rewrite E in Cx; destruct Cx).
    destruct Lm as (L1 & L2 & L3 & L4).
    assert (EI : exists I, cube_inv m = Ok I).
    { unfold cube_inv. rewrite L1, L2, Nat.eqb_refl. cbn [negb]. apply rmapM_all. intros M HM. apply In_nth_error in HM. destruct HM as (t & Ht).
      assert (Hx : exists x, nth_error ells t = Some x).
      { destruct (nth_error ells t) as [x|] eqn:E; [eauto|]. apply nth_error_None in E. pose proof (proj1 (nth_error_Some (crows m) t) (fun C => match eq_trans (eq_sym C) Ht with eq_refl => I end)). lia. }
      destruct Hx as (x & Hx). destruct (mat_inv_regular (length (components nb l)) M (cov_at nb l d x)) as (I & ->); [|apply Hr, MM; eapply nth_error_In; exact Hx|eauto].
      intros r c0 Hrr Hc0. unfold cov_at, comp.
      rewrite (L4 t x M r c0 (nth r (components nb l) ((Ph, Ph), (0, 0)%nat)) (nth c0 (components nb l) ((Ph, Ph), (0, 0)%nat)) Hx Ht); [reflexivity| |];
        apply nth_error_nth'; assumption. }
    destruct EI as (I & EI).
    assert (LI : length I = length ells).
    { pose proof EI as EI'. unfold cube_inv in EI'. rewrite L1, L2, Nat.eqb_refl in EI'. cbn [negb] in EI'. apply rmapM_Forall2 in EI'. apply F2_length in EI'. rewrite <- L3. symmetry. exact EI'. }
    unfold compute_fisher. rewrite Ep. cbn [rbind]. cbv zeta. unfold build_cov. rewrite Ea. cbn [rbind fst snd]. rewrite EI. cbn [rbind]. cbn [cv_ells].
    set (names := dkeys pars) in *.
    (* derivative vectors *)
    assert (HV : exists vecs, deriv_vectors (map skey l) names (raw_derivs ds) = Ok vecs /\
      Forall2 (fun n v => fst v = n /\ fst (snd v) = ells /\ vlaid ells (components nb l) (comp_cl (deriv ds n)) (snd (snd v))) names vecs).
    { assert (G : forall n, In n names -> exists rows, (dd <- @dget_str (@delta_dict F) (raw_derivs ds) n ;; v <- deriv_vector (map skey l) dd ;; Ok (n, v)) = Ok (n, (ells, rows)) /\
        vlaid ells (components nb l) (comp_cl (deriv ds n)) rows).
      { intros n Hn. assert (Hd : @dget_str (@delta_dict F) (raw_derivs ds) n = Ok (raw_spectra (deriv ds n)) /\ In (n, deriv ds n) ds).
        { destruct (Hds n Hn) as (dd & Hin). clear - Hin. unfold dget_str, deriv, raw_derivs. induction ds as [|[k v] ds' IH]; [destruct Hin|].
          cbn [map dget fst snd]. destruct (String.eqb_spec k n) as [->|N]; [split; [reflexivity|left; reflexivity]|].
          destruct Hin as [E|Hin]; [injection E as -> ->; congruence|]. destruct (IH Hin). split; [assumption|right; assumption]. }
        destruct Hd as [Ed Hin]. rewrite Ed. cbn [rbind]. destruct (Wd _ _ Hin) as [Wn An].
        destruct (vec_common nb (deriv ds n) l Wn Nl An) as (ellsn & Sn & Mn & _ & H1).
        assert (ellsn = ells).
        { apply increasing_unique; [exact Sn|exact Si|]. intros x. rewrite Mn, MM. apply (Hse n _ Hin). }
        subst ellsn. destruct (H1 Nells) as (rows & Er & Lr). rewrite Er. cbn [rbind]. eauto. }
      unfold deriv_vectors. clear - G. induction names as [|n names IH]; [exists []; split; [reflexivity|constructor]|].
      destruct (G n (or_introl eq_refl)) as (rows & E & Lr). cbn [rmapM]. rewrite E. cbn [rbind].
      destruct IH as (vecs & E' & F'); [intros n' Hn'; apply G; right; exact Hn'|]. rewrite E'. cbn [rbind]. eexists. split; [reflexivity|].
      constructor; [|exact F']. cbn [fst snd]. auto. }
    destruct HV as (vecs & Ev & HV). rewrite Ev. cbn [rbind].
    (* multipoles agree *)
    assert (Ek : check_ells (map (fun e => fst (snd e)) vecs) ells = Ok tt).
    { assert (Hall : forall v, In v vecs -> fst (snd v) = ells) by (clear - HV; induction HV as [|n v names vecs (A & B & _) HV IH]; intros w Hw; [destruct Hw|destruct Hw as [<-|Hw]; [exact B|apply IH; exact Hw]]).
      assert (Hl : (1 < length ells)%nat).
      { apply MM in Cx, Cy. destruct ells as [|e1 [|e2 es]]; [destruct Cx| |cbn; lia]. destruct Cx as [<-|[]], Cy as [<-|[]]. congruence. }
      destruct vecs as [|v0 vecs']; [inversion HV as [E|]; congruence|]. cbn [map]. rewrite (Hall v0 (or_introl eq_refl)).
      assert (Hm : forall b, In b (map (fun e => fst (snd e)) vecs') -> b = ells).
      { intros b Hb. apply in_map_iff in Hb. destruct Hb as (v & <- & Hv). apply Hall. right; exact Hv. }
      unfold check_ells. rewrite (proj2 (forallb_forall _ _)) by (intros b Hb; rewrite (Hm b Hb); apply Nat.eqb_refl). cbn [negb].
      rewrite (proj2 (forallb_forall _ _)) by (intros b Hb; rewrite (Hm b Hb); apply leqb_iff; reflexivity). cbn [negb].
      destruct ells as [|e1 [|e2 es]]; cbn in Hl; try lia. rewrite (proj2 (leqb_iff _ _) eq_refl). reflexivity. }
    rewrite Ek. cbn [rbind].
    (* elements *)
    assert (Ef : exists fe, fisher_of_ell (mkCov ells m I) names (map (fun e => (fst e, snd (snd e))) vecs) = Ok fe).
    { assert (HD : forall n, In n names -> exists rows, dget_str (map (fun e => (fst e, snd (snd e))) vecs) n = Ok rows /\ length rows = length ells /\
        forall row, In row rows -> length row = length (components nb l)).
      { intros n Hn. clear - HV Hn. unfold dget_str. induction HV as [|n0 v names vecs (A & B & (C1 & C2)) HV IH]; [destruct Hn|]. cbn [map dget fst snd].
        destruct (String.eqb_spec (fst v) n) as [E|N].
        - eexists. split; [reflexivity|]. split; [exact C1|]. intros row Hrow. apply In_nth_error in Hrow. destruct Hrow as (t & Ht).
          destruct (nth_error ells t) as [x|] eqn:Ex.
          + specialize (C2 t x row Ex Ht). apply (f_equal (@length _)) in C2. rewrite !map_length in C2. congruence.
          + exfalso. apply nth_error_None in Ex. assert (t < length (snd (snd v)))%nat by (apply nth_error_Some; rewrite Ht; discriminate). lia.
        - destruct Hn as [Hn|Hn]; [congruence|]. apply IH. exact Hn. }
      unfold fisher_of_ell. set (dcls := map (fun e => (fst e, snd (snd e))) vecs) in *.
      destruct (rfold_all (fun acc ab => da <- dget_str dcls (fst ab) ;; db <- dget_str dcls (snd ab) ;; f <- f_ell_pair (mkCov ells m I) da db ;;
              Ok (dset spair_eqb (dset spair_eqb acc ab f) (snd ab, fst ab) f)) (pairs2 names)) with (b := @nil (string * string * list F)) as (cols & Ecols).
      - intros [a b] acc Hin. apply pairs2_In in Hin. destruct Hin as [Hin1 Hin2]. cbn [fst snd].
        destruct (HD a Hin1) as (da & Ea1 & La & Ra). destruct (HD b Hin2) as (db & Eb1 & Lb & Rb). rewrite Ea1, Eb1. cbn [rbind].
        unfold f_ell_pair. cbn [cv_ells cv_inv cv_mat].
        match goal with |- context [rmapM ?f (seq 0 (length ells))] => destruct (rmapM_all f (seq 0 (length ells))) as (r & Er) end.
        + intros t Ht. apply in_seq in Ht.
          destruct (nth_error da t) as [ra|] eqn:E1; [|apply nth_error_None in E1; lia].
          destruct (nth_error I t) as [J|] eqn:E2; [|apply nth_error_None in E2; lia].
          destruct (nth_error db t) as [rb|] eqn:E3; [|apply nth_error_None in E3; lia].
          rewrite (Ra ra (nth_error_In _ _ E1)), (Rb rb (nth_error_In _ _ E3)), L1, Nat.eqb_refl. cbn. eauto.
        + rewrite Er. cbn [rbind]. eauto.
      - rewrite Ecols. cbn [rbind]. eauto. }
    destruct Ef as (fe & Ef). rewrite Ef. cbn [rbind]. rewrite single_spec. cbn [rbind]. fold (single l).
    destruct (single l) eqn:Es; [eauto|]. destruct (Ha eq_refl) as (au & -> & Hau).
    unfold add_involved. destruct (involved_perm l) as (ps & Eps & P). rewrite Eps. cbn [rbind].
    match goal with |- context [rfold ?f ps ?b0] => assert (Hf : exists m', rfold f ps b0 = Ok m'); [apply rfold_all|destruct Hf as (m' & Em)] end.
    - intros s b Hs. apply (Permutation_in _ P) in Hs. apply in_map_iff in Hs. destruct Hs as (p & <- & Hp). specialize (Hau p Hp).
      unfold dget_str. destruct (dget String.eqb au (pname Alias p)) as [fa|]; [|congruence]. cbn [rbind]. cbv zeta.
      destruct (filter _ _); eauto.
    - rewrite Em. cbn [rbind]. eauto.
  Qed.

  (** ** Order of the parameters *)
  Lemma free_params_perm l (c c' : coll F) pars pars' : NoDup (dkeys (params c)) -> Permutation (params c) (params c') ->
    free_parameters (map skey l) c = Ok pars -> free_parameters (map skey l) c' = Ok pars' ->
    Permutation (dkeys pars) (dkeys pars').
  Proof.
    intros Nd P E E'.
    assert (Nd' : NoDup (dkeys (params c'))) by (unfold dkeys in *; apply (Permutation_NoDup (Permutation_map fst P)); exact Nd).
    destruct (free_params_spec l c Nd) as (q & Eq & N & H). rewrite E in Eq. injection Eq as <-.
    destruct (free_params_spec l c' Nd') as (q' & Eq' & N' & H'). rewrite E' in Eq'. injection Eq' as <-.
    assert (G : forall k p, dget String.eqb (params c) k = Some p <-> dget String.eqb (params c') k = Some p).
    { intros k p. split; intros Hg; apply (dget_NoDup_In _ String.eqb_spec); auto; apply (dget_In _ String.eqb_spec) in Hg.
      - apply (Permutation_in _ P). exact Hg.
      - apply (Permutation_in _ (Permutation_sym P)). exact Hg. }
    apply NoDup_Permutation; auto. intros k.
    assert (KI : forall (d : dict string (param F)) k, In k (dkeys d) <-> exists p, dget String.eqb d k = Some p).
    { intros dd k0. pose proof (dget_None _ String.eqb_spec dd k0) as Hn. destruct (dget String.eqb dd k0) eqn:Eg.
      - split; [eauto|]. intros _. destruct (in_dec string_dec k0 (dkeys dd)); [assumption|]. apply Hn in n. discriminate.
      - split; [|intros (p & ?); discriminate]. intros Hin. exfalso. apply (proj1 Hn); auto. }
    rewrite !KI. split; intros (p & Hp); exists p; [apply H in Hp; apply H'|apply H' in Hp; apply H]; rewrite G in *; exact Hp.
  Qed.

  Lemma order_independent nb l (c c' : coll F) d ds autos m fe m' fe' : good_inputs nb l d ds ->
    NoDup (dkeys (params c)) -> Permutation (params c) (params c') ->
    compute_fisher (map skey l) c (raw_derivs ds) (raw_spectra d) autos = Ok (m, fe) ->
    compute_fisher (map skey l) c' (raw_derivs ds) (raw_spectra d) autos = Ok (m', fe') ->
    forall a b, f_get m a b = f_get m' a b.
  Proof.
    intros G Nd P H H' a b.
    destruct (fisher_main nb l c d ds autos m fe G H) as (pars & cov & Ep & Ec & N & Si & MM & Hi & Ho & Hs & Hm).
    destruct (fisher_main nb l c' d ds autos m' fe' G H') as (pars' & cov' & Ep' & Ec' & N' & _ & _ & _ & Ho' & Hs' & Hm').
    rewrite Ec in Ec'. injection Ec' as <-. pose proof (free_params_perm l c c' pars pars' Nd P Ep Ep') as PP.
    assert (Sm : forall k, smem k (dkeys pars) = smem k (dkeys pars')).
    { intros k. destruct (smem_spec k (dkeys pars)) as [Hk|Hk], (smem_spec k (dkeys pars')) as [Hk'|Hk']; auto.
      - exfalso. apply Hk'. apply (Permutation_in _ PP). exact Hk.
      - exfalso. apply Hk. apply (Permutation_in _ (Permutation_sym PP)). exact Hk'. }
    destruct (single l).
    - rewrite (Hs eq_refl), (Hs' eq_refl). destruct (joint_cells _ _ _ _ _ _ _ Ho N) as (_ & _ & ->). destruct (joint_cells _ _ _ _ _ _ _ Ho' N') as (_ & _ & ->).
      rewrite !Sm. reflexivity.
    - destruct (Hm eq_refl) as (au & E & _ & Hc). destruct (Hm' eq_refl) as (au' & E' & _ & Hc'). rewrite E in E'. injection E' as <-.
      destruct (Hc a b) as [V D]. destruct (Hc' a b) as [V' D'].
      assert (EV : oval (f_get m a b) = oval (f_get m' a b)) by (rewrite V, V'; unfold joint_cell; rewrite !Sm; reflexivity).
      assert (ED : f_get m a b <> None <-> f_get m' a b <> None).
      { rewrite D, D'. rewrite <- !smem_In, !Sm. reflexivity. }
      destruct (f_get m a b), (f_get m' a b); cbn in EV; try congruence; exfalso; [apply (proj1 ED)|apply (proj2 ED)]; congruence.
  Qed.

  (** The result is symmetric. *)
  Lemma term_symm nb l d ds Inv x a b : symmetric_spectra d -> inverse_at (length (components nb l)) (cov_at nb l d x) (Inv x) ->
    fisher_term nb l ds Inv a b x = fisher_term nb l ds Inv b a x.
  Proof.
    intros S Hi. unfold fisher_term. set (n := length (components nb l)) in *. rewrite Fsum_comm.
    apply Fsum_ext. intros r Hr. apply Fsum_ext. intros c0 Hc0. apply in_seq in Hr, Hc0.
    rewrite (inverse_symm n (cov_at nb l d x) (Inv x) Hi) by (try lia; intros r' c' _ _; unfold cov_at; rewrite gauss_sym by exact S; reflexivity). ring.
  Qed.
End FE4.
