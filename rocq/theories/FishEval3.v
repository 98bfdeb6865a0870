(** The Fisher matrix of a data vector: cells, positivity, success. *)
From Verif Require Import Base SortLib StrLib MatInv LabLin LinalgModel FrameModel FrameLemmas KeyModel KeySpec KeyLemmas
  ParamModel EvalModel EvalSpec EllLemmas CovLemmas CovLemmas2 DerivLemmas FishEval FishEval2.
From Coq Require Import Sorted Permutation.
Open Scope list_scope.

Section FE3.
  Context {F : Type} {K : Fld F} {O : OFld (F := F)} {SO : SetOrder}.
  Add Field FE3Field : (fth (F := F)).
  Open Scope fld_scope.

  Definition single (l : list spelled) : bool := match l with [e] => probe_eqb (fst (snd e)) (snd (snd e)) | _ => false end.

  Lemma select_self {A} (ells : list F) (col : list A) : length col = length ells -> select ells ells col = col.
  Proof.
    intros E. unfold select. rewrite filter_all.
    - revert col E. induction ells as [|x ells IH]; intros [|v col] E; cbn in *; try lia; [reflexivity|]. rewrite IH by lia. reflexivity.
    - intros [x v] Hin. cbn. apply fmem_iff. apply in_combine_l in Hin. exact Hin.
  Qed.

  Lemma joint_cells nb l ds Inv ells names fe : f_ell_ok nb l ds Inv ells names fe -> NoDup names ->
    ix (sum_fisher fe ells) = ssort names /\ cx (sum_fisher fe ells) = ssort names /\
    forall a b, f_get (sum_fisher fe ells) a b =
      if smem a names && smem b names then Some (Fsum (fisher_term nb l ds Inv a b) ells) else None.
  Proof.
    intros (He & Hg & Hk) Nd.
    assert (HI : forall (h : string * string -> string), (forall ab, h ab = fst ab) \/ (forall ab, h ab = snd ab) ->
      ssort (sdup (map (fun kv => h (fst kv)) (fe_cols fe))) = ssort names).
    { intros h Hh. apply ssort_unique. apply NoDup_Permutation; [apply NoDup_nodup|exact Nd|]. intros a. unfold sdup. rewrite nodup_In, in_map_iff. split.
      - intros ([[a1 b1] col] & <- & Hin). destruct (Hk _ _ Hin) as (H1 & H2 & _). cbn [fst snd] in *. destruct Hh as [Hh|Hh]; rewrite Hh; assumption.
      - intros Ha. pose proof (Hg a a Ha Ha) as G. apply (dget_In _ spair_spec) in G. exists ((a, a), map (fisher_term nb l ds Inv a a) ells).
        split; [|exact G]. destruct Hh as [Hh|Hh]; rewrite Hh; reflexivity. }
    split; [apply (HI fst); left; reflexivity|]. split; [apply (HI snd); right; reflexivity|].
    intros a b. rewrite f_get_sum. rewrite He. destruct (smem_spec a names) as [Ha|Ha]; destruct (smem_spec b names) as [Hb|Hb]; cbn [andb].
    - rewrite (Hg a b Ha Hb). rewrite select_self by apply map_length. rewrite Fsum_map. reflexivity.
    - destruct (dget spair_eqb (fe_cols fe) (a, b)) as [col|] eqn:E; [|reflexivity]. apply (dget_In _ spair_spec) in E. destruct (Hk _ _ E) as (_ & H2 & _). contradiction.
    - destruct (dget spair_eqb (fe_cols fe) (a, b)) as [col|] eqn:E; [|reflexivity]. apply (dget_In _ spair_spec) in E. destruct (Hk _ _ E) as (H1 & _ & _). contradiction.
    - destruct (dget spair_eqb (fe_cols fe) (a, b)) as [col|] eqn:E; [|reflexivity]. apply (dget_In _ spair_spec) in E. destruct (Hk _ _ E) as (_ & H2 & _). contradiction.
  Qed.

  Definition joint_cell nb l ds Inv ells names a b : F :=
    if smem a names && smem b names then Fsum (fisher_term nb l ds Inv a b) ells else 0.

  Lemma fisher_main nb l (c : coll F) d ds autos m fe : good_inputs nb l d ds ->
    compute_fisher (map skey l) c (raw_derivs ds) (raw_spectra d) autos = Ok (m, fe) ->
    exists pars cov, free_parameters (map skey l) c = Ok pars /\ build_cov (map skey l) (raw_spectra d) = Ok cov /\
      NoDup (dkeys pars) /\ increasing (cv_ells cov) /\ (forall x, In x (cv_ells cov) <-> common d l x) /\
      (forall x, In x (cv_ells cov) -> inverse_at (length (components nb l)) (cov_at nb l d x) (inv_of cov x)) /\
      f_ell_ok nb l ds (inv_of cov) (cv_ells cov) (dkeys pars) fe /\
      (single l = true -> m = sum_fisher fe (cv_ells cov)) /\
      (single l = false -> exists au, autos = Some au /\ (forall p, In p (auto_probes l) -> dget String.eqb au (pname Alias p) <> None) /\
         forall a b, oval (f_get m a b) = joint_cell nb l ds (inv_of cov) (cv_ells cov) (dkeys pars) a b +
                                          Fsum (fun p => contrib au (cv_ells cov) (pname Alias p) a b) (auto_probes l) /\
           (f_get m a b <> None <-> (In a (dkeys pars) /\ In b (dkeys pars)) \/ exists p, In p (auto_probes l) /\ present au (cv_ells cov) (pname Alias p) a b)).
  Proof.
    intros G H. unfold compute_fisher in H.
    destruct (free_parameters (map skey l) c) as [pars|] eqn:Ep; [|discriminate]. cbn [rbind] in H. cbv zeta in H.
    destruct (build_cov (map skey l) (raw_spectra d)) as [cov|] eqn:Ec; [|discriminate]. cbn [rbind] in H.
    destruct (deriv_vectors (map skey l) (dkeys pars) (raw_derivs ds)) as [vecs|] eqn:Ev; [|discriminate]. cbn [rbind] in H.
    destruct (check_ells _ (cv_ells cov)) as [[]|] eqn:Ek in H; [|discriminate]. cbn [rbind] in H.
    destruct (fisher_of_ell cov (dkeys pars) _) as [fe'|] eqn:Ef in H; [|discriminate]. cbn [rbind] in H.
    pose proof (free_params_NoDup _ _ _ Ep) as Nd.
    destruct (fisher_terms nb l c d ds G pars cov vecs fe' Ep Ec Ev Ek Ef Nd) as (Nl & Si & MM & Nn & Hi & Ho).
    rewrite single_spec in H. cbn [rbind] in H. fold (single l) in H.
    destruct (joint_cells _ _ _ _ _ _ _ Ho Nd) as (_ & _ & Hj).
    destruct (single l) eqn:Es.
    - injection H as <- <-. exists pars, cov. split; [reflexivity|]. split; [reflexivity|]. split; [exact Nd|]. split; [exact Si|]. split; [exact MM|]. split; [exact Hi|].
      split; [exact Ho|]. split; [reflexivity|discriminate].
    - destruct autos as [au|]; [|discriminate].
      destruct (add_involved (map skey l) (cv_ells cov) au (sum_fisher fe' (cv_ells cov))) as [m'|] eqn:Ea; [|discriminate]. cbn [rbind] in H. injection H as <- <-.
      exists pars, cov. split; [reflexivity|]. split; [reflexivity|]. split; [exact Nd|]. split; [exact Si|]. split; [exact MM|]. split; [exact Hi|].
      split; [exact Ho|]. split; [discriminate|]. intros _. exists au. split; [reflexivity|].
      unfold add_involved in Ea. destruct (involved_perm l) as (ps & E & P). rewrite E in Ea. cbn [rbind] in Ea.
      apply add_fold in Ea. destruct Ea as [A B]. split.
      + intros p Hp. apply A. apply (Permutation_in _ (Permutation_sym P)). apply in_map. exact Hp.
      + intros a b. destruct (B a b) as [B1 B2]. split.
        * rewrite B1. rewrite (Fsum_perm _ P), Fsum_map, Hj. unfold joint_cell. destruct (smem a (dkeys pars) && smem b (dkeys pars)); reflexivity.
        * rewrite B2, Hj. split.
          -- intros [Hl|(p & Hp & Hr)].
             ++ left. destruct (smem_spec a (dkeys pars)), (smem_spec b (dkeys pars)); cbn in Hl; try congruence. auto.
             ++ right. apply (Permutation_in _ P) in Hp. apply in_map_iff in Hp. destruct Hp as (q & <- & Hq). eauto.
          -- intros [[Ha Hb]|(p & Hp & Hr)].
             ++ left. rewrite (proj2 (smem_In a (dkeys pars)) Ha), (proj2 (smem_In b (dkeys pars)) Hb). discriminate.
             ++ right. exists (pname Alias p). split; [|exact Hr]. apply (Permutation_in _ (Permutation_sym P)). apply in_map. exact Hp.
  Qed.

  (** ** Positivity *)
  Lemma quad_ext L v (M N : string -> string -> F) : (forall a b, In a L -> In b L -> M a b = N a b) -> quad L v M = quad L v N.
  Proof. intros H. unfold quad. apply Fsum_ext. intros a Ha. apply Fsum_ext. intros b Hb. rewrite H by assumption. reflexivity. Qed.
  Lemma quad_plus L v (M N : string -> string -> F) : quad L v (fun a b => M a b + N a b) = quad L v M + quad L v N.
  Proof. unfold quad. rewrite <- Fsum_plus. apply Fsum_ext. intros a _. rewrite <- Fsum_plus. apply Fsum_ext. intros b _. ring. Qed.
  Lemma quad_sum {T} L v (M : T -> string -> string -> F) ts : quad L v (fun a b => Fsum (fun t => M t a b) ts) = Fsum (fun t => quad L v (M t)) ts.
  Proof.
    induction ts as [|t ts IH]; cbn [Fsum].
    - unfold quad. apply Fsum_zero. intros a _. apply Fsum_zero. intros b _. ring.
    - rewrite quad_plus, IH. reflexivity.
  Qed.
  Lemma quad_zero L v : quad L v (fun _ _ => 0) = 0.
  Proof. unfold quad. apply Fsum_zero. intros a _. apply Fsum_zero. intros b _. ring. Qed.

  Definition ind (names : list string) (a : string) : F := if smem a names then 1 else 0.
  Lemma term_quad nb l ds Inv names x L v :
    quad L v (fun a b => if smem a names && smem b names then fisher_term nb l ds Inv a b x else 0) =
    bil (seq 0 (length (components nb l))) (Inv x)
        (fun r => Fsum (fun a => v a * ind names a * der_at nb l (deriv ds a) x r) L)
        (fun r => Fsum (fun a => v a * ind names a * der_at nb l (deriv ds a) x r) L).
  Proof.
    set (n := length (components nb l)). unfold bil.
    transitivity (Fsum (fun a => Fsum (fun b => Fsum (fun r => Fsum (fun c =>
      (v a * ind names a * der_at nb l (deriv ds a) x r) * Inv x r c * (v b * ind names b * der_at nb l (deriv ds b) x c)) (seq 0 n)) (seq 0 n)) L) L).
    - unfold quad. apply Fsum_ext. intros a _. apply Fsum_ext. intros b _.
      transitivity (v a * ind names a * (ind names b * v b) * fisher_term nb l ds Inv a b x).
      + unfold ind. destruct (smem a names), (smem b names); cbn [andb]; ring.
      + unfold fisher_term. fold n. rewrite <- Fsum_scale. apply Fsum_ext. intros r _. rewrite <- Fsum_scale. apply Fsum_ext. intros c _. ring.
    - transitivity (Fsum (fun a => Fsum (fun r => Fsum (fun b => Fsum (fun c =>
        (v a * ind names a * der_at nb l (deriv ds a) x r) * Inv x r c * (v b * ind names b * der_at nb l (deriv ds b) x c)) (seq 0 n)) L) (seq 0 n)) L).
      { apply Fsum_ext. intros a _. apply Fsum_comm. }
      rewrite Fsum_comm. apply Fsum_ext. intros r _.
      transitivity (Fsum (fun a => Fsum (fun c => Fsum (fun b =>
        (v a * ind names a * der_at nb l (deriv ds a) x r) * Inv x r c * (v b * ind names b * der_at nb l (deriv ds b) x c)) L) (seq 0 n)) L).
      { apply Fsum_ext. intros a _. apply Fsum_comm. }
      rewrite Fsum_comm. apply Fsum_ext. intros c _.
      rewrite <- Fsum_scale_r, <- Fsum_scale_r. apply Fsum_ext. intros a _. rewrite <- Fsum_scale. reflexivity.
  Qed.

  Lemma computed_term nb l ds Inv ells names fe t x a b : f_ell_ok nb l ds Inv ells names fe -> nth_error ells t = Some x ->
    term_at fe t a b = if smem a names && smem b names then fisher_term nb l ds Inv a b x else 0.
  Proof.
    intros (He & Hg & Hk) Ht. unfold term_at. destruct (smem_spec a names) as [Ha|Ha]; destruct (smem_spec b names) as [Hb|Hb]; cbn [andb].
    - rewrite (Hg a b Ha Hb), nth_error_map, Ht. reflexivity.
    - destruct (dget spair_eqb (fe_cols fe) (a, b)) as [col|] eqn:E; [|reflexivity]. apply (dget_In _ spair_spec) in E. destruct (Hk _ _ E) as (_ & H2 & _). contradiction.
    - destruct (dget spair_eqb (fe_cols fe) (a, b)) as [col|] eqn:E; [|reflexivity]. apply (dget_In _ spair_spec) in E. destruct (Hk _ _ E) as (H1 & _ & _). contradiction.
    - destruct (dget spair_eqb (fe_cols fe) (a, b)) as [col|] eqn:E; [|reflexivity]. apply (dget_In _ spair_spec) in E. destruct (Hk _ _ E) as (_ & H2 & _). contradiction.
  Qed.
  Lemma computed_wf nb l ds Inv ells names fe : f_ell_ok nb l ds Inv ells names fe -> wf_fell fe.
  Proof. intros (He & Hg & Hk) a b col E. apply (dget_In _ spair_spec) in E. destruct (Hk _ _ E) as (_ & _ & H). rewrite He. exact H. Qed.
  Lemma term_at_out fe t a b : wf_fell fe -> nth_error (fe_ells fe) t = None -> term_at fe t a b = 0.
  Proof.
    intros W H. unfold term_at. destruct (dget spair_eqb (fe_cols fe) (a, b)) as [col|] eqn:E; [|reflexivity].
    apply W in E. apply nth_error_None in H. rewrite (proj2 (nth_error_None col t)) by lia. reflexivity.
  Qed.
  Lemma computed_psd nb l ds Inv ells names fe : f_ell_ok nb l ds Inv ells names fe ->
    (forall x, In x ells -> psd (seq 0 (length (components nb l))) (Inv x)) -> psd_terms fe.
  Proof.
    intros Ho Hp t L v. destruct (nth_error ells t) as [x|] eqn:Ht.
    - rewrite (quad_ext _ _ _ (fun a b => if smem a names && smem b names then fisher_term nb l ds Inv a b x else 0)).
      + rewrite term_quad. apply Hp. apply nth_error_In in Ht. exact Ht.
      + intros a b _ _. apply (computed_term _ _ _ _ _ _ _ _ _ _ _ Ho Ht).
    - rewrite (quad_ext _ _ _ (fun _ _ => 0)); [rewrite quad_zero; apply fle_refl|]. intros a b _ _. apply term_at_out; [apply (computed_wf _ _ _ _ _ _ _ Ho)|].
      destruct Ho as (-> & _). exact Ht.
  Qed.

  Lemma own_terms fe ells a b : wf_fell fe ->
    own fe ells a b = Fsum (fun t => match nth_error (fe_ells fe) t with Some x => if in_dec fdec x ells then 0 else term_at fe t a b | None => 0 end) (seq 0 (length (fe_ells fe))).
  Proof.
    intros W. unfold own, term_at. pose proof (W a b) as Hl. destruct (dget spair_eqb (fe_cols fe) (a, b)) as [col|].
    - specialize (Hl col eq_refl). clear W. revert col Hl. generalize (fe_ells fe) as es. induction es as [|x es IH]; intros [|y col] Hl; cbn in Hl; try lia; [reflexivity|].
      cbn [combine Fsum length seq nth_error]. rewrite IH by lia. f_equal.
      rewrite <- seq_shift, Fsum_map. reflexivity.
    - symmetry. apply Fsum_zero. intros t _. destruct (nth_error (fe_ells fe) t) as [x|]; [|reflexivity]. destruct (in_dec fdec x ells); reflexivity.
  Qed.
  Lemma own_psd fe ells L v : wf_fell fe -> psd_terms fe -> fle 0 (quad L v (own fe ells)).
  Proof.
    intros W P. rewrite (quad_ext _ _ _ _ (fun a b _ _ => own_terms fe ells a b W)). rewrite quad_sum.
    apply Fsum_nonneg. intros t _. destruct (nth_error (fe_ells fe) t) as [x|].
    - destruct (in_dec fdec x ells); [rewrite quad_zero; apply fle_refl|apply P].
    - rewrite quad_zero. apply fle_refl.
  Qed.

  Lemma psd_inverse n (C I : nat -> nat -> F) : inverse_at n C I -> psd (seq 0 n) C -> psd (seq 0 n) I.
  Proof.
    intros H P x. set (y := fun r => Fsum (fun k => I r k * x k) (seq 0 n)).
    assert (Cy : forall r, In r (seq 0 n) -> Fsum (fun k => C r k * y k) (seq 0 n) = x r).
    { intros r Hr. unfold y.
      transitivity (Fsum (fun k => Fsum (fun j => C r k * I k j * x j) (seq 0 n)) (seq 0 n)).
      { apply Fsum_ext. intros k _. rewrite <- Fsum_scale. apply Fsum_ext. intros j _. ring. }
      rewrite Fsum_comm. transitivity (Fsum (fun j => (if Nat.eqb r j then 1 else 0) * x j) (seq 0 n)).
      { apply Fsum_ext. intros j Hj. rewrite Fsum_scale_r. apply in_seq in Hr, Hj. destruct (H r j) as [-> _]; [lia|lia|]. reflexivity. }
      rewrite (@Fsum_single _ _ _ _ (seq 0 n) r (seq_NoDup _ _) Hr); [rewrite Nat.eqb_refl; ring|].
      intros j _ Hj. destruct (Nat.eqb_spec r j); [congruence|ring]. }
    specialize (P y). rewrite bil_mv in P. rewrite bil_mv.
    change (fle 0 (Fsum (fun r => x r * y r) (seq 0 n))).
    replace (Fsum (fun r => x r * y r) (seq 0 n)) with (Fsum (fun a => y a * Fsum (fun b => C a b * y b) (seq 0 n)) (seq 0 n)); [exact P|].
    apply Fsum_ext. intros r Hr. rewrite Cy by exact Hr. ring.
  Qed.

  Lemma fisher_psd nb l (c : coll F) d ds autos m fe : good_inputs nb l d ds ->
    compute_fisher (map skey l) c (raw_derivs ds) (raw_spectra d) autos = Ok (m, fe) ->
    (forall x, common d l x -> psd (seq 0 (length (components nb l))) (cov_at nb l d x)) ->
    (forall au p fa, autos = Some au -> dget String.eqb au p = Some fa -> wf_fell fa /\ psd_terms fa) ->
    wf_fell fe /\ psd_terms fe /\ forall L v, fle 0 (quad L v (fun a b => oval (f_get m a b))).
  Proof.
    intros G H Pc Pa. destruct (fisher_main nb l c d ds autos m fe G H) as (pars & cov & _ & _ & Nd & Si & MM & Hi & Ho & Hs & Hm).
    assert (PI : forall x, In x (cv_ells cov) -> psd (seq 0 (length (components nb l))) (inv_of cov x)).
    { intros x Hx. apply (psd_inverse _ (cov_at nb l d x)); [apply Hi; exact Hx|apply Pc, MM, Hx]. }
    pose proof (computed_psd _ _ _ _ _ _ _ Ho PI) as Pt.
    split; [apply (computed_wf _ _ _ _ _ _ _ Ho)|]. split; [exact Pt|]. intros L v.
    destruct (joint_cells _ _ _ _ _ _ _ Ho Nd) as (_ & _ & Hj).
    assert (PJ : fle 0 (quad L v (joint_cell nb l ds (inv_of cov) (cv_ells cov) (dkeys pars)))).
    { rewrite (quad_ext _ _ _ (fun a b => Fsum (fun x => if smem a (dkeys pars) && smem b (dkeys pars) then fisher_term nb l ds (inv_of cov) a b x else 0) (cv_ells cov))).
      - rewrite quad_sum. apply Fsum_nonneg. intros x Hx. rewrite term_quad. apply PI. exact Hx.
      - intros a b _ _. unfold joint_cell. destruct (_ && _); [reflexivity|]. symmetry. apply Fsum_zero. reflexivity. }
    destruct (single l) eqn:Es.
    - rewrite (Hs eq_refl). rewrite (quad_ext _ _ _ (joint_cell nb l ds (inv_of cov) (cv_ells cov) (dkeys pars))); [exact PJ|].
      intros a b _ _. rewrite Hj. unfold joint_cell. destruct (_ && _); reflexivity.
    - destruct (Hm eq_refl) as (au & Ea & Hin & Hc).
      rewrite (quad_ext _ _ _ _ (fun a b _ _ => proj1 (Hc a b))). rewrite quad_plus, quad_sum.
      replace (0 : F) with (0 + 0) by ring. apply fle_add2; [exact PJ|]. apply Fsum_nonneg. intros p Hp.
      unfold contrib. destruct (dget String.eqb au (pname Alias p)) as [fa|] eqn:Ef; [|rewrite quad_zero; apply fle_refl].
      destruct (Pa au _ fa Ea Ef) as [Wf Pf]. apply own_psd; assumption.
  Qed.
End FE3.
