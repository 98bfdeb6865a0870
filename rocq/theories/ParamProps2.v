(** Property C91: making parameters, reading a file into a collection and
    selecting parameters. *)
From Verif Require Import Base SortLib StrLib FrameModel EvalModel FsModel ParamModel OrdLib ParamFileModel ParamLemmas ParamLemmas2 FishEval2.
From Coq Require Import Lia.
Open Scope string_scope.
Open Scope list_scope.

Section Props.
  Context {F : Type} {K : Fld F} {O : OFld (F := F)}.
  Open Scope fld_scope.
  Implicit Types c : coll F.
  Implicit Types p : param F.

  (** A parameter is made exactly when its kind is one of the two and a nuisance
      parameter says to which probe it belongs. *)
  Theorem C91_make name fid cur kind probe free stem descr units method :
    (exists p, make_param name fid cur kind probe free stem descr units method = Ok p) <-> kind = Some true \/ (kind = Some false /\ probe <> None).
  Proof.
    unfold make_param. destruct kind as [[]|]; destruct probe; split; intros H; try (destruct H as [p H]; discriminate); try (eexists; reflexivity); auto.
    - right. split; [reflexivity|discriminate].
    - destruct H as [H|[_ H]]; [discriminate|]. destruct (H eq_refl).
    - destruct H as [H|[H _]]; discriminate.
    - destruct H as [H|[H _]]; discriminate.
  Qed.
  Theorem C91_made name fid cur cosmo probe free stem descr units method p :
    make_param name fid cur (Some cosmo) probe free stem descr units method = Ok p ->
    pp_name p = name /\ fiducial p = fid /\ (forall v, cur = Some v -> current p = v) /\ (cur = None -> current p = fid) /\ is_cosmo p = cosmo /\ pprobe p = probe /\
    stem_factor p = stem /\ is_free p = free.
  Proof.
    unfold make_param. intros H. assert (p = mkPar name fid (match cur with Some v => v | None => fid end) cosmo probe stem free descr units method) by (destruct cosmo, probe; congruence).
    subst p. cbn. repeat split; auto. - intros v ->. reflexivity. - intros ->. reflexivity.
  Qed.

  (** ** Entries of a file *)
  (** What a key that may be left out gives. *)
  Definition num_or (d : list (string * json F)) (k : string) (v w : F) : Prop :=
    dget String.eqb d k = Some (JNum w) \/ (exists z, dget String.eqb d k = Some (JInt z) /\ w = fz_of z) \/ (dget String.eqb d k = None /\ w = v) \/
    (k = "current_value" /\ dget String.eqb d k = Some JNull /\ w = v).
  Definition text_or (d : list (string * json F)) (k v w : string) : Prop :=
    dget String.eqb d k = Some (JStr w) \/ (dget String.eqb d k = None /\ w = v).
  Theorem C91_entry d p : from_dict d = Ok p ->
    dget String.eqb d "name" = Some (JStr (pp_name p)) /\ dget String.eqb d "fiducial" = Some (JNum (fiducial p)) /\ dget String.eqb d "is_free_parameter" = Some (JBool (is_free p)) /\
    dget String.eqb d "kind" = Some (JStr (if is_cosmo p then "CosmologicalParameter" else "NuisanceParameter")) /\
    num_or d "current_value" (fiducial p) (current p) /\ num_or d "stem_factor" 1 (stem_factor p) /\
    text_or d "description" "" (pdescr p) /\ text_or d "units" "None" (punits p) /\ text_or d "derivative_method" "SteM" (dmethod p) /\
    (forall q, pprobe p = Some q <-> dget String.eqb d "probe" = Some (JStr q)) /\ (is_cosmo p = false -> pprobe p <> None) /\
    (forall k v, In (k, v) d -> In k ["name"; "fiducial"; "current_value"; "kind"; "probe"; "is_free_parameter"; "stem_factor"; "description"; "units"; "derivative_method"]).
  Proof.
    unfold from_dict. destruct (forallb _ d) eqn:Ek; [|discriminate]. cbn [negb]. unfold jget.
    destruct (dget String.eqb d "name") as [[| | | |name| |]|] eqn:En; try discriminate. destruct (dget String.eqb d "fiducial") as [[| | |fid| | |]|] eqn:Ef; try discriminate.
    destruct (dget String.eqb d "is_free_parameter") as [[|free| | | | |]|] eqn:Er; try discriminate.
    intros H. destruct (dget String.eqb d "kind") as [[| | | |kind| |]|] eqn:Ei; try (cbn [rbind] in H; repeat (match type of H with context [rbind ?x _] => destruct x end; cbn [rbind] in H; try discriminate); discriminate).
    cbn [rbind] in H.
    assert (Hp : exists po, match dget String.eqb d "probe" with Some (JStr q) => Ok (Some q) | None | Some JNull => Ok None | Some _ => Err ETypeError end = Ok po /\ (forall q, po = Some q <-> dget String.eqb d "probe" = Some (JStr q))).
    { destruct (dget String.eqb d "probe") as [[| | | |q| |]|]; try discriminate H; eexists; (split; [reflexivity|]); intros q'; split; intros; congruence. }
    destruct Hp as (po & Ep & Hpo). unfold jget in H. rewrite Ep in H. cbn [rbind] in H.
    assert (Hc : exists co, match dget String.eqb d "current_value" with Some (JNum x) => Ok (Some x) | Some (JInt z) => Ok (Some (fz_of z)) | None | Some JNull => Ok None | Some _ => Err ETypeError end = Ok co /\
       num_or d "current_value" fid (match co with Some x => x | None => fid end)).
    { unfold num_or. destruct (dget String.eqb d "current_value") as [[| |z|x| | |]|]; try discriminate H; eexists; (split; [reflexivity|]); cbn; eauto 6. }
    destruct Hc as (co & Ec & Hco). rewrite Ec in H. cbn [rbind] in H.
    assert (Hs : exists st, match dget String.eqb d "stem_factor" with Some (JNum x) => Ok x | Some (JInt z) => Ok (fz_of z) | None => Ok 1 | Some _ => Err ETypeError end = Ok st /\ num_or d "stem_factor" 1 st).
    { unfold num_or. destruct (dget String.eqb d "stem_factor") as [[| |z|x| | |]|]; try discriminate H; eexists; (split; [reflexivity|]); eauto 6. }
    destruct Hs as (st & Es & Hst). rewrite Es in H. cbn [rbind] in H.
    assert (Ht : forall k v w, opt_str d k v = Ok w -> text_or d k v w).
    { intros k v w. unfold opt_str, jget, text_or. destruct (dget String.eqb d k) as [[| | | |x| |]|]; try discriminate; intros Hw; [left|right; split; [reflexivity|]]; congruence. }
    destruct (opt_str d "description" "") as [de|] eqn:Ed; [|discriminate]. destruct (opt_str d "units" "None") as [un|] eqn:Eu; [|discriminate]. destruct (opt_str d "derivative_method" "SteM") as [me|] eqn:Em; [|discriminate].
    cbn [rbind] in H. apply Ht in Ed, Eu, Em.
    assert (Kn : forall k v, In (k, v) d -> In k known_args).
    { intros k v Hk. rewrite forallb_forall in Ek. apply (Ek _) in Hk. cbn [fst] in Hk. apply smem_In in Hk. exact Hk. }
    destruct (String.eqb kind (kind_text true)) eqn:K1; [|destruct (String.eqb kind (kind_text false)) eqn:K2; [|discriminate]].
    - apply String.eqb_eq in K1. cbn [make_param] in H. assert (p = mkPar name fid (match co with Some x => x | None => fid end) true po st free de un me) by (destruct po; congruence). subst p kind. cbn.
      repeat split; auto; try apply Hpo; discriminate.
    - apply String.eqb_eq in K2. cbn [make_param] in H. destruct po as [q|]; [|discriminate]. assert (p = mkPar name fid (match co with Some x => x | None => fid end) false (Some q) st free de un me) by congruence. subst p kind. cbn.
      repeat split; auto; try apply Hpo; discriminate.
  Qed.

  (** ** Reading into a collection *)
  Lemma dget_dupdate {V} (e : dict string V) : forall (d : dict string V) k, NoDup (dkeys e) ->
    dget String.eqb (dupdate String.eqb d e) k = match dget String.eqb e k with Some v => Some v | None => dget String.eqb d k end.
  Proof.
    induction e as [|[k' v'] e IH]; intros d k N; [reflexivity|]. inversion N as [|x l Hx Hl]; subst. change (dupdate String.eqb d ((k', v') :: e)) with (dupdate String.eqb (dset String.eqb d k' v') e). rewrite IH by exact Hl.
    cbn [dget]. destruct (String.eqb_spec k' k) as [->|Ne].
    - rewrite (proj2 (dget_None _ String.eqb_spec e k) Hx). apply (dget_dset_same _ String.eqb_spec).
    - rewrite (dget_dset_other _ String.eqb_spec) by exact Ne. reflexivity.
  Qed.
  Lemma dupdate_order {V} (e : dict string V) : forall d : dict string V, NoDup (dkeys e) ->
    dkeys (dupdate String.eqb d e) = dkeys d ++ filter (fun k => negb (smem k (dkeys d))) (dkeys e).
  Proof.
    induction e as [|[k' v'] e IH]; intros d N; [cbn; rewrite app_nil_r; reflexivity|]. inversion N as [|x l Hx Hl]; subst. change (dupdate String.eqb d ((k', v') :: e)) with (dupdate String.eqb (dset String.eqb d k' v') e). rewrite IH by exact Hl.
    rewrite (dkeys_dset _ String.eqb_spec). unfold dmem. cbn [dkeys map fst filter]. destruct (dget String.eqb d k') eqn:E.
    - assert (In k' (dkeys d)) by (apply (dget_In _ String.eqb_spec) in E; apply (in_map fst) in E; exact E). apply smem_In in H. rewrite H. reflexivity.
    - apply (dget_None _ String.eqb_spec) in E. destruct (smem k' (dkeys d)) eqn:E2; [apply smem_In in E2; contradiction|]. cbn [negb]. rewrite <- app_assoc. cbn [app]. do 2 f_equal.
      apply filter_ext_in. intros a Ha. f_equal. assert (a <> k') by (intros ->; contradiction). destruct (smem a (dkeys d)) eqn:E3; [apply smem_In in E3; apply smem_In; apply in_or_app; left; exact E3|].
      destruct (smem a (dkeys d ++ [k'])) eqn:E4; [|reflexivity]. apply smem_In in E4. apply in_app_or in E4. destruct E4 as [E4|[E4|[]]]; [apply smem_In in E4; congruence|congruence].
  Qed.
  Lemma params_of_file oc es : forall acc d, NoDup (dkeys acc) -> params_of oc es acc = Ok d ->
    NoDup (dkeys d) /\ exists ps, Forall2 (fun e p => exists o, e = JObj o /\ from_dict o = Ok p) es ps /\
      forall n, dget String.eqb d n = match find (fun p => String.eqb (pp_name p) n && (negb oc || is_cosmo p)) (rev ps) with Some p => Some p | None => dget String.eqb acc n end.
  Proof.
    induction es as [|e es IH]; intros acc d N H; cbn [params_of] in H.
    - assert (acc = d) by congruence. subst. split; [exact N|]. exists []. split; [constructor|reflexivity].
    - destruct e as [| | | | | |o]; try discriminate. cbn [as_obj rbind] in H. destruct (from_dict o) as [p|] eqn:Eo; [|discriminate]. cbn [rbind] in H.
      assert (N' : NoDup (dkeys (if negb oc || is_cosmo p then dset String.eqb acc (pp_name p) p else acc))) by (destruct (negb oc || is_cosmo p); [apply (NoDup_dset _ String.eqb_spec)|]; exact N).
      destruct (IH _ _ N' H) as (Nd & ps & Fs & G). split; [exact Nd|]. exists (p :: ps). split; [constructor; [exists o; auto|exact Fs]|].
      intros n. rewrite G. cbn [rev]. assert (Fa : forall f (l1 l2 : list (param F)), find f (l1 ++ l2) = match find f l1 with Some x => Some x | None => find f l2 end).
      { induction l1 as [|x l1 IHl]; intros l2; [reflexivity|]. cbn [app find]. destruct (f x); [reflexivity|apply IHl]. }
      rewrite Fa. destruct (find _ (rev ps)); [reflexivity|]. cbn [find]. destruct (negb oc || is_cosmo p).
      + rewrite Bool.andb_true_r. destruct (String.eqb_spec (pp_name p) n) as [<-|Ne]; [apply (dget_dset_same _ String.eqb_spec)|apply (dget_dset_other _ String.eqb_spec); exact Ne].
      + rewrite Bool.andb_false_r. reflexivity.
  Qed.
  (** A file holds its parameters under their names, the last entry of a name
      counting; nuisance parameters are left out on request. *)
  Theorem C91_file oc es t r : from_json oc (JList (es ++ [t])) = Ok r ->
    NoDup (dkeys (params r)) /\ exists ps, Forall2 (fun e p => exists o, e = JObj o /\ from_dict o = Ok p) es ps /\
      forall n, pget r n = find (fun p => String.eqb (pp_name p) n && (negb oc || is_cosmo p)) (rev ps).
  Proof.
    unfold from_json, from_dict_list. rewrite removelast_snoc. intros H. destruct (params_of oc es []) as [d|] eqn:E; [|discriminate]. cbn [rbind] in H.
    destruct (last_obj _) as [o|]; [|discriminate]. cbn [rbind] in H. destruct (jfield o "base_stem_disps") as [jd|]; [|discriminate]. cbn [rbind] in H. destruct (jfield o "is_universe_flat") as [jf|]; [|discriminate]. cbn [rbind] in H.
    destruct (as_nums jd) as [b|]; [|discriminate]. cbn [rbind] in H. destruct (as_flag jf) as [f|]; [|discriminate]. cbn [rbind] in H. assert (params r = d) by (apply (f_equal (fun x => match x with Ok c => params c | Err _ => [] end)) in H; cbn in H; congruence).
    destruct (params_of_file oc es [] d (NoDup_nil _) E) as (Nd & ps & Fs & G). unfold pget. rewrite H0. split; [exact Nd|]. exists ps. split; [exact Fs|]. intros n. rewrite G. destruct (find _ _); reflexivity.
  Qed.
  (** Reading a file into a collection: a parameter of the file replaces the one
      of its name or is put behind the others; the others stay; displacements and
      flatness are those of the file. *)
  Theorem C91_merge oc j c c' : read_json oc j c = Ok c' <->
    exists r, from_json oc j = Ok r /\ NoDup (dkeys (params r)) /\
      params c' = dupdate String.eqb (params c) (params r) /\ stem_disps c' = stem_disps r /\ stem_dict c' = stem_dict r /\ flat c' = flat r.
  Proof.
    unfold read_json, from_json, from_dict_list. destruct j as [| | | | |l|]; try (split; [discriminate|intros (r & H & _); discriminate]).
    destruct (params_of oc (removelast l) []) as [d|] eqn:E; [|split; [discriminate|intros (r & H & _); discriminate]]. cbn [rbind].
    destruct (last_obj l) as [o|]; [|split; [discriminate|intros (r & H & _); discriminate]]. cbn [rbind].
    destruct (jfield o "base_stem_disps") as [jd|]; [|split; [discriminate|intros (r & H & _); discriminate]]. cbn [rbind].
    destruct (as_nums jd) as [b|]; destruct (jfield o "is_universe_flat") as [jf|]; cbn [rbind]; try (split; [discriminate|intros (r & H & _); discriminate]).
    destruct (as_flag jf) as [f|]; cbn [rbind]; [|split; [discriminate|intros (r & H & _); discriminate]].
    destruct (params_of_file oc _ [] d (NoDup_nil _) E) as (Nd & _). split.
    - intros H. eexists. split; [reflexivity|]. assert (Q : c' = mkColl (params (load_stem b (with_params c (dupdate String.eqb (params c) d)))) (stem_disps (load_stem b (with_params c (dupdate String.eqb (params c) d)))) (stem_dict (load_stem b (with_params c (dupdate String.eqb (params c) d)))) f) by congruence.
      rewrite Q. cbn. auto.
    - intros (r & H & _ & H1 & H2 & H3 & H4). assert (Q : r = load_stem b (mkColl d [] [] f)) by congruence. rewrite Q in H1, H2, H3, H4. cbn in H1, H2, H3, H4. f_equal. destruct c'. cbn in *. subst. reflexivity.
  Qed.
  Theorem C91_merged_values oc j c c' r n : read_json oc j c = Ok c' -> from_json oc j = Ok r ->
    pget c' n = match pget r n with Some p => Some p | None => pget c n end.
  Proof.
    intros H Hr. apply C91_merge in H. destruct H as (r' & E & Nd & P & _). assert (r' = r) by congruence. subst r'. unfold pget. rewrite P. apply dget_dupdate. exact Nd.
  Qed.
  Theorem C91_merged_order oc j c c' r : read_json oc j c = Ok c' -> from_json oc j = Ok r ->
    dkeys (params c') = dkeys (params c) ++ filter (fun k => negb (smem k (dkeys (params c)))) (dkeys (params r)).
  Proof.
    intros H Hr. apply C91_merge in H. destruct H as (r' & E & Nd & P & _). assert (r' = r) by congruence. subst r'. rewrite P. apply dupdate_order. exact Nd.
  Qed.
  (** Reading the same file again changes nothing more. *)
  Theorem C91_read_twice oc j c c' : NoDup (dkeys (params c)) -> read_json oc j c = Ok c' -> read_json oc j c' = Ok c'.
  Proof.
    intros N H. apply C91_merge. apply C91_merge in H. destruct H as (r & E & Nd & P & H1 & H2 & H3). exists r. split; [exact E|]. split; [exact Nd|]. split; [|auto].
    rewrite P. clear - Nd. revert Nd. generalize (params r) as e. generalize (params c) as d. intros d e Nd.
    assert (G : forall e' (x : @pdict F), (forall k v, In (k, v) e' -> dget String.eqb x k = Some v) -> dupdate String.eqb x e' = x).
    { induction e' as [|[k v] e' IH]; intros x Hx; [reflexivity|]. change (dupdate String.eqb x ((k, v) :: e')) with (dupdate String.eqb (dset String.eqb x k v) e'). rewrite (dset_id x k v (Hx k v (or_introl eq_refl))). apply IH. intros k0 v0 H0. apply Hx. right. exact H0. }
    symmetry. apply G. intros k v Hk. rewrite dget_dupdate by exact Nd. rewrite (dget_NoDup_In _ String.eqb_spec e k v Nd Hk). reflexivity.
  Qed.

  (** ** Selections *)
  Definition picks (d' : @pdict F) c (f : param F -> Prop) : Prop :=
    NoDup (dkeys d') /\ forall n p, dget String.eqb d' n = Some p <-> pget c n = Some p /\ f p.
  Lemma picks_filter (g : param F -> bool) c (f : param F -> Prop) : NoDup (dkeys (params c)) -> (forall p, g p = true <-> f p) -> picks (pfilter g (params c)) c f.
  Proof.
    intros N Hf. assert (Ns : NoDup (dkeys (pfilter g (params c)))).
    { unfold pfilter, dkeys in *. induction (params c) as [|x l IH]; [constructor|]. cbn [map] in N. inversion N; subst. cbn [filter]. destruct (g (snd x)); [cbn [map]; constructor; [|apply IH; assumption]|apply IH; assumption].
      intros Hin. apply in_map_iff in Hin. destruct Hin as (y & Ey & Hy). apply filter_In in Hy. apply H1. rewrite <- Ey. apply in_map. apply Hy. }
    split; [exact Ns|]. intros n p. split.
    - intros H. apply (dget_In _ String.eqb_spec) in H. apply filter_In in H. destruct H as [H1 H2]. split; [apply (dget_NoDup_In _ String.eqb_spec); assumption|apply Hf; exact H2].
    - intros [H1 H2]. apply (dget_NoDup_In _ String.eqb_spec); [exact Ns|]. apply filter_In. split; [apply (dget_In _ String.eqb_spec); exact H1|apply Hf; exact H2].
  Qed.
  Lemma opt_eqb_iff a b : opt_eqb a b = true <-> a = b.
  Proof. destruct a, b; cbn; try (split; congruence). rewrite String.eqb_eq. split; congruence. Qed.
  Lemma nuis_iff p : is_nuis p = true <-> is_cosmo p = false.
  Proof. unfold is_nuis. destruct (is_cosmo p); split; auto; discriminate. Qed.
  Theorem C91_selections c probe : NoDup (dkeys (params c)) ->
    picks (cosmological c) c (fun p => is_cosmo p = true) /\ picks (nuisance c) c (fun p => is_cosmo p = false) /\
    picks (free_physical c) c (fun p => is_free p = true) /\ picks (free_cosmological c) c (fun p => is_cosmo p = true /\ is_free p = true) /\
    picks (nuisance_for probe c) c (fun p => is_cosmo p = false /\ pprobe p = Some probe) /\
    picks (free_nuisance_for probe c) c (fun p => is_cosmo p = false /\ pprobe p = Some probe /\ is_free p = true) /\
    picks (free_physical_for probe c) c (fun p => is_free p = true /\ (is_cosmo p = true \/ pprobe p = Some probe)).
  Proof.
    intros N. assert (Pc : picks (free_cosmological c) c (fun p => is_cosmo p = true /\ is_free p = true)).
    { unfold free_cosmological, cosmological. rewrite pfilter_pfilter. apply picks_filter; [exact N|]. intros p. apply Bool.andb_true_iff. }
    assert (Pn : picks (free_nuisance_for probe c) c (fun p => is_cosmo p = false /\ pprobe p = Some probe /\ is_free p = true)).
    { unfold free_nuisance_for, nuisance_for. rewrite pfilter_pfilter. apply picks_filter; [exact N|]. intros p. rewrite !Bool.andb_true_iff, nuis_iff, opt_eqb_iff. tauto. }
    split; [apply picks_filter; [exact N|tauto]|]. split; [apply picks_filter; [exact N|apply nuis_iff]|]. split; [apply picks_filter; [exact N|tauto]|].
    split; [exact Pc|]. split; [apply picks_filter; [exact N|intros p; rewrite Bool.andb_true_iff, nuis_iff, opt_eqb_iff; tauto]|]. split; [exact Pn|].
    unfold free_physical_for. destruct Pc as [Nc Hc], Pn as [Nn Hn]. split; [apply dupdate_NoDup; apply dupdate_NoDup; constructor|]. intros n p. rewrite (dget_dupdate _ _ _ Nn), (dget_dupdate _ _ _ Nc). cbn [dget].
    destruct (dget String.eqb (free_nuisance_for probe c) n) as [q|] eqn:E1.
    - apply Hn in E1. destruct E1 as (G & I1 & I2 & I3). split; [intros H; assert (q = p) by congruence; subst; auto|]. intros (H & _). congruence.
    - destruct (dget String.eqb (free_cosmological c) n) as [q|] eqn:E2.
      + apply Hc in E2. destruct E2 as (G & I1 & I2). split; [intros H; assert (q = p) by congruence; subst; auto|]. intros (H & _). congruence.
      + split; [discriminate|]. intros (H & Fr & [Co|Pr]).
        * assert (X : dget String.eqb (free_cosmological c) n = Some p) by (apply Hc; auto). congruence.
        * destruct (is_cosmo p) eqn:Ec; [assert (X : dget String.eqb (free_cosmological c) n = Some p) by (apply Hc; auto)|assert (X : dget String.eqb (free_nuisance_for probe c) n = Some p) by (apply Hn; auto)]; congruence.
  Qed.
End Props.

(** ** Instances *)
From Coq Require Import QArith Qcanon.
From Verif Require Import FisherLemmas5.
Close Scope Qc_scope. Close Scope Q_scope.
Definition ex_par (n : string) (v : Qc) : param Qc := mkPar n v v true None (qz 1) true "" "None" "SteM".
Definition ex_old : coll Qc := load_stem [qq 1 10] (mkColl [("w0", ex_par "w0" (qz 1)); ("h", ex_par "h" (qz 2))] [] [] false).
Definition ex_entry : list (string * json Qc) := [("name", JStr "h"); ("fiducial", JNum (qz 3)); ("kind", JStr "CosmologicalParameter"); ("is_free_parameter", JBool true)].
Definition ex_entry2 : list (string * json Qc) :=
  [("name", JStr "aIA"); ("fiducial", JNum (qz 5)); ("kind", JStr "NuisanceParameter"); ("is_free_parameter", JBool true); ("probe", JStr "Lensing"); ("stem_factor", JInt 2); ("current_value", JNull)].
Definition ex_file : json Qc := JList [JObj ex_entry; JObj ex_entry2; JObj [("base_stem_disps", JList [JNum (qq 1 5)]); ("is_universe_flat", JBool true)]].
Example C91_instance : NoDup (dkeys (params ex_old)) /\ exists c' r, read_json false ex_file ex_old = Ok c' /\ from_json false ex_file = Ok r /\ dkeys (params c') = ["w0"; "h"; "aIA"] /\
  option_map fiducial (pget c' "h") = Some (qz 3) /\ option_map stem_factor (pget c' "h") = Some (qz 1) /\ option_map fiducial (pget c' "w0") = Some (qz 1) /\ flat c' = true /\
  dkeys (free_physical_for "Lensing" c') = ["w0"; "h"; "aIA"] /\ dkeys (free_physical_for "Void" c') = ["w0"; "h"].
Proof.
  split; [repeat constructor; cbn; intuition discriminate|]. eexists. eexists. split; [reflexivity|]. split; [reflexivity|]. repeat split.
Qed.
Print Assumptions C91_make.
Print Assumptions C91_made.
Print Assumptions C91_entry.
Print Assumptions C91_file.
Print Assumptions C91_merge.
Print Assumptions C91_merged_values.
Print Assumptions C91_merged_order.
Print Assumptions C91_read_twice.
Print Assumptions C91_selections.
