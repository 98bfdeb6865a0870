(** Sums over multipoles, single-probe contributions, free parameters,
    positivity. *)
From Verif Require Import Base SortLib StrLib MatInv LabLin LinalgModel FrameModel FrameLemmas KeyModel KeySpec KeyLemmas
  ParamModel EvalModel EvalSpec EllLemmas CovLemmas CovLemmas2 DerivLemmas FishEval.
From Coq Require Import Sorted Permutation.
Open Scope list_scope.

Section FE2.
  Context {F : Type} {K : Fld F} {O : OFld (F := F)} {SO : SetOrder}.
  Add Field FE2Field : (fth (F := F)).
  Open Scope fld_scope.

  (** ** Free parameters *)
  Lemma dupdate_keys {V} (d e : dict string V) k : In k (dkeys (dupdate String.eqb d e)) <-> In k (dkeys d) \/ In k (dkeys e).
  Proof.
    unfold dupdate. revert d. induction e as [|[k' v'] e IH]; intros d; cbn [fold_left fst snd]; [cbn; tauto|].
    rewrite IH, (dkeys_dset _ String.eqb_spec). unfold dmem.
    destruct (dget String.eqb d k') eqn:E.
    - assert (In k' (dkeys d)) by (apply dget_In in E; [|exact String.eqb_spec]; apply (in_map fst) in E; exact E).
      unfold dkeys in *. cbn [map fst]. split; [intros [?|?]; [left|right; right]; assumption|].
      intros [?|[<-|?]]; [left|left|right]; assumption.
    - rewrite in_app_iff. unfold dkeys in *. cbn [map fst In]. tauto.
  Qed.
  Lemma dupdate_NoDup {V} (d e : dict string V) : NoDup (dkeys d) -> NoDup (dkeys (dupdate String.eqb d e)).
  Proof.
    unfold dupdate. revert d. induction e as [|[k' v'] e IH]; intros d H; cbn [fold_left fst snd]; [exact H|].
    apply IH. apply (NoDup_dset _ String.eqb_spec). exact H.
  Qed.
  Lemma dupdate_value {V} (G : string -> V -> Prop) (d e : dict string V) :
    (forall kv, In kv d -> G (fst kv) (snd kv)) -> (forall kv, In kv e -> G (fst kv) (snd kv)) ->
    forall kv, In kv (dupdate String.eqb d e) -> G (fst kv) (snd kv).
  Proof.
    unfold dupdate. revert d. induction e as [|[k' v'] e IH]; intros d Hd He; cbn [fold_left fst snd]; [exact Hd|].
    apply IH; [|intros kv Hin; apply He; right; exact Hin].
    intros kv Hin. assert (Hk : kv = (k', v') \/ In kv d).
    { clear - Hin. revert Hin. induction d as [|[k0 v0] d IH]; cbn [dset]; [intros [<-|[]]; auto|].
      destruct (String.eqb_spec k0 k') as [->|N].
      - intros [<-|H]; [auto|right; right; exact H].
      - intros [<-|H]; [right; left; reflexivity|]. destruct (IH H); [auto|right; right; assumption]. }
    destruct Hk as [->|Hk]; [apply (He (k', v')); left; reflexivity|apply Hd; exact Hk].
  Qed.
  Lemma filter_keys (f : param F -> bool) d k : NoDup (dkeys d) ->
    (In k (dkeys (pfilter f d)) <-> exists p, dget String.eqb d k = Some p /\ f p = true).
  Proof.
    intros Nd. unfold pfilter, dkeys. rewrite in_map_iff. split.
    - intros ([k' p] & <- & Hin). apply filter_In in Hin. destruct Hin as [Hin Hf]. cbn in *. exists p.
      split; [apply (dget_NoDup_In _ String.eqb_spec); assumption|exact Hf].
    - intros (p & Hg & Hf). exists (k, p). split; [reflexivity|]. apply filter_In. split; [|exact Hf].
      apply (dget_In _ String.eqb_spec). exact Hg.
  Qed.
  Lemma pfilter_pfilter (f g : param F -> bool) d : pfilter f (pfilter g d) = pfilter (fun p => g p && f p) d.
  Proof.
    unfold pfilter. induction d as [|kv d IH]; [reflexivity|]. cbn [filter]. destruct (g (snd kv)); cbn [filter andb].
    - destruct (f (snd kv)); rewrite IH; reflexivity.
    - exact IH.
  Qed.
  Lemma nuis_ok l (c : coll F) acc : exists r, rfold (fun acc e =>
             k <- transform_to Long e ;; pq <- to_parts k ;;
             Ok (dupdate String.eqb (dupdate String.eqb acc (free_nuisance_for (fst pq) c)) (free_nuisance_for (snd pq) c)))
          (map skey l) acc = Ok r /\
      (forall k, In k (dkeys r) <-> In k (dkeys acc) \/ exists p, In p (probes_of l) /\ In k (dkeys (free_nuisance_for (pname Long p) c))) /\
      (forall G : string -> param F -> Prop, (forall kv, In kv acc -> G (fst kv) (snd kv)) -> (forall kv, In kv (params c) -> G (fst kv) (snd kv)) ->
         forall kv, In kv r -> G (fst kv) (snd kv)).
  Proof.
    revert acc. induction l as [|[k [p q]] l IH]; intros acc; cbn [map rfold].
    - exists acc. split; [reflexivity|]. split; [|auto]. intros k. split; [auto|]. intros [?|(p & [] & _)]. assumption.
    - unfold skey at 1 2. cbn [fst snd]. rewrite transform_key. cbn [rbind]. rewrite parts_key. cbn [rbind fst snd].
      destruct (IH (dupdate String.eqb (dupdate String.eqb acc (free_nuisance_for (pname Long p) c)) (free_nuisance_for (pname Long q) c))) as (r & E & H1 & H2).
      exists r. split; [exact E|]. split.
      + intros k0. rewrite H1, !dupdate_keys. cbn [probes_of flat_map app fst snd].
        split.
        * intros [[[?|?]|?]|(p0 & Hp & ?)]; [left; assumption|right; exists p|right; exists q|right; exists p0]; (split; [|assumption]); cbn; auto.
        * intros [?|(p0 & [<-|[<-|Hp]] & ?)]; eauto 6.
      + intros G Ha Hc. apply H2; [|exact Hc]. 
        assert (Hs : forall pr kv, In kv (free_nuisance_for pr c) -> G (fst kv) (snd kv)).
        { intros pr kv Hin. apply Hc. unfold free_nuisance_for, nuisance_for, pfilter in Hin. apply filter_In in Hin. destruct Hin as [Hin _].
          apply filter_In in Hin. tauto. }
        apply dupdate_value; [apply dupdate_value; [exact Ha|apply Hs]|apply Hs].
  Qed.

  Lemma free_params_spec l (c : coll F) : NoDup (dkeys (params c)) -> exists pars,
    free_parameters (map skey l) c = Ok pars /\ NoDup (dkeys pars) /\
    (forall k p, dget String.eqb pars k = Some p <->
       dget String.eqb (params c) k = Some p /\ is_free p = true /\
       (is_cosmo p = true \/ is_cosmo p = false /\ exists q, In q (probes_of l) /\ pprobe p = Some (pname Long q))).
  Proof.
    intros Nd. destruct (nuis_ok l c []) as (r & E & H1 & H2). unfold free_parameters, free_nuisance_of. rewrite E. cbn [rbind].
    eexists. split; [reflexivity|].
    set (d := dupdate String.eqb (dupdate String.eqb [] (free_cosmological c)) r).
    assert (ND : NoDup (dkeys d)) by (apply dupdate_NoDup, dupdate_NoDup; constructor).
    split; [exact ND|].
    assert (Vl : forall kv, In kv d -> dget String.eqb (params c) (fst kv) = Some (snd kv)).
    { apply (dupdate_value (fun k v => dget String.eqb (params c) k = Some v)).
      - apply (dupdate_value (fun k v => dget String.eqb (params c) k = Some v)); [intros kv []|].
        intros [k p] Hin. unfold free_cosmological, cosmological, pfilter in Hin. apply filter_In in Hin. destruct Hin as [Hin _]. apply filter_In in Hin.
        apply (dget_NoDup_In _ String.eqb_spec); tauto.
      - apply (H2 (fun k v => dget String.eqb (params c) k = Some v)); [intros kv []|].
        intros [k p] Hin. apply (dget_NoDup_In _ String.eqb_spec); assumption. }
    assert (Kd : forall k, In k (dkeys d) <-> exists p, dget String.eqb (params c) k = Some p /\ is_free p = true /\
       (is_cosmo p = true \/ is_cosmo p = false /\ exists q, In q (probes_of l) /\ pprobe p = Some (pname Long q))).
    { intros k. unfold d. rewrite !dupdate_keys, H1. unfold free_cosmological, cosmological. rewrite pfilter_pfilter, filter_keys by exact Nd.
      split.
      - intros [[[]|(p & Hg & Hf)]|[[]|(q & Hq & Hk)]].
        + apply andb_prop in Hf. destruct Hf. exists p. tauto.
        + unfold free_nuisance_for, nuisance_for in Hk. rewrite pfilter_pfilter, filter_keys in Hk by exact Nd.
          destruct Hk as (p & Hg & Hf). apply andb_prop in Hf. destruct Hf as [Hf Hf2]. apply andb_prop in Hf. destruct Hf as [Hn Ho].
          exists p. split; [exact Hg|]. split; [exact Hf2|]. right. unfold is_nuis in Hn. apply negb_true_iff in Hn. split; [exact Hn|].
          exists q. split; [exact Hq|]. destruct (pprobe p) as [s|]; [|discriminate]. unfold opt_eqb in Ho. apply String.eqb_eq in Ho. rewrite Ho. reflexivity.
      - intros (p & Hg & Hf & [Hc|(Hc & q & Hq & Hp)]).
        + left. right. exists p. rewrite Hc, Hf. auto.
        + right. right. exists q. split; [exact Hq|]. unfold free_nuisance_for, nuisance_for. rewrite pfilter_pfilter, filter_keys by exact Nd.
          exists p. split; [exact Hg|]. unfold is_nuis. rewrite Hc, Hf, Hp. cbn. rewrite String.eqb_refl. reflexivity. }
    intros k p. split.
    - intros Hg. pose proof (Vl _ (dget_In _ String.eqb_spec _ _ Hg)) as V. cbn in V.
      assert (Hk : In k (dkeys d)) by (apply (dget_In _ String.eqb_spec) in Hg; apply (in_map fst) in Hg; exact Hg).
      apply Kd in Hk. destruct Hk as (p' & Hg' & R). rewrite V in Hg'. injection Hg' as <-. auto.
    - intros (Hg & R). assert (Hk : In k (dkeys d)) by (apply Kd; eauto).
      unfold dkeys in Hk. apply in_map_iff in Hk. destruct Hk as ([k' p'] & <- & Hin). pose proof (Vl _ Hin) as V. cbn in V, Hg. rewrite Hg in V. injection V as <-.
      apply (dget_NoDup_In _ String.eqb_spec); assumption.
  Qed.
  Lemma free_params_NoDup l (c : coll F) pars : free_parameters l c = Ok pars -> NoDup (dkeys pars).
  Proof.
    unfold free_parameters. destruct (free_nuisance_of l c); [|discriminate]. cbn [rbind]. intros E. injection E as <-.
    apply dupdate_NoDup, dupdate_NoDup. constructor.
  Qed.

  (** ** Sums over multipoles *)
  Lemma f_get_sum (fe : fell F) ells a b : f_get (sum_fisher fe ells) a b =
    match dget spair_eqb (fe_cols fe) (a, b) with Some col => Some (Fsum (fun x => x) (select ells (fe_ells fe) col)) | None => None end.
  Proof.
    unfold f_get, sum_fisher. cbn [ix cx ce]. destruct (dget spair_eqb (fe_cols fe) (a, b)) as [col|] eqn:E.
    - apply (dget_In _ spair_spec) in E.
      assert (Ha : smem a (ssort (sdup (map (fun kv => fst (fst kv)) (fe_cols fe)))) = true).
      { apply smem_In. rewrite ssort_In. unfold sdup. rewrite nodup_In. apply (in_map (fun kv => fst (fst kv)) _ _ E). }
      assert (Hb : smem b (ssort (sdup (map (fun kv => snd (fst kv)) (fe_cols fe)))) = true).
      { apply smem_In. rewrite ssort_In. unfold sdup. rewrite nodup_In. apply (in_map (fun kv => snd (fst kv)) _ _ E). }
      rewrite Ha, Hb. reflexivity.
    - destruct (_ && _); reflexivity.
  Qed.
  Lemma select_own (es ells col : list F) :
    Fsum (fun x => x) (select (filter (fun x => negb (fmem x ells)) es) es col) =
    Fsum (fun xv => if in_dec fdec (fst xv) ells then 0 else snd xv) (combine es col).
  Proof.
    unfold select. rewrite Fsum_map. rewrite Fsum_filter. apply Fsum_ext. intros [x v] Hin. cbn [fst snd].
    assert (Hx : In x es) by (apply in_combine_l in Hin; exact Hin).
    destruct (in_dec fdec x ells) as [Hi|Hi].
    - destruct (fmem x (filter _ es)) eqn:E; [|reflexivity]. exfalso. apply fmem_iff in E. apply filter_In in E. destruct E as [_ E].
      apply negb_true_iff in E. apply fmem_iff in Hi. congruence.
    - destruct (fmem x (filter _ es)) eqn:E; [reflexivity|]. exfalso. assert (fmem x (filter (fun x => negb (fmem x ells)) es) = true); [|congruence].
      apply fmem_iff. apply filter_In. split; [exact Hx|]. apply negb_true_iff. destruct (fmem x ells) eqn:E2; [apply fmem_iff in E2; contradiction|reflexivity].
  Qed.
  Lemma f_get_addfill (f g : frame F) a b : oval (f_get (f_addfill f g) a b) = oval (f_get f a b) + oval (f_get g a b) /\
    (f_get (f_addfill f g) a b <> None <-> f_get f a b <> None \/ f_get g a b <> None).
  Proof.
    assert (E : f_get (f_addfill f g) a b = match f_get f a b, f_get g a b with
                    | None, None => None | Some x, None => Some (x + 0) | None, Some y => Some (0 + y) | Some x, Some y => Some (x + y) end).
    { unfold f_get at 1. unfold f_addfill. cbn [ix cx ce].
      assert (Hin : f_get f a b <> None \/ f_get g a b <> None -> smem a (ijoin (ix f) (ix g)) && smem b (ijoin (cx f) (cx g)) = true).
      { intros H. apply andb_true_iff. rewrite !smem_In, !ijoin_In.
        destruct H as [H|H]; unfold f_get in H; [destruct (smem a (ix f)) eqn:E1, (smem b (cx f)) eqn:E2|destruct (smem a (ix g)) eqn:E1, (smem b (cx g)) eqn:E2];
          cbn in H; try congruence; apply smem_In in E1, E2; auto. }
      destruct (f_get f a b) as [x|], (f_get g a b) as [y|]; try (rewrite Hin; [reflexivity|(left; discriminate) || (right; discriminate)]).
      destruct (_ && _); reflexivity. }
    rewrite E. destruct (f_get f a b) as [x|], (f_get g a b) as [y|]; cbn [oval]; (split; [ring|]); split; intros H;
      try discriminate; try (left; discriminate); try (right; discriminate); try congruence.
    destruct H; congruence.
  Qed.

  (** ** Single-probe contributions *)
  Lemma auto_probes_In l p : In p (auto_probes l) <-> exists k, In (k, (p, p)) l.
  Proof.
    unfold auto_probes. rewrite filter_In, existsb_exists. split.
    - intros (_ & [k [a b]] & Hin & H). apply andb_prop in H. destruct H as [H1 H2]. cbn in H1, H2.
      destruct (probe_eqb_spec a p); [|discriminate]. destruct (probe_eqb_spec b p); [|discriminate]. subst. eauto.
    - intros (k & Hin). split; [destruct p; cbn; auto 6|]. exists (k, (p, p)). split; [exact Hin|]. destruct p; reflexivity.
  Qed.
  Lemma auto_probes_NoDup l : NoDup (auto_probes l).
  Proof. apply NoDup_filter. repeat constructor; cbn; intuition discriminate. Qed.
  Lemma involved_perm l : exists ps, involved_probes (map skey l) = Ok ps /\ Permutation ps (map (pname Alias) (auto_probes l)).
  Proof.
    assert (E : rmapM (fun c => a <- is_auto c ;; if a then (pq <- to_tuple_raw c ;; Ok [fst pq]) else Ok []) (map skey l) =
      Ok (map (fun e => if probe_eqb (fst (snd e)) (snd (snd e)) then [pname Alias (fst (snd e))] else []) l)).
    { induction l as [|[k [p q]] l IH]; [reflexivity|]. cbn [map rmapM]. unfold skey at 1 2. cbn [fst snd]. rewrite auto_key. cbn [rbind].
      destruct (probe_eqb p q); [rewrite tuple_raw_key; cbn [rbind fst]|cbn [rbind]]; rewrite IH; reflexivity. }
    unfold involved_probes. rewrite E. cbn [rbind]. eexists. split; [reflexivity|].
    apply NoDup_Permutation.
    - apply set_of_NoDup.
    - apply FinFun.Injective_map_NoDup; [|apply auto_probes_NoDup]. intros p q. destruct p, q; cbn; congruence.
    - intros s. rewrite set_of_In, in_concat, in_map_iff. split.
      + intros (x & Hx & Hs). apply in_map_iff in Hx. destruct Hx as ([k [p q]] & <- & Hin). cbn [fst snd] in Hs.
        destruct (probe_eqb_spec p q) as [->|]; [|destruct Hs]. destruct Hs as [<-|[]]. exists q. split; [reflexivity|]. apply auto_probes_In. eauto.
      + intros (p & <- & Hp). apply auto_probes_In in Hp. destruct Hp as (k & Hin). exists [pname Alias p]. split; [|left; reflexivity].
        apply in_map_iff. exists (k, (p, p)). split; [|exact Hin]. cbn [fst snd]. destruct (probe_eqb_spec p p); [reflexivity|congruence].
  Qed.

  Definition contrib (autos : dict string (fell F)) ells (s : string) a b : F :=
    match dget String.eqb autos s with Some fe => own fe ells a b | None => 0 end.
  Definition present (autos : dict string (fell F)) (ells : list F) (s : string) a b : Prop :=
    exists fe, dget String.eqb autos s = Some fe /\ dget spair_eqb (fe_cols fe) (a, b) <> None /\ exists x, In x (fe_ells fe) /\ ~ In x ells.
  Lemma exclusive_nil (es ells : list F) : filter (fun x => negb (fmem x ells)) es = [] -> forall x, In x es -> In x ells.
  Proof.
    intros E x Hx. destruct (fmem x ells) eqn:H; [apply fmem_iff; exact H|]. exfalso.
    assert (In x (filter (fun x => negb (fmem x ells)) es)) by (apply filter_In; rewrite H; auto). rewrite E in H0. destruct H0.
  Qed.
  Lemma add_fold ells (autos : dict string (fell F)) ps : forall m m',
    rfold (fun m p =>
             a <- dget_str autos p ;;
             let exclusive := filter (fun x => negb (fmem x ells)) (fe_ells a) in
             match exclusive with
             | [] => Ok m
             | _ => Ok (f_addfill m (sum_fisher a exclusive))
             end) ps m = Ok m' ->
    (forall p, In p ps -> dget String.eqb autos p <> None) /\
    forall a b, oval (f_get m' a b) = oval (f_get m a b) + Fsum (fun p => contrib autos ells p a b) ps /\
      (f_get m' a b <> None <-> f_get m a b <> None \/ exists p, In p ps /\ present autos ells p a b).
  Proof.
    induction ps as [|p ps IH]; intros m m' H; cbn [rfold] in H.
    - injection H as <-. split; [intros p []|]. intros a b. split; [cbn; ring|]. split; [auto|intros [?|(p & [] & _)]; assumption].
    - unfold dget_str in H. destruct (dget String.eqb autos p) as [fe|] eqn:Ep; [|discriminate]. cbn [rbind] in H.
      set (ex := filter (fun x => negb (fmem x ells)) (fe_ells fe)) in *. cbv zeta in H.
      assert (G : exists m1, (match ex with [] => Ok m | _ => Ok (f_addfill m (sum_fisher fe ex)) end) = Ok m1 /\
        forall a b, oval (f_get m1 a b) = oval (f_get m a b) + contrib autos ells p a b /\
          (f_get m1 a b <> None <-> f_get m a b <> None \/ present autos ells p a b)).
      { destruct (list_eq_dec fdec ex []) as [E|N].
        - rewrite E. exists m. split; [reflexivity|]. intros a b. pose proof (exclusive_nil _ _ E) as Hall. split.
          + unfold contrib. rewrite Ep. unfold own. destruct (dget spair_eqb (fe_cols fe) (a, b)); [|ring].
            rewrite Fsum_zero; [ring|]. intros [x v] Hin. cbn [fst]. apply in_combine_l in Hin.
            destruct (in_dec fdec x ells) as [|Nx]; [reflexivity|]. exfalso. apply Nx, Hall, Hin.
          + split; [auto|]. intros [?|(fe' & E' & _ & x & Hx & Nx)]; [assumption|]. exfalso. rewrite Ep in E'. injection E' as <-. apply Nx, Hall, Hx.
        - exists (f_addfill m (sum_fisher fe ex)). split; [destruct ex; [congruence|reflexivity]|]. intros a b.
          destruct (f_get_addfill m (sum_fisher fe ex) a b) as [G1 G2]. rewrite G1. rewrite G2. rewrite f_get_sum. split.
          + f_equal. unfold contrib. rewrite Ep. unfold own. destruct (dget spair_eqb (fe_cols fe) (a, b)) as [col|]; [|reflexivity]. cbn [oval].
            apply select_own.
          + assert (Hex : exists x, In x (fe_ells fe) /\ ~ In x ells).
            { destruct ex as [|x ex'] eqn:Eex; [congruence|]. exists x. assert (Hi : In x ex) by (rewrite Eex; left; reflexivity).
              unfold ex in Hi. apply filter_In in Hi. destruct Hi as [Hi Hn]. split; [exact Hi|]. intros C. apply fmem_iff in C. rewrite C in Hn. discriminate. }
            split; intros [Hl|Hr]; [left; exact Hl| |left; exact Hl|].
            * right. exists fe. split; [exact Ep|]. split; [|exact Hex]. destruct (dget spair_eqb (fe_cols fe) (a, b)); congruence.
            * right. destruct Hr as (fe' & E' & Hd & _). rewrite Ep in E'. injection E' as <-. destruct (dget spair_eqb (fe_cols fe) (a, b)); congruence. }
      destruct G as (m1 & E1 & G1). rewrite E1 in H. cbn [rbind] in H. destruct (IH m1 m' H) as [HA HB]. split.
      + intros p' [<-|Hp]; [congruence|apply HA; exact Hp].
      + intros a b. destruct (HB a b) as [B1 B2]. destruct (G1 a b) as [C1 C2]. split.
        * rewrite B1, C1. cbn [Fsum]. ring.
        * rewrite B2, C2. split.
          -- intros [[?|?]|(p' & Hp & ?)]; [left; assumption|right; exists p; split; [left; reflexivity|assumption]|right; exists p'; split; [right; exact Hp|assumption]].
          -- intros [?|(p' & [<-|Hp] & ?)]; [left; left; assumption|left; right; assumption|right; eauto].
  Qed.

  Lemma single_spec l : is_single_auto (map skey l) = Ok (match l with [e] => probe_eqb (fst (snd e)) (snd (snd e)) | _ => false end).
  Proof.
    destruct l as [|[k [p q]] [|e' l]]; [reflexivity| |reflexivity]. cbn [map is_single_auto]. unfold skey. cbn [fst snd]. apply auto_key.
  Qed.
End FE2.
