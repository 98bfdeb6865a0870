From Verif Require Import Base SortLib StrLib FrameModel FrameLemmas FisherModel FisherSpec FisherLemmas FisherLemmas2 FisherLemmas4 HeapModel ResultsModel ResultsSpec HeapLemmas ResultsLemmas ResultsLemmas2.
From Coq Require Import Permutation Field.
Open Scope list_scope.

Section Analysis.
  Context {F : Type} {K : Fld F} {O : OFld (F := F)} {S : SqrtFld F} {SO : SetOrder}.
  Add Field FFa : (fth (F := F)).
  Implicit Types h : heap F.

  (** ** selectRelevantFisherSubMatrix *)
  Lemma select_spec (f : fisher F) : wf f -> (forall x, In x (fcosmo f) -> fmflag f = true \/ ~ In x (fnuis f)) ->
    exists t, select_relevant f = (t, Ok tt) /\ wf t /\
      labels t = ssort (filter (fun x => fmflag f || negb (smem x (fnuis f))) (labels f)) /\
      (forall a b, ce (fmat t) a b = ce (fmat f) a b) /\
      fcosmo t = fcosmo f /\ fnuis t = (if fmflag f then fnuis f else []) /\
      fname t = fname f /\ finverse t = finverse f /\ fmflag t = fmflag f.
  Proof.
    intros (Ok1 & N1 & N2 & L) Dj. unfold select_relevant.
    assert (Sb : subsetb (set_union (fcosmo f) (fnuis f)) (ix (fmat f)) = true).
    { apply subsetb_spec. intros x. rewrite set_union_In. intros H. apply L. exact H. }
    rewrite Sb. cbn [negb].
    set (excl := if fmflag f then [] else fnuis f). set (rel := set_diff (set_union (fcosmo f) (fnuis f)) excl).
    assert (Nr : NoDup rel) by (apply set_diff_NoDup, set_union_NoDup).
    assert (Hr : forall x, In x rel <-> In x (labels f) /\ (fmflag f = true \/ ~ In x (fnuis f))).
    { intros x. unfold rel. rewrite set_diff_In, set_union_In, <- L. unfold excl. destruct (fmflag f); cbn [In]; intuition congruence. }
    destruct (loc_ok (fmat f) rel Ok1 Nr) as (m & E & Okm & Im & Cm); [intros x Hx; apply Hr in Hx; apply Hx|]. rewrite E.
    destruct (sort_ok m Okm) as (Oks & _).
    eexists. split; [reflexivity|].
    assert (Lt : ssort rel = ssort (filter (fun x => fmflag f || negb (smem x (fnuis f))) (labels f))).
    { apply ssort_unique, NoDup_perm_iff; [exact Nr|apply NoDup_filter, Ok1|]. intros x. rewrite Hr, filter_In, Bool.orb_true_iff, Bool.negb_true_iff, smem_false. reflexivity. }
    assert (Hl : forall x, In x (ssort (ix m)) <-> In x (labels f) /\ (fmflag f = true \/ ~ In x (fnuis f))) by (intros x; rewrite ssort_In, Im; apply Hr).
    split; [|split; [|split; [|destruct (fmflag f) eqn:Fl; auto 8]]].
    - destruct (fmflag f) eqn:Fl.
      + split; [exact Oks|]. split; [exact N1|]. split; [exact N2|]. cbn. intros x. rewrite Hl, L. intuition congruence.
      + split; [exact Oks|]. split; [exact N1|]. split; [constructor|]. cbn. intros x. rewrite Hl, L. split.
        * intros [[A|A] [B|B]]; intuition congruence.
        * intros [A|[]]. split; [auto|]. destruct (Dj x A); [congruence|auto].
    - unfold labels at 1. destruct (fmflag f) eqn:Fl; cbn [with_mat fmat f_sort1 f_sort0 ix]; rewrite Im; exact Lt.
    - intros a b. destruct (fmflag f); apply Cm.
  Qed.

  (** ** Methods applied to every object of a dictionary *)
  Definition assigned (rb : bool) (f f' : fisher F) : fisher F := if rb then f' else with_mat f' (fmat f).
  Lemma each_method {A} rb (m : fisher F -> fisher F * res A) (g : string * nat -> A -> M F unit) d :
    (forall ka x h, g ka x h = (h, Ok tt)) ->
    forall h, NoDup (map snd d) -> (forall k a, In (k, a) d -> exists f x, view h a = Some f /\ snd (m f) = Ok x) ->
    exists h', for_each (fun ka => bind (h_method rb m (snd ka)) (g ka)) d h = (h', Ok tt) /\
      length (obs h') = length (obs h) /\
      (forall k a f, In (k, a) d -> view h a = Some f -> view h' a = Some (assigned rb f (fst (m f)))) /\
      (forall a f, ~ In a (map snd d) -> view h a = Some f -> view h' a = Some f).
  Proof.
    intros Hg. induction d as [|[k a] d IH]; intros h N Hv.
    - exists h. split; [reflexivity|]. split; [reflexivity|]. split; [intros ? ? ? []|auto].
    - inversion N as [|? ? Na N']; subst. destruct (Hv k a (or_introl eq_refl)) as (f & x & V & E).
      cbn [for_each snd]. unfold bind at 1 2. unfold h_method at 1. rewrite (proj2 (hget_view _ _ _) V). destruct (m f) as [f' r] eqn:Em. cbn [snd] in E. subst r.
      rewrite Hg. set (h1 := h_assign rb a f' h).
      assert (Ho : forall b g, b <> a -> view h b = Some g -> view h1 b = Some g) by (intros; apply assign_other; assumption).
      destruct (IH h1 N') as (h' & E' & Ln & A' & B').
      { intros k' a' Hin. destruct (Hv k' a' (or_intror Hin)) as (f2 & x2 & V2 & E2). exists f2, x2. split; [|exact E2]. apply Ho; [|exact V2].
        intros ->. apply Na. apply in_map_iff. exists (k', a); auto. }
      exists h'. split; [exact E'|]. split; [rewrite Ln; apply assign_length|]. split.
      + intros k' a' f2 [Hin|Hin] V2.
        * injection Hin as <- <-. assert (f2 = f) by congruence. subst f2. rewrite Em. apply B'; [exact Na|]. unfold h1. rewrite (assign_same rb a f' h f V). destruct rb; reflexivity.
        * apply (A' k' a' f2 Hin). apply Ho; [|exact V2]. intros ->. apply Na. apply in_map_iff. exists (k', a); auto.
      + intros b g2 Nb Vb. apply B'; [intros H; apply Nb; right; exact H|]. apply Ho; [|exact Vb]. intros ->. apply Nb. left; reflexivity.
  Qed.
  Lemma for_each_ext {X} (f g : X -> M F unit) l h : (forall x h, f x h = g x h) -> for_each f l h = for_each g l h.
  Proof. intros E. revert h. induction l as [|x l IH]; intros h; cbn; [reflexivity|]. unfold bind. rewrite E. destruct (g x h) as [h' [?|?]]; [apply IH|reflexivity]. Qed.
  Lemma each_unit rb (m : fisher F -> fisher F * res unit) (d : odict) h : NoDup (map snd d) ->
    (forall k a, In (k, a) d -> exists f, view h a = Some f /\ snd (m f) = Ok tt) ->
    exists h', for_each (fun ka => h_method rb m (snd ka)) d h = (h', Ok tt) /\
      length (obs h') = length (obs h) /\
      (forall k a f, In (k, a) d -> view h a = Some f -> view h' a = Some (assigned rb f (fst (m f)))) /\
      (forall a f, ~ In a (map snd d) -> view h a = Some f -> view h' a = Some f).
  Proof.
    intros N Hv. destruct (each_method rb m (fun _ _ => ret tt) d (fun _ _ _ => eq_refl) h N) as (h' & E & R).
    { intros k a Hin. destruct (Hv k a Hin) as (f & V & E). exists f, tt. auto. }
    exists h'. split; [|exact R]. rewrite <- E. apply for_each_ext. intros ka h0. unfold bind. destruct (h_method rb m (snd ka) h0) as [h1 [[]|e]]; reflexivity.
  Qed.

  (** ** The constructor *)
  Lemma update_nil_gen {V} (d : dict string V) acc : NoDup (dkeys acc ++ dkeys d) -> dupdate String.eqb acc d = acc ++ d.
  Proof.
    unfold dupdate. revert acc. induction d as [|[k v] d IH]; intros acc N; cbn [fold_left fst snd]; [rewrite app_nil_r; reflexivity|].
    assert (Nk : ~ In k (dkeys acc)).
    { intros H. cbn in N. apply NoDup_remove_2 in N. apply N. apply in_app_iff. left; exact H. }
    assert (E : dset String.eqb acc k v = acc ++ [(k, v)]).
    { clear -Nk. induction acc as [|[x y] acc IH]; cbn; [reflexivity|]. destruct (String.eqb_spec x k) as [->|n]; [elim Nk; left; reflexivity|].
      rewrite IH; [reflexivity|]. intros H; apply Nk; right; exact H. }
    rewrite E, IH, <- app_assoc; [reflexivity|]. unfold dkeys in *. rewrite map_app, <- app_assoc. exact N.
  Qed.
  Lemma update_nil {V} (d : dict string V) : NoDup (dkeys d) -> dupdate String.eqb [] d = d.
  Proof. intros N. apply (update_nil_gen d []). exact N. Qed.
  Lemma flag_wf b (f : fisher F) : wf f -> wf (with_flag b f). Proof. intros H. exact H. Qed.
  Lemma init_spec order (d : odict) fid flag h : NoDup (dkeys d) -> NoDup (map snd d) ->
    (forall k a, In (k, a) d -> exists f, view h a = Some f /\ wf f /\ (forall x, In x (fcosmo f) -> flag = true \/ ~ In x (fnuis f))) ->
    exists h', an_init order (IDict d) fid flag h =
      (h', match order with
           | None => Ok (mkAn None d None fid None None flag)
           | Some o => if set_eqb o (dkeys d) then Ok (mkAn None d (Some o) fid None None flag) else Err EException
           end) /\
      (forall k a f, In (k, a) d -> view h a = Some f -> view h' a = Some (fst (select_relevant (with_flag flag f)))) /\
      (forall a f, ~ In a (map snd d) -> view h a = Some f -> view h' a = Some f).
  Proof.
    intros Nk Na Hv. unfold an_init. rewrite (update_nil d Nk).
    destruct (each_unit false (fun f => (with_flag flag f, Ok tt)) d h Na) as (h1 & E1 & L1 & A1 & B1).
    { intros k a Hin. destruct (Hv k a Hin) as (f & V & _). exists f. auto. }
    destruct (each_unit true select_relevant d h1 Na) as (h2 & E2 & L2 & A2 & B2).
    { intros k a Hin. destruct (Hv k a Hin) as (f & V & W & D). exists (with_flag flag f). split; [apply (A1 k a f Hin V)|].
      destruct (select_spec (with_flag flag f) W D) as (t & E & _). rewrite E. reflexivity. }
    exists h2. unfold bind at 1. rewrite E1. unfold bind at 1. unfold h_select. rewrite E2. split.
    - destruct order as [o|]; [|reflexivity]. unfold of_res, set_order. cbn [an_fishers]. destruct (set_eqb o (dkeys d)); reflexivity.
    - split.
      + intros k a f Hin V. apply (A2 k a (with_flag flag f) Hin). apply (A1 k a f Hin V).
      + intros a f N V. apply B2; [exact N|]. apply B1; assumption.
  Qed.
  Lemma order_perm (o keys : list string) : NoDup keys -> NoDup o -> set_eqb o keys = true -> Permutation o keys.
  Proof. intros A B E. apply NoDup_perm_iff; [exact B|exact A|]. apply set_eqb_spec. exact E. Qed.

  (** ** Tables of errors *)
  Lemma map_rows (d : odict) : forall h, NoDup (map snd d) ->
    forall h' t, map_each (fun ka => bind (h_errors true true (snd ka)) (fun r => ret (fst ka, r))) d h = (h', Ok t) ->
    dkeys t = dkeys d /\
    (forall k a f, In (k, a) d -> view h a = Some f -> exists r, snd (marginalized_errors true true f) = Ok r /\ In (k, r) t).
  Proof.
    induction d as [|[k a] d IH]; intros h N h' t E.
    - cbn in E. injection E as <- <-. split; [reflexivity|intros ? ? ? []].
    - inversion N as [|? ? Na N']; subst. cbn [map_each snd fst] in E. unfold bind at 1 2 in E. unfold h_errors, h_method in E.
      destruct (hget h a) as [f|] eqn:G; [|discriminate E]. apply hget_view in G. destruct (marginalized_errors true true f) as [f' r] eqn:Em.
      destruct r as [r|]; [|discriminate E]. cbn [ret] in E. unfold bind in E at 1.
      destruct (map_each _ d (h_assign false a f' h)) as [h1 [t1|]] eqn:E1; [|discriminate E]. cbn in E. injection E as <- <-.
      destruct (IH _ N' _ _ E1) as (Ks & Rs). split; [cbn; unfold dkeys in Ks; rewrite Ks; reflexivity|].
      intros k' a2 f2 [Hin|Hin] V.
      + injection Hin as <- <-. assert (f2 = f) by congruence. subst. exists r. rewrite Em. split; [reflexivity|left; reflexivity].
      + destruct (Rs k' a2 f2 Hin) as (r2 & A & B); [|exists r2; split; [exact A|right; exact B]].
        apply assign_other; [|exact V]. intros ->. apply Na. apply in_map_iff. exists (k', a); auto.
  Qed.
  Lemma errors_spec an h h' an' : NoDup (map snd (an_fishers an)) -> eval_errors an h = (h', Ok an') ->
    exists t, an_errs an' = Some t /\ an_rel an' = Some (rel_table (an_fid an) t) /\ an_fishers an' = an_fishers an /\ an_fid an' = an_fid an /\
      dkeys t = dkeys (an_fishers an) /\
      (forall k a f, In (k, a) (an_fishers an) -> view h a = Some f -> exists r, snd (marginalized_errors true true f) = Ok r /\ In (k, r) t).
  Proof.
    intros N E. unfold eval_errors in E. destruct (an_fishers an) as [|p d] eqn:Ef; [discriminate E|]. rewrite <- Ef in *.
    unfold bind at 1 in E. destruct (map_each _ (an_fishers an) h) as [h1 [t|e]] eqn:Em; [|discriminate E]. cbn in E. injection E as <- <-. cbn.
    exists t. destruct (map_rows (an_fishers an) h N h1 t Em) as (A & B). auto 8.
  Qed.

  (** ** Relative errors *)
  Lemma fabs_nonneg (x : F) : fle fz (fabs x).
  Proof.
    unfold fabs. destruct (fle_dec fz x) as [H|H]; [exact H|]. destruct (fle_total fz x) as [C|C]; [contradiction|].
    pose proof (fle_add _ _ (fopp x) C) as D. replace (fadd x (fopp x)) with (fz : F) in D by ring. replace (fadd fz (fopp x)) with (fopp x) in D by ring. exact D.
  Qed.
  Lemma dget_map_den (fid : dict string F) c :
    dget String.eqb (map (fun pv => (fst pv, if fdec (snd pv) fz then fo else snd pv)) fid) c =
    option_map (fun v => if fdec v fz then fo else v) (dget String.eqb fid c).
  Proof. induction fid as [|[k v] fid IH]; cbn; [reflexivity|]. destruct (String.eqb k c); [reflexivity|exact IH]. Qed.
  Lemma t_cols_in (t : table (F := F)) k r c v : In (k, r) t -> In (c, v) r -> In c (t_cols t).
  Proof. intros A B. unfold t_cols. unfold sdup; rewrite nodup_In. apply in_flat_map. exists (k, r). split; [exact A|]. apply in_map_iff. exists (c, v). auto. Qed.
  Lemma cell_in (t : table (F := F)) k c x : t_cell t k c = Some x -> exists r, dget String.eqb t k = Some r /\ In (c, Some x) r.
  Proof.
    unfold t_cell. destruct (dget String.eqb t k) as [r|]; [|discriminate]. destruct (dget String.eqb r c) as [v|] eqn:E; [|discriminate]. intros ->.
    exists r. split; [reflexivity|]. apply (dget_In _ String.eqb_spec) in E. exact E.
  Qed.
  Lemma dget_map_row {V W} (g : string -> V -> W) (t : dict string V) k :
    dget String.eqb (map (fun kr => (fst kr, g (fst kr) (snd kr))) t) k = option_map (g k) (dget String.eqb t k).
  Proof. induction t as [|[k' r] t IH]; cbn; [reflexivity|]. destruct (String.eqb_spec k' k) as [->|]; [reflexivity|exact IH]. Qed.
  Lemma dget_cols {W} (g : string -> W) l c : dget String.eqb (map (fun x => (x, g x)) l) c = if smem c l then Some (g c) else None.
  Proof.
    induction l as [|x l IH]; cbn; [reflexivity|]. unfold smem in *. cbn [existsb]. rewrite String.eqb_sym.
    destruct (String.eqb_spec c x) as [->|]; [reflexivity|exact IH].
  Qed.
  Lemma rel_cell fid (t : table (F := F)) k c :
    t_cell (rel_table fid t) k c =
    match t_cell t k c, dget String.eqb (rel_den fid t) c with Some x, Some y => Some (fabs (fdiv x y)) | _, _ => None end.
  Proof.
    unfold t_cell at 1, rel_table. set (den := rel_den fid t). set (cols := sdup (t_cols t ++ dkeys den)).
    rewrite (dget_map_row (fun k' _ => map (fun c => (c, match t_cell t k' c, dget String.eqb den c with Some x, Some y => Some (fabs (fdiv x y)) | _, _ => None end)) cols) t k).
    destruct (dget String.eqb t k) as [r|] eqn:G; cbn [option_map].
    - rewrite (dget_cols (fun c => match t_cell t k c, dget String.eqb den c with Some x, Some y => Some (fabs (fdiv x y)) | _, _ => None end)).
      destruct (smem c cols) eqn:Sm; [reflexivity|]. destruct (t_cell t k c) as [x|] eqn:C; [|reflexivity]. exfalso.
      apply cell_in in C. destruct C as (r' & G' & Hin). apply (dget_In _ String.eqb_spec) in G'.
      apply smem_false in Sm. apply Sm. unfold cols. unfold sdup; rewrite nodup_In, in_app_iff. left. eapply t_cols_in; eauto.
    - unfold t_cell. rewrite G. reflexivity.
  Qed.
  Lemma rel_par fid (t : table (F := F)) k p x v : p <> "FoM"%string -> t_cell t k p = Some x -> dget String.eqb fid p = Some v ->
    t_cell (rel_table fid t) k p = Some (if fdec v fz then fabs x else fabs (fdiv x v)).
  Proof.
    intros Np C G. rewrite rel_cell, C. unfold rel_den.
    assert (E : forall d : dict string F, dget String.eqb (if smem "FoM" (t_cols t) then dset String.eqb d "FoM"%string fo else d) p = dget String.eqb d p).
    { intros d. destruct (smem _ _); [apply (dget_dset_other _ String.eqb_spec); congruence|reflexivity]. }
    rewrite E, dget_map_den, G. cbn. destruct (fdec v fz); [|reflexivity].
    f_equal. f_equal. field. apply (F_1_neq_0 (fth (F := F))).
  Qed.
  Lemma rel_fom fid (t : table (F := F)) k x : t_cell t k "FoM" = Some x -> fle fz x -> t_cell (rel_table fid t) k "FoM" = Some x.
  Proof.
    intros C P. rewrite rel_cell, C. unfold rel_den.
    assert (H : smem "FoM" (t_cols t) = true).
    { apply smem_In. apply cell_in in C. destruct C as (r & G & Hin). apply (dget_In _ String.eqb_spec) in G. eapply t_cols_in; eauto. }
    rewrite H, (dget_dset_same _ String.eqb_spec). f_equal. replace (fdiv x fo) with x by (field; apply (F_1_neq_0 (fth (F := F)))).
    unfold fabs. destruct (fle_dec fz x); [reflexivity|contradiction].
  Qed.
  Lemma rel_nonneg fid (t : table (F := F)) k c y : t_cell (rel_table fid t) k c = Some y -> fle fz y.
  Proof. rewrite rel_cell. destruct (t_cell t k c); [|discriminate]. destruct (dget _ _ c); [|discriminate]. intros E. injection E as <-. apply fabs_nonneg. Qed.
  Lemma rel_nan fid (t : table (F := F)) k c : c <> "FoM"%string -> dget String.eqb fid c = None -> t_cell (rel_table fid t) k c = None.
  Proof.
    intros N G. rewrite rel_cell. unfold rel_den.
    assert (E : forall d : dict string F, dget String.eqb (if smem "FoM" (t_cols t) then dset String.eqb d "FoM"%string fo else d) c = dget String.eqb d c).
    { intros d. destruct (smem _ _); [apply (dget_dset_other _ String.eqb_spec); congruence|reflexivity]. }
    rewrite E, dget_map_den, G. destruct (t_cell t k c); reflexivity.
  Qed.

  (** ** Addends lists *)
  Lemma at_keys_grows h h' (b : odict) l (gs : list (fisher F)) : grows h h' -> map (at_key h b) l = map Some gs -> map (at_key h' b) l = map Some gs.
  Proof.
    intros G. revert gs. induction l as [|m l IH]; intros [|g gs] E; try discriminate E; [reflexivity|]. cbn in *. injection E as A E. rewrite (IH _ E), (at_key_grows _ _ _ _ _ G A). reflexivity.
  Qed.
  Lemma sum_addends_spec (b : odict) l : forall h gs acc f, map (at_key h b) l = map Some gs -> view h acc = Some f ->
    exists h' c, sum_addends b l acc h = (h', Ok c) /\ grows h h' /\ view h' c = Some (sum_list f gs).
  Proof.
    induction l as [|n l IH]; intros h [|g gs] acc f E V; try discriminate E.
    - exists h, acc. split; [reflexivity|]. split; [apply grows_refl|exact V].
    - cbn in E. injection E as A E. cbn [sum_addends]. unfold at_key in A. unfold bind, dict_at at 1. destruct (dget String.eqb b n) as [c|]; [|discriminate A]. cbn [ret].
      destruct (combine_spec fadd " + " _ _ _ _ _ V A) as (h1 & x & E1 & G1 & _ & V1). unfold h_add. rewrite E1.
      destruct (IH h1 gs x _ (at_keys_grows _ _ _ _ _ G1 E) V1) as (h2 & c2 & E2 & G2 & V2).
      exists h2, c2. split; [exact E2|]. split; [eapply grows_trans; eauto|exact V2].
  Qed.
  Definition addends_value h (b : odict) (l : list string) (v : fisher F) : Prop :=
    exists f gs, map (at_key h b) l = map Some (f :: gs) /\ v = match gs with [] => f | _ => sum_list (fcopy f) gs end.
  Lemma at_key_get h (b : odict) n f : at_key h b n = Some f -> exists a, dget String.eqb b n = Some a /\ view h a = Some f.
  Proof. unfold at_key. destruct (dget String.eqb b n) as [a|]; [eauto|discriminate]. Qed.
  Lemma addends_spec (b : odict) ls : forall h acc vs, NoDup (dkeys acc ++ map (join "+") ls) -> Forall2 (addends_value h b) ls vs ->
    exists h' d', from_addends b ls acc h = (h', Ok d') /\ grows h h' /\
      exists new, d' = acc ++ new /\ contents h' new = combine (map (join "+") ls) (map Some vs).
  Proof.
    induction ls as [|l ls IH]; intros h acc vs N D.
    - inversion D; subst. exists h, acc. split; [reflexivity|]. split; [apply grows_refl|]. exists []. rewrite app_nil_r. auto.
    - inversion D as [|? v ? vs' (f & gs & E & ->) D']; subst. destruct l as [|n l]; [discriminate E|]. cbn [map] in E. injection E as E0 E.
      destruct (at_key_get _ _ _ _ E0) as (a & Ga & Va).
      assert (Nk : forall k, In k (dkeys acc) -> k <> join "+" (n :: l)).
      { intros k Hk ->. cbn [map] in N. apply NoDup_remove_2 in N. apply N. apply in_app_iff. left; exact Hk. }
      assert (Es : forall c, dset String.eqb acc (join "+" (n :: l)) c = acc ++ [(join "+" (n :: l), c)]).
      { intros c. clear -Nk. induction acc as [|[x y] acc IH]; cbn [dset app]; [reflexivity|]. destruct (String.eqb_spec x (join "+" (n :: l))) as [e|e].
        - elim (Nk x); [left; reflexivity|exact e].
        - rewrite IH; [reflexivity|]. intros k Hk. apply Nk. right; exact Hk. }
      assert (Step : exists h1 c, (forall ls', from_addends b ((n :: l) :: ls') acc h = from_addends b ls' (acc ++ [(join "+" (n :: l), c)]) h1) /\ grows h h1 /\ view h1 c = Some (match gs with [] => f | _ => sum_list (fcopy f) gs end)).
      { destruct l as [|m l].
        - destruct gs; [|discriminate E]. exists h, a. split; [|split; [apply grows_refl|exact Va]]. intros ls'. cbn [from_addends]. rewrite Ga. change n with (join "+" [n]) at 1. rewrite Es. reflexivity.
        - assert (Fa : forallb (fun x => dmem String.eqb b x) (n :: m :: l) = true).
          { apply forallb_forall. intros x Hx. unfold dmem. destruct (dget String.eqb b x) as [y|] eqn:G; [reflexivity|]. exfalso.
            assert (X : forall k (ks : list (fisher F)), map (at_key h b) k = map Some ks -> In x k -> False).
            { clear -G. induction k as [|z k IH]; intros [|g ks] E H; try discriminate E; [destruct H|]. cbn in E. injection E as A E. destruct H as [->|H]; [unfold at_key in A; rewrite G in A; discriminate|eauto]. }
            destruct Hx as [<-|Hx]; [congruence|exact (X _ _ E Hx)]. }
          cbn [from_addends]. rewrite Fa.
          pose proof (copy_spec a h) as Cp. destruct (h_copy a h) as [h1 [c|e]] eqn:Ec; [|destruct Cp; congruence].
          destruct Cp as (f' & Vf & G1 & _ & Vc). assert (f' = f) by congruence. subst f'.
          destruct (sum_addends_spec b (m :: l) h1 gs c (fcopy f) (at_keys_grows _ _ _ _ _ G1 E) Vc) as (h2 & s & E2 & G2 & V2).
          exists h2, s. split; [|split; [eapply grows_trans; eauto|]].
          + intros ls'. unfold dict_at. rewrite Ga. unfold bind at 1. cbn [ret]. unfold bind. rewrite Ec, E2, Es. reflexivity.
          + rewrite V2. destruct gs as [|g gs]; [discriminate E|]. reflexivity. }
      destruct Step as (h1 & c & E1 & G1 & V1). rewrite E1.
      destruct (IH h1 (acc ++ [(join "+" (n :: l), c)]) vs') as (h' & d' & E2 & G2 & new & -> & Cn).
      + unfold dkeys in *. rewrite map_app, <- app_assoc. exact N.
      + clear -D' G1. induction D' as [|x y ? ? (f & gs & A & B) D IH]; constructor; [|exact IH]. exists f, gs. split; [eapply at_keys_grows; eauto|exact B].
      + exists h'. eexists. split; [exact E2|]. split; [eapply grows_trans; eauto|]. exists ((join "+" (n :: l), c) :: new).
        rewrite <- app_assoc. split; [reflexivity|]. cbn [contents map fst snd combine]. unfold contents in Cn. rewrite Cn, (grows_view _ _ _ _ G2 V1). reflexivity.
  Qed.
  Lemma sum_copy (f : fisher F) gs : wf f -> Forall wf gs -> same (sum_list (fcopy f) gs) (sum_list f gs).
  Proof.
    intros Wf Wg. destruct (sum_list_spec gs f Wf Wg) as (_ & L & V & C & N). destruct (sum_list_spec gs (fcopy f) (fcopy_wf f Wf) Wg) as (_ & L' & V' & C' & N').
    apply same_pval.
    - intros x. rewrite L, L', !Exists_cons. reflexivity.
    - intros a b. rewrite V, V'. reflexivity.
    - intros x. rewrite C, C', !Exists_cons. cbn [fcopy new_fisher fcosmo]. rewrite set_of_In. reflexivity.
    - intros x. rewrite N, N', !Exists_cons. cbn [fcopy new_fisher fnuis]. rewrite set_of_In. reflexivity.
  Qed.
  Lemma addends_missing (b : odict) ls : forall h acc, live h b -> (forall l, In l ls -> l <> []) -> (exists l n, In l ls /\ In n l /\ dget String.eqb b n = None) ->
    exists h', from_addends b ls acc h = (h', Err EDomain) /\ grows h h'.
  Proof.
    induction ls as [|l ls IH]; intros h acc Lv Ne (l0 & n0 & Hl & Hn & G); [destruct Hl|].
    destruct l as [|n l]; [elim (Ne []); [left; reflexivity|reflexivity]|].
    destruct (forallb (fun x => dmem String.eqb b x) (n :: l)) eqn:Fa.
    - assert (Hl' : In l0 ls).
      { destruct Hl as [<-|Hl]; [|exact Hl]. exfalso. rewrite forallb_forall in Fa. specialize (Fa _ Hn). unfold dmem in Fa. rewrite G in Fa. discriminate. }
      assert (T : forall m, In m (n :: l) -> exists f, at_key h b m = Some f).
      { intros m Hm. rewrite forallb_forall in Fa. specialize (Fa _ Hm). unfold dmem in Fa. unfold at_key. destruct (dget String.eqb b m) as [y|] eqn:Gm; [|discriminate].
        destruct (view h y) as [f|] eqn:V; [eauto|]. apply (dget_In _ String.eqb_spec) in Gm. elim (Lv _ _ Gm V). }
      destruct (T n (or_introl eq_refl)) as (f & A). destruct (at_key_get _ _ _ _ A) as (a & Ga & Va).
      assert (Gs : exists gs, map (at_key h b) l = map Some gs).
      { clear -T. induction l as [|m l IH]; [exists []; reflexivity|]. destruct (T m) as (g & B); [right; left; reflexivity|]. destruct IH as (gs & C); [intros x [Hx|Hx]; apply T; [left|right; right]; assumption|].
        exists (g :: gs). cbn. rewrite B, C. reflexivity. }
      destruct Gs as (gs & Gs). destruct l as [|m l].
      + cbn [from_addends]. rewrite Ga. apply IH; [exact Lv|intros; apply Ne; right; assumption|eauto].
      + cbn [from_addends]. rewrite Fa. pose proof (copy_spec a h) as Cp. destruct (h_copy a h) as [h1 [c|e]] eqn:Ec; [|destruct Cp; congruence].
        destruct Cp as (f' & Vf & G1 & _ & Vc). destruct (sum_addends_spec b (m :: l) h1 gs c (fcopy f') (at_keys_grows _ _ _ _ _ G1 Gs) Vc) as (h2 & s & E2 & G2 & V2).
        destruct (IH h2 (dset String.eqb acc (join "+" (n :: m :: l)) s)) as (h' & E' & G').
        * eapply live_grows; [|exact Lv]. eapply grows_trans; eauto.
        * intros; apply Ne; right; assumption.
        * eauto.
        * exists h'. split; [|eapply grows_trans; [exact G1|eapply grows_trans; eauto]]. unfold dict_at. rewrite Ga. unfold bind at 1. cbn [ret]. unfold bind. rewrite Ec, E2. exact E'.
    - exists h. split; [|apply grows_refl]. destruct l as [|m l].
      + cbn [from_addends]. cbn [forallb] in Fa. unfold dmem in Fa. destruct (dget String.eqb b n); [discriminate Fa|reflexivity].
      + cbn [from_addends]. rewrite Fa. reflexivity.
  Qed.
End Analysis.
