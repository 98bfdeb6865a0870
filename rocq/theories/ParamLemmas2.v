(** Updates of the collection, variations, parameter files. *)
From Verif Require Import Base SortLib FsModel ParamModel EvalModel EvalSpec EllLemmas OrdLib ParamFileModel StemModel ParamLemmas.
From Coq Require Import Field Sorted Permutation.
Open Scope list_scope.

Section Upd.
  Context {F : Type} {K : Fld F} {O : OFld (F := F)}.
  Add Field FldParU : (fth (F := F)).
  Open Scope fld_scope.
  Implicit Types p q : param F.
  Implicit Types c : coll F.

  (** Everything but the current value. *)
  Definition same_but_current p q : Prop := exists v, q = with_current p v.
  Definition at_fiducial c : Prop := forall n p, pget c n = Some p -> current p = fiducial p.

  Lemma pget_pset_same c n p : pget (pset c n p) n = Some p.
  Proof. apply (dget_dset_same _ String.eqb_spec). Qed.
  Lemma pget_pset_other c n m p : n <> m -> pget (pset c n p) m = pget c m.
  Proof. apply (dget_dset_other _ String.eqb_spec). Qed.
  Lemma with_current_twice p v w : with_current (with_current p v) w = with_current p w.
  Proof. reflexivity. Qed.
  Lemma reset_with p v : reset_par (with_current p v) = reset_par p.
  Proof. reflexivity. Qed.
  Lemma dmap_dset (f : param F -> param F) (d : pdict) n p :
    map (fun kv => (fst kv, f (snd kv))) (dset String.eqb d n p) = dset String.eqb (map (fun kv => (fst kv, f (snd kv))) d) n (f p).
  Proof.
    induction d as [|[k v] d IH]; cbn; [reflexivity|]. destruct (String.eqb k n); cbn; [reflexivity|]. rewrite IH. reflexivity.
  Qed.
  Lemma dget_dmap (f : param F -> param F) (d : pdict) n :
    dget String.eqb (map (fun kv => (fst kv, f (snd kv))) d) n = option_map f (dget String.eqb d n).
  Proof. induction d as [|[k v] d IH]; cbn; [reflexivity|]. destruct (String.eqb k n); [reflexivity|exact IH]. Qed.
  Lemma dset_id (d : @pdict F) n p : dget String.eqb d n = Some p -> dset String.eqb d n p = d.
  Proof.
    induction d as [|[k v] d IH]; cbn; [discriminate|]. destruct (String.eqb k n); intros E; [congruence|]. rewrite IH by exact E. reflexivity.
  Qed.
  (** A reset forgets what was displaced. *)
  Lemma reset_pset c n p v : pget c n = Some p -> reset_all (pset c n (with_current p v)) = reset_all c.
  Proof.
    intros E. unfold reset_all, pset, with_params. cbn [params stem_disps stem_dict flat]. f_equal.
    rewrite (dmap_dset reset_par). rewrite reset_with. apply dset_id. rewrite dget_dmap. unfold pget in E. rewrite E. reflexivity.
  Qed.
  Lemma reset_reset c : reset_all (reset_all c) = reset_all c.
  Proof. unfold reset_all, with_params. cbn. f_equal. rewrite map_map. reflexivity. Qed.
  Lemma reset_fiducial c : at_fiducial (reset_all c).
  Proof.
    intros n p H. unfold pget, reset_all, with_params in H. cbn [params] in H. rewrite (dget_dmap reset_par) in H.
    destruct (dget String.eqb (params c) n) as [q|]; [|discriminate]. injection H as <-. reflexivity.
  Qed.
  Lemma fiducial_reset c : NoDup (dkeys (params c)) -> at_fiducial c -> reset_all c = c.
  Proof.
    intros N H. destruct c as [ps sd sm fl]. unfold reset_all, with_params. cbn [params stem_disps stem_dict flat] in *. f_equal.
    rewrite <- (map_id ps) at 2. apply map_ext_in. intros [n p] Hi. cbn [fst snd]. f_equal.
    assert (E : current p = fiducial p).
    { apply (H n). unfold pget. cbn [params]. apply (@dget_NoDup_In _ _ String.eqb String.eqb_spec); assumption. }
    destruct p as [a b d e f g h i j k]. unfold reset_par, with_current. cbn [pp_name fiducial current is_cosmo pprobe stem_factor is_free pdescr punits dmethod] in *.
    rewrite E. reflexivity.
  Qed.
  Lemma keys_reset c : dkeys (params (reset_all c)) = dkeys (params c).
  Proof. unfold reset_all, with_params, dkeys. cbn. rewrite map_map. reflexivity. Qed.

  (** What a successful update does. *)
  Definition is_dens (n : string) : bool := String.eqb n "Omm" || String.eqb n "OmDE".
  Definition partner (n : string) : string := if String.eqb n "Omm" then "OmDE"%string else "Omm"%string.
  Lemma update_ok dvar step c c1 u : dvar <> "central"%string -> update_step dvar step c = (c1, Ok u) ->
    exists p eps, pget c dvar = Some p /\ is_free p = true /\ dget Z.eqb (stem_dict c) step = Some eps /\
      let v := value_for p eps in
      if flat c && is_dens dvar then
        exists l, pget c (partner dvar) = Some l /\ is_free l = false /\ fiducial p + fiducial l = 1 /\
          c1 = pset (pset c dvar (with_current p v)) (partner dvar) (with_current l (1 - v))
      else c1 = pset c dvar (with_current p v).
  Proof.
    intros Hc H. unfold update_step in H. destruct (String.eqb_spec dvar "central") as [e|_]; [contradiction|].
    destruct (pget c dvar) as [p|] eqn:Ep; [|discriminate]. destruct (is_free p) eqn:Ef; [|discriminate]. cbn [negb] in H.
    destruct (dget Z.eqb (stem_dict c) step) as [eps|] eqn:Ee; [|discriminate].
    exists p, eps. split; [reflexivity|]. split; [exact Ef|]. split; [reflexivity|]. cbn zeta. unfold displaced in H. fold (is_dens dvar) in H.
    destruct (flat c && is_dens dvar) eqn:Ed; [|congruence].
    apply andb_prop in Ed. destruct Ed as [_ Ed]. set (c0 := pset c dvar (with_current p (value_for p eps))) in *.
    unfold is_dens in Ed. unfold partner. destruct (String.eqb_spec dvar "Omm") as [->|n1].
    - assert (E0 : pget c0 "Omm" = Some (with_current p (value_for p eps))) by apply pget_pset_same.
      rewrite E0 in H. destruct (pget c0 "OmDE") as [l|] eqn:El; [|discriminate].
      assert (El' : pget c "OmDE" = Some l) by (rewrite <- El; symmetry; apply pget_pset_other; discriminate).
      cbn [fiducial with_current is_free current] in H. destruct (fdec (fiducial p + fiducial l) 1) as [e|]; [|discriminate].
      rewrite Ef in H. cbn [andb] in H. destruct (is_free l) eqn:Efl; [discriminate|]. cbn in H.
      injection H as <- _. exists l. repeat split; assumption.
    - cbn [orb] in Ed. destruct (String.eqb_spec dvar "OmDE") as [->|n2]; [|discriminate].
      assert (E0 : pget c0 "OmDE" = Some (with_current p (value_for p eps))) by apply pget_pset_same.
      rewrite E0 in H. destruct (pget c0 "Omm") as [l|] eqn:El; [|discriminate].
      assert (El' : pget c "Omm" = Some l) by (rewrite <- El; symmetry; apply pget_pset_other; discriminate).
      cbn [fiducial with_current is_free current] in H. destruct (fdec (fiducial l + fiducial p) 1) as [e|]; [|discriminate].
      rewrite Ef in H. destruct (is_free l) eqn:Efl; [discriminate|]. cbn in H.
      injection H as <- _. exists l. repeat split; try assumption. rewrite <- e. ring.
  Qed.
  Lemma partner_neq dvar : is_dens dvar = true -> partner dvar <> dvar.
  Proof.
    unfold is_dens, partner. destruct (String.eqb_spec dvar "Omm") as [->|n]; [discriminate|].
    cbn [orb]. intros _ E. congruence.
  Qed.
  (** Any update, also a failing one, changes only current values. *)
  Lemma update_reset dvar step c : reset_all (fst (update_step dvar step c)) = reset_all c.
  Proof.
    unfold update_step. destruct (String.eqb dvar "central"); [apply reset_reset|].
    destruct (pget c dvar) as [p|] eqn:Ep; [|reflexivity]. destruct (negb (is_free p)); [reflexivity|].
    destruct (dget Z.eqb (stem_dict c) step) as [eps|]; [|reflexivity]. unfold displaced.
    set (c0 := pset c dvar (with_current p (value_for p eps))).
    assert (E0 : reset_all c0 = reset_all c) by (apply reset_pset; exact Ep).
    destruct (flat c && _); [|exact E0]. destruct (pget c0 "Omm") as [m|] eqn:Em; [|exact E0].
    destruct (pget c0 "OmDE") as [l|] eqn:El; [|exact E0]. destruct (fdec _ _); [|exact E0]. destruct (is_free m && is_free l); [exact E0|].
    destruct (String.eqb dvar "Omm" && _); [cbn [fst]; rewrite reset_pset by exact El; exact E0|].
    destruct (String.eqb dvar "OmDE" && _); [cbn [fst]; rewrite reset_pset by exact Em; exact E0|exact E0].
  Qed.
  Lemma update_frame dvar step c : stem_disps (fst (update_step dvar step c)) = stem_disps c /\
    stem_dict (fst (update_step dvar step c)) = stem_dict c /\ flat (fst (update_step dvar step c)) = flat c.
  Proof.
    pose proof (update_reset dvar step c) as E. unfold reset_all, with_params in E. injection E as _ A B D. auto.
  Qed.

  (** ** C36 *)
  Definition densities_sum_to_one c : Prop :=
    exists m l, pget c "Omm" = Some m /\ pget c "OmDE" = Some l /\ current m + current l = 1.
  Lemma update_flat dvar step c c1 u : flat c = true -> dvar = "Omm"%string \/ dvar = "OmDE"%string ->
    update_step dvar step c = (c1, Ok u) -> densities_sum_to_one c1.
  Proof.
    intros Hf Hd H. assert (Hc : dvar <> "central"%string) by (destruct Hd; subst; discriminate).
    destruct (update_ok dvar step c c1 u Hc H) as (p & eps & Ep & _ & _ & Hv). cbn zeta in Hv. rewrite Hf in Hv. cbn [andb] in Hv.
    assert (Ed : is_dens dvar = true) by (destruct Hd; subst; reflexivity). rewrite Ed in Hv.
    destruct Hv as (l & El & _ & _ & ->). set (v := value_for p eps). unfold densities_sum_to_one.
    destruct Hd as [->| ->]; cbn [partner String.eqb Ascii.eqb Bool.eqb].
    - exists (with_current p v), (with_current l (1 - v)). split; [|split].
      + rewrite pget_pset_other by discriminate. apply pget_pset_same.
      + apply pget_pset_same.
      + cbn [current with_current]. ring.
    - exists (with_current l (1 - v)), (with_current p v). split; [|split].
      + apply pget_pset_same.
      + rewrite pget_pset_other by discriminate. apply pget_pset_same.
      + cbn [current with_current]. ring.
  Qed.

  (** The two density parameters of a flat collection that can be varied. *)
  Definition flat_ok c : Prop :=
    flat c = true /\ exists m l, pget c "Omm" = Some m /\ pget c "OmDE" = Some l /\
      fiducial m + fiducial l = 1 /\ current m + current l = 1 /\ (is_free m && is_free l = false).
  Lemma flat_ok_step dvar step c : flat_ok c -> flat_ok (fst (update_step dvar step c)).
  Proof.
    intros (Hf & m & l & Em & El & Ef & Ec & Hfree).
    split; [rewrite (proj2 (proj2 (update_frame dvar step c))); exact Hf|].
    unfold update_step. destruct (String.eqb_spec dvar "central") as [_|nc].
    { exists (reset_par m), (reset_par l). cbn [fst]. unfold pget, reset_all, with_params. cbn [params]. rewrite !(dget_dmap reset_par).
      unfold pget in Em, El. rewrite Em, El. repeat split; [exact Ef|exact Ef|exact Hfree]. }
    destruct (pget c dvar) as [p|] eqn:Ep; [|exists m, l; repeat split; assumption].
    destruct (is_free p) eqn:Efp; cbn [negb]; [|exists m, l; repeat split; assumption].
    destruct (dget Z.eqb (stem_dict c) step) as [eps|]; [|exists m, l; repeat split; assumption].
    unfold displaced. rewrite Hf. cbn [andb]. set (v := value_for p eps). set (c0 := pset c dvar (with_current p v)).
    destruct (String.eqb_spec dvar "Omm") as [e1|n1]; cbn [orb andb].
    - subst dvar. assert (m = p) by congruence. subst m.
      assert (E1 : pget c0 "Omm" = Some (with_current p v)) by apply pget_pset_same.
      assert (E2 : pget c0 "OmDE" = Some l) by (unfold c0; rewrite pget_pset_other by discriminate; exact El).
      rewrite E1, E2. cbn [fiducial with_current is_free current]. destruct (fdec (fiducial p + fiducial l) 1) as [_|n]; [|contradiction].
      rewrite Hfree. assert (Efl : is_free l = false) by (rewrite Efp in Hfree; exact Hfree). rewrite Efl. cbn [negb fst].
      exists (with_current p v), (with_current l (1 - v)). split; [rewrite pget_pset_other by discriminate; exact E1|].
      split; [apply pget_pset_same|]. cbn [fiducial with_current is_free current]. repeat split; [exact Ef|ring|exact Hfree].
    - destruct (String.eqb_spec dvar "OmDE") as [e2|n2].
      + subst dvar. assert (l = p) by congruence. subst l.
        assert (E2 : pget c0 "OmDE" = Some (with_current p v)) by apply pget_pset_same.
        assert (E1 : pget c0 "Omm" = Some m) by (unfold c0; rewrite pget_pset_other by discriminate; exact Em).
        rewrite E1, E2. cbn [fiducial with_current is_free current]. destruct (fdec (fiducial m + fiducial p) 1) as [_|n]; [|contradiction].
        rewrite Hfree. assert (Efm : is_free m = false) by (rewrite Efp, andb_true_r in Hfree; exact Hfree). rewrite Efm. cbn [negb andb fst].
        exists (with_current m (1 - v)), (with_current p v). split; [apply pget_pset_same|].
        split; [rewrite pget_pset_other by discriminate; exact E2|]. cbn [fiducial with_current is_free current]. repeat split; [exact Ef|ring|exact Hfree].
      + cbn [fst]. exists m, l. unfold c0. rewrite !pget_pset_other by congruence. repeat split; assumption.
  Qed.
  Definition run_updates (l : list (string * Z)) c : coll F := fold_left (fun c ds => fst (update_step (fst ds) (snd ds) c)) l c.
  Lemma flat_ok_run l c : flat_ok c -> flat_ok (run_updates l c).
  Proof. revert c. induction l as [|[d s] l IH]; intros c H; [exact H|]. cbn [run_updates fold_left]. apply IH, flat_ok_step, H. Qed.

  (** ** C37 *)
  (** [c1] is [c] with exactly the parameter [dvar] displaced by [eps] (and its
      flatness partner set to one minus it). *)
  Definition displaced_only dvar eps c c1 : Prop :=
    stem_disps c1 = stem_disps c /\ stem_dict c1 = stem_dict c /\ flat c1 = flat c /\
    exists p, pget c dvar = Some p /\
      forall n, pget c1 n =
        if String.eqb n dvar then Some (with_current p (value_for p eps))
        else if flat c && is_dens dvar && String.eqb n (partner dvar) then option_map (fun q => with_current q (1 - value_for p eps)) (pget c n)
        else pget c n.
  Lemma update_displaced dvar step c c1 u : dvar <> "central"%string -> update_step dvar step c = (c1, Ok u) ->
    exists eps, dget Z.eqb (stem_dict c) step = Some eps /\ displaced_only dvar eps c c1.
  Proof.
    intros Hc H. destruct (update_ok dvar step c c1 u Hc H) as (p & eps & Ep & _ & Ee & Hv). exists eps. split; [exact Ee|].
    pose proof (update_frame dvar step c) as Fr. rewrite H in Fr. cbn [fst] in Fr. destruct Fr as (F1 & F2 & F3).
    split; [exact F1|]. split; [exact F2|]. split; [exact F3|]. exists p. split; [exact Ep|]. intros n. cbn zeta in Hv.
    destruct (flat c && is_dens dvar) eqn:Ed; cbn [andb].
    - destruct Hv as (l & El & _ & _ & ->). assert (Nd : partner dvar <> dvar) by (apply partner_neq; apply andb_prop in Ed; tauto).
      destruct (String.eqb_spec n dvar) as [->|n1].
      + rewrite pget_pset_other by exact Nd. apply pget_pset_same.
      + destruct (String.eqb_spec n (partner dvar)) as [->|n2].
        * rewrite pget_pset_same, El. reflexivity.
        * rewrite !pget_pset_other by congruence. reflexivity.
    - subst c1. destruct (String.eqb_spec n dvar) as [->|n1]; [apply pget_pset_same|]. apply pget_pset_other. congruence.
  Qed.
  Lemma vary_reset {A} compute dvar steps : forall (acc : dict Z A) c,
    reset_all (fst (vary compute dvar steps acc c)) = reset_all c.
  Proof.
    induction steps as [|s steps IH]; intros acc c; [reflexivity|]. cbn [vary].
    pose proof (update_reset dvar s c) as E. destruct (update_step dvar s c) as [c1 [u|e]]; cbn [fst] in E |- *; [|exact E].
    destruct (rbind _ _); cbn [fst]; [|exact E]. rewrite IH, reset_reset. exact E.
  Qed.
  Lemma vary_ok {A} compute dvar steps : forall (acc : dict Z A) c c' d, NoDup (dkeys (params c)) -> at_fiducial c ->
    vary compute dvar steps acc c = (c', Ok d) ->
    c' = c /\
    (forall s, In s steps -> exists c1 u src a, update_step dvar s c = (c1, Ok u) /\ pmm_source dvar s c1 = Ok src /\ compute src c1 = Ok a) /\
    d = fold_left (fun acc s => match (src <- pmm_source dvar s (fst (update_step dvar s c)) ;; compute src (fst (update_step dvar s c))) with
                                | Ok a => dset Z.eqb acc s a | Err _ => acc end) steps acc.
  Proof.
    induction steps as [|s steps IH]; intros acc c c' d N Hf H; cbn [vary] in H.
    - injection H as <- <-. split; [reflexivity|]. split; [intros s []|reflexivity].
    - pose proof (update_reset dvar s c) as E. destruct (update_step dvar s c) as [c1 [u|e]] eqn:Eu; cbn [fst] in E; [|discriminate].
      destruct (pmm_source dvar s c1) as [src|e] eqn:Es; cbn [rbind] in H; [|discriminate].
      destruct (compute src c1) as [a|e] eqn:Ec; [|discriminate].
      rewrite E, (fiducial_reset c N Hf) in H. destruct (IH _ _ _ _ N Hf H) as (E1 & E2 & E3). split; [exact E1|]. split.
      + intros t [<-|Ht]; [exists c1, u, src, a; auto|apply E2; exact Ht].
      + cbn [fold_left]. rewrite Eu. cbn [fst]. rewrite Es. cbn [rbind]. rewrite Ec. exact E3.
  Qed.
End Upd.

Section PFile.
  Context {F : Type} {K : Fld F} {O : OFld (F := F)}.
  Add Field FldParF : (fth (F := F)).
  Open Scope fld_scope.
  Implicit Types p q : param F.
  Implicit Types c : coll F.

  (** What a file keeps of a parameter. *)
  Definition kept_par p : param F :=
    mkPar (pp_name p) (fiducial p) (current p) (is_cosmo p) (if is_cosmo p then None else pprobe p) (stem_factor p) (is_free p) ""
          (punits p) (dmethod p).
  Definition has_probe p : Prop := is_cosmo p = true \/ pprobe p <> None.
  Lemma from_to_dict p : has_probe p -> from_dict (to_dict p) = Ok (kept_par p).
  Proof.
    intros H. destruct p as [nm fi cu co pr st fr de un me]. unfold kept_par. cbn [pp_name fiducial current is_cosmo pprobe stem_factor is_free pdescr punits dmethod] in *.
    destruct co; [reflexivity|]. destruct pr as [x|]; [reflexivity|]. destruct H as [H|H]; cbn in H; [discriminate|congruence].
  Qed.
  Definition well_keyed c : Prop := NoDup (dkeys (params c)) /\ forall n p, In (n, p) (params c) -> pp_name p = n /\ has_probe p.
  Definition keep_dict (oc : bool) (d : @pdict F) : pdict :=
    map (fun kv => (fst kv, kept_par (snd kv))) (filter (fun kv => negb oc || is_cosmo (snd kv)) d).
  Lemma dset_fresh (d : @pdict F) n p : ~ In n (dkeys d) -> dset String.eqb d n p = d ++ [(n, p)].
  Proof.
    induction d as [|[k v] d IH]; cbn; intros H; [reflexivity|]. destruct (String.eqb_spec k n) as [->|ne]; [tauto|].
    rewrite IH by tauto. reflexivity.
  Qed.
  Lemma params_of_dict oc (d acc : @pdict F) : NoDup (dkeys d) -> (forall n, In n (dkeys d) -> ~ In n (dkeys acc)) ->
    (forall n p, In (n, p) d -> pp_name p = n /\ has_probe p) ->
    params_of oc (map (fun kv => JObj (to_dict (snd kv))) d) acc = Ok (acc ++ keep_dict oc d).
  Proof.
    revert acc. induction d as [|[n p] d IH]; intros acc N D H; cbn [map params_of keep_dict filter]; [rewrite app_nil_r; reflexivity|].
    cbn [as_obj rbind snd]. destruct (H n p) as [En Hp]; [left; reflexivity|]. rewrite (from_to_dict p Hp). cbn [rbind].
    inversion N as [|? ? Hn N']; subst. assert (Ec : is_cosmo (kept_par p) = is_cosmo p) by reflexivity. rewrite Ec.
    assert (En' : pp_name (kept_par p) = pp_name p) by reflexivity. rewrite En'.
    destruct (negb oc || is_cosmo p) eqn:E.
    - rewrite dset_fresh by (apply D; left; reflexivity). rewrite IH; [rewrite <- app_assoc; reflexivity|exact N'| |].
      + intros m Hm C. unfold dkeys in C. rewrite map_app in C. apply in_app_or in C. destruct C as [C|[<-|[]]].
        * apply (D m); [right; exact Hm|exact C].
        * apply Hn. exact Hm.
      + intros m q Hq. apply H. right; exact Hq.
    - apply IH; [exact N'| |].
      + intros m Hm. apply D. right; exact Hm.
      + intros m q Hq. apply H. right; exact Hq.
  Qed.
  Lemma as_nums_list (l : list F) : as_nums (JList (map JNum l)) = Ok l.
  Proof. cbn [as_nums]. induction l as [|x l IH]; cbn [map rmapM]; [reflexivity|]. cbn [as_num rbind]. rewrite IH. reflexivity. Qed.

  (** The displacements that survive. *)
  Lemma pos_disps (base : list F) : ~ In 0 base -> filter (fun x => fltb 0 x) (disps_of base) = fsort (map fabs base).
  Proof.
    intros H. rewrite disps_abs.
    assert (P : forall x, In x (map fabs base) -> flt 0 x).
    { apply map_fabs_pos. intros x Hx C. subst. contradiction. }
    rewrite (disps_pos _ P), filter_app.
    assert (E1 : filter (fun x => fltb 0 x) (map fopp (rev (fsort (map fabs base)))) = []).
    { assert (A : forall l : list F, (forall x, In x l -> flt 0 x) -> filter (fun x => fltb 0 x) (map fopp l) = []).
      { induction l as [|y l IH]; intros G; cbn; [reflexivity|].
        assert (E : fltb 0 (- y) = false).
        { apply fltb_false. apply flt_le. pose proof (flt_opp _ _ (G y (or_introl eq_refl))) as Q. replace (- (0 : F)) with (0 : F) in Q by ring. exact Q. }
        rewrite E. apply IH. intros x Hx. apply G. right; exact Hx. }
      apply A. intros x Hx. apply in_rev in Hx. apply (proj1 (fsort_In _ _)) in Hx. apply P, Hx. }
    rewrite E1. cbn [app].
    assert (B : forall l : list F, (forall x, In x l -> flt 0 x) -> filter (fun x => fltb 0 x) l = l).
    { induction l as [|y l IH]; intros G; cbn; [reflexivity|]. rewrite (proj2 (fltb_iff 0 y) (G y (or_introl eq_refl))).
      rewrite IH; [reflexivity|]. intros x Hx. apply G. right; exact Hx. }
    apply B. intros x Hx. apply (proj1 (fsort_In _ _)) in Hx. apply P, Hx.
  Qed.
  Lemma disps_perm (l m : list F) : Permutation l m -> disps_of l = disps_of m.
  Proof. intros P. unfold disps_of. apply fsort_unique. apply Permutation_app; [apply Permutation_map|]; exact P. Qed.
  (** The collection whose displacements were loaded from [base]. *)
  Definition loaded_from (base : list F) c : Prop :=
    stem_disps c = disps_of base /\ stem_dict c = combine (steps_of (length base)) (disps_of base).
  Lemma reloaded (base : list F) c d : ~ In 0 base -> loaded_from base c ->
    let c' := load_stem (filter (fun x => fltb 0 x) (stem_disps c)) d in
    stem_disps c' = stem_disps c /\ stem_dict c' = stem_dict c.
  Proof.
    intros H [E1 E2]. cbn zeta. unfold load_stem. cbn [stem_disps stem_dict]. rewrite E1, E2, (pos_disps base H).
    assert (E : disps_of (fsort (map fabs base)) = disps_of base) by (rewrite (disps_perm _ _ (fsort_perm _)); symmetry; apply disps_abs).
    rewrite E. split; [reflexivity|]. f_equal. f_equal. unfold fsort. rewrite isort_length, map_length. reflexivity.
  Qed.
  Lemma removelast_snoc {A} (l : list A) x : removelast (l ++ [x]) = l.
  Proof. apply removelast_last. Qed.
  Lemma load_written oc c : well_keyed c ->
    from_json oc (to_json c) =
      Ok (load_stem (filter (fun x => fltb 0 x) (stem_disps c)) (mkColl (keep_dict oc (params c)) [] [] (flat c))).
  Proof.
    intros [N H]. unfold from_json, to_json, from_dict_list. rewrite removelast_snoc.
    rewrite (params_of_dict oc (params c) [] N (fun _ _ G => G) H). cbn [rbind app].
    unfold last_obj. rewrite rev_app_distr. cbn [rev app as_obj rbind]. unfold jfield, jget. cbn [dget String.eqb Ascii.eqb Bool.eqb rbind].
    rewrite as_nums_list. reflexivity.
  Qed.
End PFile.
