(** C90: setting up, evaluating and reloading a density; instances of C87-C90. *)
From Verif Require Import Base SortLib ParamModel OrdLib EvalModel EvalSpec NumModel DensModel DensSpec DensLemmas DensProps DensProps2.
From Coq Require Import Field Sorted.
Open Scope string_scope.
Open Scope list_scope.

Section Props.
  Context {F : Type} {K : Fld F} {O : OFld (F := F)}.
  Add Field DensProps3F : (fth (F := F)).
  Open Scope fld_scope.
  Context (N : numerics F).
  Implicit Types d : density F.

  (** Two densities hold the same input. *)
  Definition same_input d d' : Prop :=
    dprobe d' = dprobe d /\ ddom d' = ddom d /\ dedges d' = dedges d /\ dresp d' = dresp d /\ dhas d' = dhas d /\ dinput d' = dinput d /\ diniz d' = diniz d /\ dfsky d' = dfsky d.

  Theorem C90_not_set_up d zs : dready d = false -> evaluate N zs d = (d, Err EDomain) /\ forall m, total_number N m d = Err EDomain.
  Proof. intros H. unfold evaluate, total_number. rewrite H. split; reflexivity. Qed.

  Lemma interpolate_input_kept d : same_input d (fst (interpolate_input N d)) /\ dready (fst (interpolate_input N d)) = dready d /\ dnorms (fst (interpolate_input N d)) = dnorms d /\
    dniz (fst (interpolate_input N d)) = dniz d /\ dz_grid (fst (interpolate_input N d)) = dz_grid d /\ dbins (fst (interpolate_input N d)) = dbins d.
  Proof.
    unfold interpolate_input. destruct (dhas d) eqn:E.
    - destruct (diniz d) as [rows|] eqn:E2; [destruct (rmapM _ _)|]; cbn; unfold same_input; cbn; repeat split; auto.
    - destruct (dinput d) as [y|] eqn:E2; [destruct (make_spline _ _ _)|]; cbn; unfold same_input; cbn; repeat split; auto.
  Qed.
  (** Setting up keeps the input and the evaluated values; when it fails the
      density is no more usable than before. *)
  Theorem C90_set_up_keeps d d' e : set_up N d = (d', e) ->
    same_input d d' /\ dniz d' = dniz d /\ dz_grid d' = dz_grid d /\ dbins d' = dbins d /\ (e = Ok tt -> dready d' = true) /\ (e <> Ok tt -> dready d' = dready d).
  Proof.
    unfold set_up. pose proof (interpolate_input_kept d) as (Sm & Rd & _ & Nz & Zg & Bi). destruct (interpolate_input N d) as [d1 [[]|e1]] eqn:Ei; cbn [fst] in *.
    2: { intros H. assert (d' = d1 /\ e = Err e1) as [-> ->] by (split; congruence). repeat split; try apply Sm; auto; congruence. }
    destruct (dhas d1) eqn:Eh.
    { intros H. assert (d' = with_ready d1 true /\ e = Ok tt) as [-> ->] by (split; congruence). unfold same_input in *. cbn. repeat split; try apply Sm; auto; congruence. }
    destruct (resp_params d1 _ _ _ _) as [g|e1] eqn:E1.
    2: { intros H. assert (d' = d1 /\ e = Err e1) as [-> ->] by (split; congruence). repeat split; try apply Sm; auto; congruence. }
    cbv zeta. destruct (resp_params _ (fun f => f) _ _ _) as [c|e1] eqn:E2.
    2: { intros H. assert (d' = with_params d1 (Some g) (dcat d1) /\ e = Err e1) as [-> ->] by (split; congruence). unfold same_input in *. cbn. repeat split; try apply Sm; auto; congruence. }
    unfold evaluate_norms. destruct (rmapM _ _) as [l|e1] eqn:E3; intros H.
    - apply (f_equal fst) in H as H1. apply (f_equal snd) in H as H2. cbn [fst snd] in H1, H2. subst d' e. unfold same_input in *. cbn. repeat split; try apply Sm; auto; congruence.
    - apply (f_equal fst) in H as H1. apply (f_equal snd) in H as H2. cbn [fst snd] in H1, H2. subst d' e. unfold same_input in *. cbn. repeat split; try apply Sm; auto; congruence.
  Qed.
  (** When it succeeds (densities not given directly, at least one bin). *)
  Theorem C90_set_up_iff d : dhas d = false -> (0 < n_bins d)%nat ->
    ((exists d', set_up N d = (d', Ok tt)) <-> exists y zlo zhi r, counts d y zlo zhi r /\ r_sb r <> 0 /\ r_so r <> 0).
  Proof.
    intros H Nb. split.
    - intros (d' & E). unfold set_up, interpolate_input in E. rewrite H in E. destruct (dinput d) as [y|] eqn:Ey; [|discriminate].
      destruct (make_spline N (ddom d) y) as [s|] eqn:Es; [|discriminate]. apply make_spline_iff in Es. destruct Es as (_ & S & M & L).
      cbn [with_splines dhas] in E. rewrite H in E. unfold resp_params at 1 in E. cbn [with_splines dresp] in E. unfold dget_str at 1 2 3 4 in E.
      destruct (dget String.eqb (dresp d) "f_out") as [fo|] eqn:Efo; [|discriminate]. destruct (dget String.eqb (dresp d) "z_b") as [zb|] eqn:Ezb; [|discriminate].
      destruct (dget String.eqb (dresp d) "sigma_b") as [sb|] eqn:Esb; [|discriminate]. destruct (dget String.eqb (dresp d) "c_b") as [cb|] eqn:Ecb; [|discriminate]. cbn [rbind] in E.
      unfold resp_params in E. cbn [with_params with_splines dresp dcat dgood] in E. unfold dget_str in E. rewrite Efo in E. cbn [rbind] in E.
      destruct (dget String.eqb (dresp d) "z_o") as [zo|] eqn:Ezo; [|discriminate]. destruct (dget String.eqb (dresp d) "sigma_o") as [so|] eqn:Eso; [|discriminate]. destruct (dget String.eqb (dresp d) "c_o") as [co|] eqn:Eco; [|discriminate]. cbn [rbind] in E.
      assert (Lo : exists zlo, nth_error (ddom d) 0 = Some zlo) by (destruct (ddom d); cbn in *; [lia|eauto]).
      assert (Hi : exists zhi, nth_error (ddom d) (length (ddom d) - 1) = Some zhi) by (destruct (nth_error (ddom d) (length (ddom d) - 1)) eqn:En; [eauto|apply nth_error_None in En; lia]).
      destruct Lo as (zlo & Lo), Hi as (zhi & Hi). exists y, zlo, zhi, (mkResp fo zb sb cb zo so co). split; [constructor; auto|]. cbn [r_sb r_so].
      unfold evaluate_norms in E. change (n_bins _) with (n_bins d) in E. destruct (n_bins d) as [|m] eqn:Em; [lia|]. cbn [seq rmapM] in E. unfold norm_factor at 1 in E.
      assert (Z0 : forall e, ddom e = ddom d -> z_min e = Ok zlo) by (intros e Ee; apply z_min_iff; congruence). assert (Z1 : forall e, ddom e = ddom d -> z_max e = Ok zhi) by (intros e Ee; apply z_max_iff; congruence).
      rewrite Z0, Z1 in E by reflexivity. cbn [rbind] in E. unfold convolved at 1 in E. cbn [with_params with_splines dhas dedges] in E. rewrite H in E.
      rewrite n_bins_eq in Em. rewrite !index_nth in E by lia. cbn [rbind] in E. unfold instrument_response at 1 in E. cbn [with_params with_splines dgood dcat sigma] in E.
      destruct (fdec sb 0); [discriminate|]. destruct (fdec so 0); [discriminate|]. auto.
    - intros (y & zlo & zhi & r & C & Hb & Ho). eexists. apply (set_up_ok N C Hb Ho).
  Qed.
  (** Evaluating changes the redshift grid and the values only. *)
  Theorem C90_evaluate_keeps d d' zs e : evaluate N zs d = (d', e) -> with_values d' (dz_grid d) (dniz d) = d /\ (dready d = true -> dz_grid d' = Some zs).
  Proof.
    unfold evaluate. destruct (dready d) eqn:E; cbn [negb].
    - destruct (fill_rows _ _ _ _ _) as [rows e1]. intros H. apply (f_equal fst) in H. cbn [fst] in H. subst d'. split; [destruct d; reflexivity|reflexivity].
    - intros H. apply (f_equal fst) in H. cbn [fst] in H. subst d'. split; [destruct d; reflexivity|discriminate].
  Qed.
  (** Values depend on neither earlier grids nor earlier values. *)
  Theorem C90_evaluate_again d d1 d2 zs zs' e1 : evaluate N zs d = (d1, e1) -> dready d = true ->
    evaluate N zs' d1 = (d2, Ok tt) -> exists d3, evaluate N zs' d = (d3, Ok tt) /\ d2 = d3.
  Proof.
    intros H R H2. unfold evaluate in *. rewrite R in *. cbn [negb] in *. destruct (fill_rows N (with_values d (Some zs) (dniz d)) zs _ 0) as [rows e] eqn:Ef. apply (f_equal fst) in H. cbn [fst] in H. subst d1.
    cbn [with_values dready] in H2. rewrite R in H2. cbn [negb] in H2. eexists. split; [|reflexivity]. rewrite <- H2.
    assert (G : forall n i v v', fill_rows N (with_values d (Some zs') v) zs' n i = fill_rows N (with_values (with_values (with_values d (Some zs) (dniz d)) (Some zs) (Some rows)) (Some zs') v') zs' n i).
    { induction n as [|n IH]; intros i v v'; [reflexivity|]. cbn [fill_rows].
      change (density_row N (with_values (with_values (with_values d (Some zs) (dniz d)) (Some zs) (Some rows)) (Some zs') v') zs' i) with (density_row N (with_values d (Some zs') v) zs' i).
      destruct (density_row _ _ _ _); [|reflexivity]. rewrite (IH (Datatypes.S i) v v'). reflexivity. }
    change (n_bins (with_values (with_values d (Some zs) (dniz d)) (Some zs) (Some rows))) with (n_bins d). change (n_bins (with_values d (Some zs') (dniz d))) with (n_bins d).
    rewrite (G _ _ (dniz d) (Some rows)). destruct (fill_rows _ _ _ _ _) as [rs es]. reflexivity.
  Qed.
  (** The stage keeps all probes in order, each set up, evaluated and counted. *)
  Theorem C90_stage zs init out : compute_densities N zs init = Ok out ->
    map fst out = map fst init /\
    forall p d, In (p, d) init -> exists d1 d2 d3, In (p, d3) out /\ set_up N d = (d1, Ok tt) /\ evaluate N zs d1 = (d2, Ok tt) /\ evaluate_surface N d2 = (d3, Ok tt) /\ dz_grid d3 = Some zs /\ same_input d d3.
  Proof.
    revert out. induction init as [|[q x] init IH]; cbn [compute_densities rmapM]; intros out H.
    - assert (out = []) by (unfold compute_densities in H; cbn in H; congruence). subst. split; [reflexivity|]. intros p d [].
    - unfold compute_densities in H. cbn [rmapM fst snd] in H. unfold compute_density at 1 in H. destruct (set_up N x) as [d1 [[]|]] eqn:E1; [|discriminate]. destruct (evaluate N zs d1) as [d2 [[]|]] eqn:E2; [|discriminate].
      destruct (evaluate_surface N d2) as [d3 [[]|]] eqn:E3; [|discriminate]. cbn [rbind] in H. destruct (rmapM _ init) as [rest|] eqn:Er; [|discriminate]. cbn [rbind] in H.
      assert (out = (q, d3) :: rest) by congruence. subst out. destruct (IH rest Er) as [M A]. split; [cbn [map fst]; rewrite M; reflexivity|].
      intros p d [Hd|Hd].
      + assert (p = q /\ d = x) as [-> ->] by (split; congruence). exists d1, d2, d3. split; [left; reflexivity|]. split; [exact E1|]. split; [exact E2|]. split; [exact E3|].
        destruct (C90_set_up_keeps _ _ _ E1) as (Sm & _ & _ & _ & Rd & _). destruct (C90_evaluate_keeps _ _ _ _ E2) as (W & Z). specialize (Z (Rd eq_refl)).
        unfold evaluate_surface in E3. destruct (rmapM _ _); [|discriminate]. apply (f_equal fst) in E3. cbn [fst] in E3. subst d3. cbn [with_bins dz_grid]. split; [exact Z|].
        unfold same_input in *. cbn [with_bins dprobe ddom dedges dresp dhas dinput diniz dfsky]. rewrite <- W in Sm. cbn in Sm. exact Sm.
      + destruct (A p d Hd) as (a1 & a2 & a3 & I1 & R). exists a1, a2, a3. split; [right; exact I1|exact R].
  Qed.
End Props.
