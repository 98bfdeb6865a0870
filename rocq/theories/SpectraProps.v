(** C96: files of angular spectra. *)
From Coq Require Import Permutation.
From Verif Require Import Base SortLib StrLib FrameModel FrameLemmas FsModel ParamModel ParamFileModel KeyModel NameModel NameLemmas H5Model H5Lemmas H5Lemmas2 H5Lemmas3 H5Props H5Props2 H5Props3 H5Props4 H5Props5 SpectraModel SpectraLemmas.
Open Scope string_scope.
Open Scope list_scope.

Section P.
  Context {F : Type} {K : Fld F}.
  Implicit Types (h : hfile F) (p q r : path) (c : spectra F) (s : spectrum F) (w : weight F).

  (** What a loaded weight function or spectrum has of the saved one. *)
  Definition weight_kept w w' : Prop :=
    w_probe w' = w_probe w /\ w_z w' = w_z w /\ w_bin w' = (if is_none (w_z w) then VNone else w_bin w) /\
    opt_rel (fun o o' => forall n, density_kept o o' n) (w_density w) (w_density w') /\
    opt_rel bias_kept (if with_bias (w_probe w) then w_bias w else None) (w_bias w').
  Definition spectrum_kept s s' : Prop :=
    s_p1 s' = s_p1 s /\ s_p2 s' = s_p2 s /\ s_cl s' = s_cl s /\ s_ells s' = s_ells s /\ s_widths s' = s_widths s /\
    exists k w1 w2 k' w1' w2', s_kernel s = Some (k, (Some w1, Some w2)) /\ s_kernel s' = Some (k', (Some w1', Some w2')) /\
      (forall n, In n ["probe1"; "probe2"; "z_grid"; "k_ijz"] -> getattr k' n = getattr k n) /\ weight_kept w1 w1' /\ weight_kept w2 w2'.
  (** The collections the program builds (c_ells.py:377-404): every spectrum under the key of its probes, with a kernel, and one weight function per probe. *)
  Definition assembled c (W : string -> weight F) : Prop :=
    NoDup (dkeys (cs_cls c)) /\
    (forall key s, In (key, s) (cs_cls c) -> key = comb_key (s_p1 s) (s_p2 s) /\ In (s_p1 s) weight_classes /\ In (s_p2 s) weight_classes /\
       exists k, s_kernel s = Some (k, (Some (W (s_p1 s)), Some (W (s_p2 s))))) /\
    (forall (p : string) w, In (p, w) (cs_weights c) -> In p weight_classes /\ w = W p) /\
    (forall (p : string), In p weight_classes -> In (w_probe (W p)) weight_classes /\ forall o, w_density (W p) = Some o -> nums_ok o).

  Definition wplace (p : string) : path := weight_place [] p.
  Definition used c : list string := flat_map (fun ks => [s_p1 (snd ks); s_p2 (snd ks)]) (cs_cls c) ++ dkeys (cs_weights c).

  (** Names that cannot be mistaken for the group of the weights. *)
  Definition other (a : string) : bool := negb (ends "weight_functions" a).
  Definition low (t : path) : bool := forallb other (removelast t).
  Lemma low_cons a t : other a = true -> low t = true -> low (a :: t) = true.
  Proof. unfold low. destruct t as [|b t]; [reflexivity|]. intros A B. change (removelast (a :: b :: t)) with (a :: removelast (b :: t)). cbn [forallb]. rewrite A, B. reflexivity. Qed.
  Lemma low_one a : low [a] = true.
  Proof. reflexivity. Qed.
  Definition all_low (l : path -> list (op F)) : Prop := forall r x p, In x (l r) -> op_path x = Some p -> exists t, p = r ++ t /\ low t = true.
  Ltac low_tac := let I := fresh in intros r x p I P; inv_in I; subst x; cbn [op_path] in P; try discriminate P; injection P as <-;
    rewrite <- ?app_assoc; cbn [app]; first [eexists; split; [reflexivity|reflexivity]|exists []; split; [rewrite app_nil_r; reflexivity|reflexivity]].
  Lemma low_density o : all_low (density_ops o).
  Proof. unfold density_ops. cbv beta zeta. low_tac. Qed.
  Lemma low_bias o : all_low (bias_ops o).
  Proof. unfold bias_ops. cbv beta zeta. low_tac. Qed.
  Lemma low_nested n (f : obj F -> path -> list (op F)) (oo : option (obj F)) : other n = true -> (forall o, all_low (f o)) -> all_low (fun r => nested (r ++ [n]) f oo).
  Proof.
    intros N W r x p I P. destruct oo as [o|]; [|destruct I]. destruct I as [<-|I].
    - injection P as <-. exists [n]. split; reflexivity.
    - destruct (W o _ x p I P) as (t & -> & L). exists (n :: t). split; [rewrite <- app_assoc; reflexivity|apply low_cons; assumption].
  Qed.
  Lemma low_weight w : all_low (weight_ops w).
  Proof.
    intros r x p I P. unfold weight_ops in I. apply in_app_or in I as [[<-|[]]|I]; [injection P as <-; exists []; split; [symmetry; apply app_nil_r|reflexivity]|].
    apply in_app_or in I as [I|I]; [apply in_data_if in I as (_ & ->); injection P as <-; eexists; split; [reflexivity|reflexivity]|].
    apply in_app_or in I as [I|I]; [apply in_data_if in I as (_ & ->); injection P as <-; eexists; split; [reflexivity|reflexivity]|].
    apply in_app_or in I as [I|I]; [exact (low_nested "density" density_ops _ eq_refl low_density r x p I P)|].
    destruct (with_bias (w_probe w)); [exact (low_nested "bias" bias_ops _ eq_refl low_bias r x p I P)|destruct I].
  Qed.
  Lemma fits_spec n q : fits n q = true -> exists b a, q = b ++ [a; n] /\ other a = false.
  Proof.
    induction q as [|a [|b [|x q]] IH]; intros H; try discriminate H.
    - change (ends "weight_functions" a && String.eqb b n = true) in H. apply andb_true_iff in H as [E X]. apply String.eqb_eq in X as ->. exists [], a. split; [reflexivity|]. unfold other. rewrite E. reflexivity.
    - destruct (IH H) as (u & v & -> & O). exists (a :: u), v. auto.
  Qed.
  Lemma low_fits b a n t : low (b ++ a :: n :: t) = true -> other a = true.
  Proof.
    unfold low. intros H. rewrite forallb_forall in H. apply H. rewrite removelast_app by discriminate. apply in_or_app. right. left. reflexivity.
  Qed.
  Lemma class_key (p1 p2 : string) : In p1 weight_classes -> In p2 weight_classes -> comb_probes (comb_key p1 p2) = [p1; p2] /\ other (comb_key p1 p2) = true.
  Proof. intros A B. cbn in A, B. decompose [or] A; try contradiction; subst p1; decompose [or] B; try contradiction; subst p2; split; reflexivity. Qed.
  Lemma class_other (p : string) : In p weight_classes -> other p = true.
  Proof. intros A. cbn in A. decompose [or] A; try contradiction; subst p; reflexivity. Qed.

  Section Saved.
    Variables (c : spectra F) (W : string -> weight F).
    Hypothesis HA : assembled c W.
    Let steps := spectra_steps c [].

    Lemma spectrum_step_cases key s x : In (key, s) (cs_cls c) -> In x (spectrum_steps s ["cls"]) ->
      (exists o p, x = SOp o /\ op_path o = Some p /\ prefix ["cls"; key] p) \/
      (exists (p : string), In p [s_p1 s; s_p2 s] /\ x = SOnce (wplace p) (save_weight (W p) (wplace p))).
    Proof.
      destruct HA as (_ & HC & _). intros I J. destruct (HC key s I) as (-> & P1 & P2 & k & Ek). unfold spectrum_steps in J. rewrite Ek in J.
      apply in_app_or in J as [J|J].
      - left. apply in_map_iff in J as (o & <- & J). exists o. set (g := comb_key (s_p1 s) (s_p2 s)) in *.
        apply in_app_or in J as [[<-|[<-|[]]]|J]; try (eexists; split; [reflexivity|]; split; [reflexivity|]; eexists; reflexivity).
        apply in_data_if in J as (_ & ->). eexists; split; [reflexivity|]; split; [reflexivity|]; eexists; reflexivity.
      - apply in_app_or in J as [J|J].
        + left. apply in_map_iff in J as (o & <- & J). exists o. set (g := comb_key (s_p1 s) (s_p2 s)) in *. destruct J as [<-|J].
          * eexists; split; [reflexivity|]; split; [reflexivity|]; eexists; reflexivity.
          * unfold kernel_ops in J. cbn [app] in J. cbn [In] in J. decompose [or] J; try contradiction; subst o; (eexists; split; [reflexivity|]; split; [reflexivity|]; eexists; reflexivity).
        + right. destruct J as [<-|[<-|[]]]; [exists (s_p1 s)|exists (s_p2 s)]; (split; [cbn; tauto|reflexivity]).
    Qed.
    Lemma step_cases x : In x steps ->
      (exists o a t, x = SOp o /\ op_path o = Some (a :: t) /\ a <> "weight_functions" /\
         (a = "z_grid" \/ (a = "cls" /\ (t = [] \/ exists key, In key (dkeys (cs_cls c)) /\ prefix [key] t)))) \/
      (exists (p : string), In p (used c) /\ In p weight_classes /\ x = SOnce (wplace p) (save_weight (W p) (wplace p))).
    Proof.
      destruct HA as (ND & HC & HW & _). intros I. unfold steps, spectra_steps in I. apply in_app_or in I as [I|I].
      - left. apply in_map_iff in I as (o & <- & I). exists o. apply in_app_or in I as [I|[<-|[]]].
        + apply in_data_if in I as (_ & ->). do 2 eexists. split; [reflexivity|]. split; [reflexivity|]. split; [discriminate|]. left; reflexivity.
        + do 2 eexists. split; [reflexivity|]. split; [reflexivity|]. split; [discriminate|]. right. split; [reflexivity|left; reflexivity].
      - apply in_app_or in I as [I|I].
        + apply in_flat_map in I as ([key s] & Is & I). cbn [snd] in I. destruct I as [<-|I].
          * left. do 3 eexists. split; [reflexivity|]. split; [reflexivity|]. split; [discriminate|]. right. split; [reflexivity|left; reflexivity].
          * destruct (spectrum_step_cases key s x Is I) as [(o & p & -> & Po & (t & ->))|(p & Ip & ->)].
            -- left. exists o, "cls", (key :: t). split; [reflexivity|]. split; [exact Po|]. split; [discriminate|]. right. split; [reflexivity|]. right. exists key. split; [exact (in_map fst _ _ Is)|exists t; reflexivity].
            -- right. destruct (HC key s Is) as (_ & P1 & P2 & _). exists p. split; [|split; [|reflexivity]].
               ++ unfold used. apply in_or_app. left. apply in_flat_map. exists (key, s). split; [exact Is|exact Ip].
               ++ destruct Ip as [<-|[<-|[]]]; assumption.
        + right. apply in_map_iff in I as ([p w] & <- & I). cbn [fst snd]. destruct (HW p w I) as (Pp & ->). exists p. split; [|split; [exact Pp|reflexivity]].
          unfold used. apply in_or_app. right. exact (in_map fst _ _ I).
    Qed.
    Lemma used_step (p : string) : In p (used c) -> In p weight_classes /\ In (SOnce (wplace p) (save_weight (W p) (wplace p))) steps.
    Proof.
      destruct HA as (ND & HC & HW & _). unfold used. intros I. apply in_app_or in I as [I|I].
      - apply in_flat_map in I as ([key s] & Is & I). cbn [snd] in I. destruct (HC key s Is) as (Ekey & P1 & P2 & k & Ek). split; [destruct I as [<-|[<-|[]]]; assumption|].
        unfold steps, spectra_steps. apply in_or_app. right. apply in_or_app. left. apply in_flat_map. exists (key, s). split; [exact Is|]. right. cbn [snd].
        unfold spectrum_steps. rewrite Ek. apply in_or_app. right. apply in_or_app. right. destruct I as [<-|[<-|[]]]; cbn; tauto.
      - apply in_map_iff in I as ([p' w] & <- & I). cbn [fst]. destruct (HW p' w I) as (Pp & ->). split; [exact Pp|].
        unfold steps, spectra_steps. apply in_or_app. right. apply in_or_app. right. apply in_map_iff. exists (p', W p'). split; [reflexivity|exact I].
    Qed.
    Lemma wplace_apart (p q : string) : p <> q -> Forall (apart (wplace p)) (save_weight (W q) (wplace q)).
    Proof.
      intros N. unfold save_weight. assert (A : Forall (apart (["weight_functions"] ++ p :: [])) (OOpen (wplace q) :: weight_ops (W q) (wplace q))); [|exact A].
      apply (within_apart ["weight_functions"] _ q p [] []); [|congruence]. intros x t I P. destruct I as [<-|I].
      - injection P as <-. exists []. reflexivity.
      - exact (within_weight (W q) (wplace q) x t I P).
    Qed.

    Variables (meta : string * string) (h : hfile F).
    Hypothesis HS : save_steps meta (spectra_steps c) [] None = (Some h, Ok tt).
    Definition opened : hfile F := fst (run_ops (open_ops meta [] true) empty_file).
    Let m0 := done steps opened.
    Lemma opened_run : run_ops (open_ops meta [] true) empty_file = (opened, Ok tt).
    Proof. reflexivity. Qed.
    Lemma opened_nothing p : p <> [] -> hget opened p = None.
    Proof. intros N. destruct p as [|a p]; [congruence|]. reflexivity. Qed.
    Lemma saved_m0 : save meta (fun _ => m0) [] None = (Some h, Ok tt) /\ run_ops m0 opened = (h, Ok tt).
    Proof.
      unfold save_steps in HS. rewrite run_done in HS. fold steps in HS.
      rewrite (done_run (map SOp (open_ops meta [] true)) steps empty_file opened tt) in HS by (rewrite done_all; exact opened_run). rewrite done_all in HS. fold m0 in HS.
      split.
      - unfold save. destruct (run_ops _ _) as [h' x] in *. exact HS.
      - rewrite run_app, opened_run in HS. destruct (run_ops m0 opened) as [h' x]. injection HS as -> ->. reflexivity.
    Qed.
    Lemma all_stored : stored h [] m0.
    Proof. apply (save_stored meta (fun _ => m0) [] None h); [apply fresh_new|apply saved_m0]. Qed.
    Lemma wf_h : wf h.
    Proof. eapply (wf_save meta (fun _ => m0) [] None); [|apply saved_m0]. repeat constructor. intros []. Qed.
    Lemma weight_there (p : string) : In p (used c) -> stored h (wplace p) (weight_ops (W p) (wplace p)).
    Proof.
      intros U. destruct (used_step p U) as (Cp & Sp).
      destruct (done_once (wplace p) (save_weight (W p) (wplace p)) steps) with (h := opened) (h' := h) (u := tt) as (a & b & E & Fa & Fb).
      - discriminate.
      - left; reflexivity.
      - apply saved_m0.
      - unfold present. rewrite opened_nothing by discriminate. reflexivity.
      - intros o I t P. destruct (step_cases _ I) as [(o' & x & y & E & Po & Nx & _)|(q & _ & _ & E)]; [|discriminate]. injection E as <-. rewrite Po in P. injection P as -> _. congruence.
      - intros q n I. destruct (step_cases _ I) as [(o' & x & y & E & _)|(q' & _ & _ & E)]; [discriminate|]. injection E as -> ->.
        destruct (string_dec q' p) as [->|N]; [left; split; reflexivity|right]. split; [intros E; unfold wplace, weight_place in E; cbn in E; congruence|apply wplace_apart; congruence].
      - exact Sp.
      - change (stored h ([] ++ wplace p) (weight_ops (W p) (wplace p))). apply (nested_stored h [] m0 (wplace p) a (weight_ops (W p) (wplace p)) b); [discriminate|exact all_stored|exact E|exact Fa|exact Fb].
    Qed.
    Lemma weight_loaded (p : string) : In p (used c) -> exists w', load weight_rd (wplace p) (Some h) = Ok w' /\ weight_kept (W p) w'.
    Proof.
      intros U. destruct HA as (_ & _ & _ & HW). destruct (used_step p U) as (Cp & _). destruct (HW p Cp) as (Cw & NO).
      destruct (weight_stored (W p) h (wplace p) Cw NO (weight_there p U)) as (w' & L & A1 & A2 & A3 & A4 & A5 & _). exists w'. split; [exact L|]. repeat split; assumption.
    Qed.

    (** ** Where the operations are *)
    Definition spectrum_paths (g : path) : list path := [g ++ ["c_lij"]; g ++ ["l_bin_centers"]; g ++ ["kernel"]; g ++ ["kernel"; "z_grid"]; g ++ ["kernel"; "k_ijz"]].
    Lemma spectrum_ops key s o q : In (key, s) (cs_cls c) -> In (SOp o) (spectrum_steps s ["cls"]) -> op_path o = Some q ->
      In q (spectrum_paths ["cls"; key]) \/ (s_widths s <> VNone /\ q = ["cls"; key; "l_bin_widths"]).
    Proof.
      destruct HA as (_ & HC & _). intros I J P. destruct (HC key s I) as (-> & P1 & P2 & k & Ek). unfold spectrum_steps in J. rewrite Ek in J. cbn [app] in J.
      set (g := comb_key (s_p1 s) (s_p2 s)) in *. unfold spectrum_paths.
      apply in_app_or in J as [J|J].
      - apply in_map_iff in J as (o' & E & J). injection E as ->. destruct J as [<-|[<-|J]]; try (injection P as <-; cbn; tauto).
        apply in_data_if in J as (N & ->). injection P as <-. right. split; [exact N|reflexivity].
      - apply in_app_or in J as [J|J].
        + apply in_map_iff in J as (o' & E & J). injection E as ->. unfold kernel_ops in J. cbn [In app] in J. decompose [or] J; try contradiction; subst o; injection P as <-; cbn; tauto.
        + destruct J as [J|[J|[]]]; discriminate.
    Qed.
    Lemma m0_cases o q : In o m0 -> op_path o = Some q ->
      q = ["z_grid"] /\ cs_z c <> VNone \/ q = ["cls"] \/
      (exists key s, In (key, s) (cs_cls c) /\ (In q (spectrum_paths ["cls"; key]) \/ (s_widths s <> VNone /\ q = ["cls"; key; "l_bin_widths"]))) \/
      (exists (p : string) t, In p (used c) /\ In p weight_classes /\ q = wplace p ++ t /\ low t = true).
    Proof.
      destruct HA as (ND & HC & HW & _). intros I P. destruct (done_from _ _ _ I) as [J|(b & m & J & Im)].
      - unfold steps, spectra_steps in J. apply in_app_or in J as [J|J].
        + apply in_map_iff in J as (o' & E & J). injection E as ->. apply in_app_or in J as [J|[<-|[]]].
          * apply in_data_if in J as (N & ->). injection P as <-. left. split; [reflexivity|exact N].
          * injection P as <-. right; left. reflexivity.
        + apply in_app_or in J as [J|J].
          * apply in_flat_map in J as ([key s] & Is & J). cbn [snd] in J. destruct J as [J|J]; [injection J as <-; injection P as <-; right; left; reflexivity|].
            right; right; left. exists key, s. split; [exact Is|exact (spectrum_ops key s o q Is J P)].
          * apply in_map_iff in J as (x & E & _). discriminate E.
      - destruct (step_cases _ J) as [(o' & x & y & E & _)|(p & U & Cp & E)]; [discriminate|]. injection E as -> ->. right; right; right. exists p.
        destruct Im as [<-|Im]; [injection P as <-; exists []; rewrite app_nil_r; repeat split; assumption|].
        destruct (low_weight (W p) (wplace p) o q Im P) as (t & -> & L). exists t. repeat split; assumption.
    Qed.
    Lemma target_path (o : op F) q : target o = Some q -> op_path o = Some q.
    Proof. destruct o; cbn; try discriminate; auto. Qed.

    (** ** The group of a weight function is the only one found *)
    Lemma groups_In q : In q (groups h) <-> grp h q = true.
    Proof.
      unfold groups. rewrite in_flat_map. unfold grp, hget. split.
      - intros ([q' e] & I & J). cbn [snd fst] in J. destruct e as [d|d]; [|destruct J]. destruct J as [->|[]]. rewrite (dget_NoDup_In _ sl_eqb_spec h q (EG d) wf_h I). reflexivity.
      - destruct (dget sl_eqb h q) as [[d|d]|] eqn:E; try discriminate. intros _. apply (dget_In _ sl_eqb_spec) in E. exists (q, EG d). split; [exact E|left; reflexivity].
    Qed.
    Lemma found_only (p : string) q : grp h q = true -> fits p q = true -> q = wplace p.
    Proof.
      intros G T. destruct (fits_spec _ _ T) as (b & a & -> & O).
      destruct (grp_new _ _ _ _ _ (proj2 saved_m0) G) as [X|(o & q' & I & Tq & (t & ->) & _)].
      - unfold grp in X. rewrite opened_nothing in X by (destruct b; discriminate). discriminate X.
      - apply target_path in Tq. rewrite <- app_assoc in Tq. cbn [app] in Tq.
        assert (BAD : low (b ++ a :: p :: t) = true -> False) by (intros L; rewrite (low_fits b a p t L) in O; discriminate O).
        destruct (m0_cases _ _ I Tq) as [(E & _)|[E|[(key & s & Is & E)|(n & u & U & Cn & E & L)]]].
        + exfalso. apply BAD. rewrite E. reflexivity.
        + exfalso. apply BAD. rewrite E. reflexivity.
        + exfalso. apply BAD. destruct HA as (_ & HC & _). destruct (HC key s Is) as (Ek & P1 & P2 & _). pose proof (proj2 (class_key _ _ P1 P2)) as OK. rewrite <- Ek in OK.
          destruct E as [E|(_ & E)].
          * unfold spectrum_paths in E. cbn [In app] in E. decompose [or] E; try contradiction; match goal with H : _ = _ |- _ => rewrite <- H end; unfold low; cbn [removelast forallb]; rewrite OK; reflexivity.
          * rewrite E. unfold low; cbn [removelast forallb]; rewrite OK; reflexivity.
        + destruct b as [|x b]; [cbn in E; injection E as -> -> _; reflexivity|]. cbn in E. injection E as -> E. exfalso.
          assert (L2 : low (b ++ a :: p :: t) = true) by (rewrite E; apply low_cons; [apply class_other; exact Cn|exact L]). rewrite (low_fits b a p t L2) in O. discriminate O.
    Qed.
    Lemma found (p : string) : In p (used c) -> find_weight h p = Ok (wplace p).
    Proof.
      intros U. unfold find_weight. assert (A : forall q, In q (filter (fits p) (isort path_leb (groups h))) <-> grp h q = true /\ fits p q = true).
      { intros q. rewrite filter_In, isort_In, groups_In. reflexivity. }
      destruct (filter (fits p) (isort path_leb (groups h))) as [|q l] eqn:E.
      - exfalso. apply (proj2 (A (wplace p))). split; [exact (st_root _ _ _ (weight_there p U))|]. unfold wplace, weight_place. cbn. rewrite String.eqb_refl. reflexivity.
      - destruct (proj1 (A q) (or_introl eq_refl)) as [G T]. rewrite (found_only p q G T). reflexivity.
    Qed.

    (** ** One spectrum *)
    Definition away (kp : path) (x : step F) : Prop := match x with SOp o => apart kp o | SOnce _ m => Forall (apart kp) m end.
    Lemma away_done kp l : Forall (away kp) l -> forall g, Forall (apart kp) (done l g).
    Proof.
      rewrite Forall_forall. intros A g. apply Forall_forall. intros o I. destruct (done_from _ _ _ I) as [J|(q & m & J & Im)]; [exact (A _ J)|].
      pose proof (A _ J) as X. cbn in X. rewrite Forall_forall in X. exact (X o Im).
    Qed.
    Lemma weight_away key (p : string) (w : weight F) q : Forall (apart ("cls" :: key)) (save_weight w (wplace p)) /\ away ("cls" :: key) (SOnce q (save_weight w (wplace p))).
    Proof.
      assert (A : Forall (apart ("cls" :: key)) (save_weight w (wplace p))); [|split; exact A]. apply Forall_forall. intros o I u P. destruct I as [<-|I]; [discriminate P|].
      destruct (within_weight w (wplace p) o _ I P) as (t & E). discriminate E.
    Qed.
    Lemma others_away key l kp : (forall ks, In ks l -> In ks (cs_cls c)) -> ~ In key (dkeys l) ->
      Forall (away ("cls" :: key :: "kernel" :: kp)) (flat_map (fun ks => SOp (OOpen ["cls"]) :: spectrum_steps (snd ks) ["cls"]) l).
    Proof.
      intros SUB N. apply Forall_forall. intros x I. apply in_flat_map in I as ([key' s'] & Is & I). cbn [snd] in I. destruct I as [<-|I]; [intros u P; discriminate P|].
      destruct (spectrum_step_cases key' s' x (SUB _ Is) I) as [(o & q & -> & Po & (t & ->))|(p & _ & ->)].
      - intros u P. rewrite Po in P. injection P as -> _. apply N. exact (in_map fst _ _ Is).
      - apply weight_away.
    Qed.
    Lemma kernel_there key s k ws : In (key, s) (cs_cls c) -> s_kernel s = Some (k, ws) -> stored h ["cls"; key; "kernel"] (kernel_ops k ["cls"; key; "kernel"]).
    Proof.
      pose proof HA as (ND & HC & HW & _). intros I Ek. destruct (in_split _ _ I) as (l1 & l2 & E). destruct (HC key s I) as (Ekey & P1 & P2 & k' & Ek'). rewrite Ek in Ek'. injection Ek' as -> ->.
      assert (N : ~ In key (dkeys l1) /\ ~ In key (dkeys l2)).
      { unfold dkeys in ND. rewrite E, map_app in ND. cbn [map fst] in ND. apply NoDup_remove_2 in ND. split; intros X; apply ND, in_or_app; auto. }
      set (kp := ["cls"; key; "kernel"]).
      set (f := fun ks : string * spectrum F => SOp (OOpen ["cls"]) :: spectrum_steps (snd ks) ["cls"]).
      set (A := map SOp (data_if ["z_grid"] (cs_z c) ++ [OGroup ["cls"]]) ++ flat_map f l1 ++ SOp (OOpen ["cls"]) ::
                map SOp ([OData ["cls"; key; "c_lij"] (s_cl s); OData ["cls"; key; "l_bin_centers"] (s_ells s)] ++ data_if ["cls"; key; "l_bin_widths"] (s_widths s))).
      set (B := OOpen kp :: kernel_ops k' kp).
      set (C := [SOnce (wplace (s_p1 s)) (save_weight (W (s_p1 s)) (wplace (s_p1 s))); SOnce (wplace (s_p2 s)) (save_weight (W (s_p2 s)) (wplace (s_p2 s)))] ++ flat_map f l2 ++
                map (fun pw => SOnce (weight_place [] (fst pw)) (save_weight (snd pw) (weight_place [] (fst pw)))) (cs_weights c)).
      assert (ES : steps = A ++ map SOp B ++ C).
      { unfold steps, spectra_steps. rewrite E. change (fun ks : string * spectrum F => SOp (OOpen ([] ++ ["cls"])) :: spectrum_steps (snd ks) ([] ++ ["cls"])) with f.
        rewrite flat_map_app. cbn [flat_map]. unfold f at 2. cbn [snd]. unfold spectrum_steps. rewrite Ek, <- Ekey. unfold A, B, C, kp. cbn [app]. rewrite !map_app. rewrite <- !app_assoc. cbn [app map]. rewrite <- !app_assoc. cbn [app map]. rewrite <- !app_assoc. reflexivity. }
      destruct (done_app A (map SOp B ++ C) opened) as (h1 & E1). destruct (done_ops B C h1) as (h2 & E2).
      change (stored h ([] ++ kp) (kernel_ops k' kp)). apply (nested_stored h [] m0 kp (done A opened) (kernel_ops k' kp) (done C h2)).
      - discriminate.
      - exact all_stored.
      - unfold m0. rewrite ES, E1, E2. reflexivity.
      - apply away_done. unfold A. apply Forall_app. split; [|apply Forall_app; split; [|constructor]].
        + apply Forall_forall. intros x J. apply in_map_iff in J as (o & <- & J). apply in_app_or in J as [J|[<-|[]]]; [apply in_data_if in J as (_ & ->)|]; intros u P; discriminate P.
        + apply others_away; [intros ks J; rewrite E; apply in_or_app; left; exact J|apply N].
        + intros u P. discriminate P.
        + apply Forall_forall. intros x J. apply in_map_iff in J as (o & <- & J). apply in_app_or in J as [[<-|[<-|[]]]|J]; [| |apply in_data_if in J as (_ & ->)]; intros u P; discriminate P.
      - apply away_done. unfold C. apply Forall_app. split; [|apply Forall_app; split].
        + constructor; [apply weight_away|]. constructor; [apply weight_away|constructor].
        + apply others_away; [intros ks J; rewrite E; apply in_or_app; right; right; exact J|apply N].
        + apply Forall_forall. intros x J. apply in_map_iff in J as ([p w] & <- & J). apply weight_away.
    Qed.
    Lemma spectrum_op_in key s o : In (key, s) (cs_cls c) -> In (SOp o) (spectrum_steps s ["cls"]) -> In o m0.
    Proof.
      intros I J. apply done_ops_in. unfold steps, spectra_steps. apply in_or_app. right. apply in_or_app. left. apply in_flat_map. exists (key, s). split; [exact I|]. right. exact J.
    Qed.
    Lemma cls_group : grp h ["cls"] = true.
    Proof.
      apply (st_grp _ _ _ all_stored ["cls"]). apply done_ops_in. unfold steps, spectra_steps. apply in_or_app. left. apply in_map. apply in_or_app. right. left. reflexivity.
    Qed.
    Lemma key_once key s s' : In (key, s) (cs_cls c) -> In (key, s') (cs_cls c) -> s = s'.
    Proof.
      destruct HA as (ND & _). intros A B. apply (dget_NoDup_In _ String.eqb_spec _ _ _ ND) in A, B. congruence.
    Qed.
    Lemma spectrum_loaded key s : In (key, s) (cs_cls c) -> exists s', load (spectrum_rd (s_p1 s) (s_p2 s)) ["cls"] (Some h) = Ok s' /\ spectrum_kept s s'.
    Proof.
      intros I. pose proof HA as (ND & HC & HW & _). destruct (HC key s I) as (Ekey & P1 & P2 & k & Ek).
      assert (U1 : In (s_p1 s) (used c) /\ In (s_p2 s) (used c)).
      { unfold used. split; apply in_or_app; left; apply in_flat_map; exists (key, s); (split; [exact I|cbn; tauto]). }
      destruct U1 as [U1 U2]. rewrite (load_open _ _ _ cls_group). unfold spectrum_rd. rewrite <- Ekey. cbn [app].
      assert (D : forall n v, In (SOp (OData ["cls"; key; n] v)) (spectrum_steps s ["cls"]) -> rd_data h ["cls"; key; n] = Ok v /\ present h ["cls"; key; n] = true).
      { intros n v J. apply (st_data _ _ _ all_stored ["cls"; key; n] v). exact (spectrum_op_in key s _ I J). }
      assert (SS : forall x, In x ([OData ["cls"; key; "c_lij"] (s_cl s); OData ["cls"; key; "l_bin_centers"] (s_ells s)] ++ data_if ["cls"; key; "l_bin_widths"] (s_widths s)) -> In (SOp x) (spectrum_steps s ["cls"])).
      { intros x J. unfold spectrum_steps. rewrite <- Ekey. apply in_or_app. left. apply in_map. exact J. }
      destruct (D "c_lij" (s_cl s)) as [-> _]; [apply SS; left; reflexivity|]. destruct (D "l_bin_centers" (s_ells s)) as [-> _]; [apply SS; right; left; reflexivity|]. cbn [rbind].
      assert (DW : (if present h ["cls"; key; "l_bin_widths"] then rd_data h ["cls"; key; "l_bin_widths"] else Ok VNone) = Ok (s_widths s)).
      { destruct (is_none (s_widths s)) eqn:NW.
        - assert (V : s_widths s = VNone) by (destruct (s_widths s); try discriminate NW; reflexivity). rewrite V. unfold present.
          pose proof (st_absent _ _ _ all_stored ["cls"; key; "l_bin_widths"]) as X. cbn [app] in X. rewrite X; [reflexivity|discriminate|]. intros o q J T (t & Eq). apply target_path in T. subst q. cbn [app] in T.
          destruct (m0_cases _ _ J T) as [(E & _)|[E|[(key' & s' & Is & E)|(p & u & _ & _ & E & _)]]]; try discriminate E.
          destruct E as [E|(N & E)].
          + unfold spectrum_paths in E. cbn [In app] in E. decompose [or] E; try contradiction; discriminate.
          + injection E as -> _. rewrite <- (key_once _ _ _ I Is) in N. congruence.
        - destruct (D "l_bin_widths" (s_widths s)) as [-> ->]; [|reflexivity]. apply SS. apply in_or_app. right. apply in_data_if. split; [|reflexivity]. intros X. rewrite X in NW. discriminate NW. }
      rewrite DW. cbn [rbind].
      pose proof (kernel_there key s k _ I Ek) as SK. assert (PK : present h ["cls"; key; "kernel"] = true).
      { pose proof (st_root _ _ _ SK) as G. unfold grp in G. unfold present. destruct (hget h ["cls"; key; "kernel"]); [reflexivity|discriminate]. }
      rewrite PK. destruct (kernel_stored h k _ SK) as (k' & -> & _ & Kk & _). cbn [rbind]. rewrite (found _ U1), (found _ U2). cbn [rbind].
      destruct (weight_loaded _ U1) as (w1 & -> & K1). destruct (weight_loaded _ U2) as (w2 & -> & K2). cbn [rbind].
      eexists. split; [reflexivity|]. unfold spectrum_kept. cbn [s_p1 s_p2 s_cl s_ells s_widths s_kernel]. repeat split. exists k, (W (s_p1 s)), (W (s_p2 s)), k', w1, w2. auto.
    Qed.

    (** ** The collection *)
    Lemma cls_children : Permutation (children h ["cls"]) (dkeys (cs_cls c)).
    Proof.
      pose proof HA as (ND & HC & _). apply NoDup_Permutation; [apply children_NoDup, wf_h|exact ND|]. intros key. rewrite children_In. split.
      - intros N. destruct (in_dec string_dec key (dkeys (cs_cls c))) as [I|I]; [exact I|]. exfalso. apply N. cbn [app].
        pose proof (st_absent _ _ _ all_stored ["cls"; key]) as X. cbn [app] in X. apply X; [discriminate|]. intros o q J T (t & Eq). apply target_path in T. subst q. cbn [app] in T.
        destruct (m0_cases _ _ J T) as [(E & _)|[E|[(key' & s' & Is & E)|(p & u & _ & _ & E & _)]]]; try discriminate E. apply I.
        assert (key' = key) as <-; [|exact (in_map fst _ _ Is)]. destruct E as [E|(_ & E)]; [|congruence]. unfold spectrum_paths in E. cbn [In app] in E. decompose [or] E; try contradiction; congruence.
      - intros I. apply in_map_iff in I as ([key' s] & <- & I). cbn [fst app]. destruct (HC key' s I) as (_ & _ & _ & k & Ek). pose proof (kernel_there key' s k _ I Ek) as SK.
        assert (G : grp h ["cls"; key'] = true).
        { apply (st_open _ _ _ all_stored ["cls"; key'] ["kernel"]); [discriminate|]. apply (spectrum_op_in key' s); [exact I|]. unfold spectrum_steps. rewrite Ek. destruct (HC key' s I) as (<- & _).
          apply in_or_app. right. apply in_or_app. left. apply in_map. left. reflexivity. }
        unfold grp in G. destruct (hget h ["cls"; key']); [discriminate|discriminate G].
    Qed.
    Lemma weights_read : exists x, (if present h ["weight_functions"] then rmapM (fun n => load weight_rd (weight_place [] n) (Some h)) (children h ["weight_functions"]) else Ok []) = Ok x.
    Proof.
      destruct (present h ["weight_functions"]); [|eexists; reflexivity].
      assert (A : forall n, In n (children h ["weight_functions"]) -> exists w, load weight_rd (weight_place [] n) (Some h) = Ok w).
      { intros n I. apply children_In in I. assert (U : In n (used c)).
        { destruct (in_dec string_dec n (used c)) as [U|U]; [exact U|]. exfalso. apply I. cbn [app]. pose proof (st_absent _ _ _ all_stored ["weight_functions"; n]) as X. cbn [app] in X. apply X; [discriminate|].
          intros o q J T (t & Eq). apply target_path in T. subst q. cbn [app] in T. destruct (m0_cases _ _ J T) as [(E & _)|[E|[(key' & s' & Is & E)|(p & u & Up & _ & E & _)]]]; try discriminate E.
          - destruct E as [E|(_ & E)]; [|discriminate E]. unfold spectrum_paths in E. cbn [In app] in E. decompose [or] E; try contradiction; discriminate.
          - cbn in E. injection E as <- _. exact (U Up). }
        destruct (weight_loaded n U) as (w & L & _). exists w. exact L. }
      induction (children h ["weight_functions"]) as [|n l IH]; [eexists; reflexivity|]. cbn [rmapM]. destruct (A n (or_introl eq_refl)) as (w & ->). destruct IH as (x & ->); [intros m I; apply A; right; exact I|]. eexists. reflexivity.
    Qed.
    Lemma z_read : (if present h ["z_grid"] then rd_data h ["z_grid"] else if present h ["z_array"] then rd_data h ["z_array"] else Ok VNone) = Ok (cs_z c).
    Proof.
      assert (NO : forall n, n <> "cls" -> n <> "weight_functions" -> (n = "z_grid" -> cs_z c = VNone) -> present h [n] = false).
      { intros n N1 N2 N3. unfold present. pose proof (st_absent _ _ _ all_stored [n]) as X. cbn [app] in X. rewrite X; [reflexivity|discriminate|].
        intros o q J T (t & Eq). apply target_path in T. subst q. cbn [app] in T. destruct (m0_cases _ _ J T) as [(E & Z)|[E|[(key' & s' & Is & E)|(p & u & Up & _ & E & _)]]].
        - injection E as -> _. exact (Z (N3 eq_refl)).
        - injection E as -> _. exact (N1 eq_refl).
        - destruct E as [E|(_ & E)]; [|injection E as -> _; exact (N1 eq_refl)]. unfold spectrum_paths in E. cbn [In app] in E. decompose [or] E; try contradiction; congruence.
        - cbn in E. congruence. }
      destruct (is_none (cs_z c)) eqn:NZ.
      - assert (V : cs_z c = VNone) by (destruct (cs_z c); try discriminate NZ; reflexivity). rewrite !NO, V by (try discriminate; auto). reflexivity.
      - assert (I : In (OData ["z_grid"] (cs_z c)) m0).
        { apply done_ops_in. unfold steps, spectra_steps. apply in_or_app. left. apply in_map. apply in_or_app. left. apply in_data_if. split; [intros V; rewrite V in NZ; discriminate NZ|reflexivity]. }
        destruct (st_data _ _ _ all_stored ["z_grid"] (cs_z c) I) as [A B]. cbn [app] in A, B. rewrite A, B. reflexivity.
    Qed.
    Definition reads (acc : res (dict string (spectrum F) * dict string (weight F))) (n : string) :=
      a <- acc ;;
      match comb_probes n with
      | [p1; p2] =>
          s <- load (spectrum_rd p1 p2) ["cls"] (Some h) ;;
          d <- note_weight (snd a) p1 (the_weight s false) ;;
          d <- note_weight d p2 (the_weight s true) ;;
          Ok (dset String.eqb (fst a) n s, d)
      | _ => Err EValueError
      end.
    Definition good (l : list string) (a : dict string (spectrum F) * dict string (weight F)) : Prop :=
      Permutation (dkeys (fst a)) l /\ (forall key s', In (key, s') (fst a) -> exists s, In (key, s) (cs_cls c) /\ spectrum_kept s s') /\
      NoDup (dkeys (snd a)) /\ (forall p : string, In p (dkeys (snd a)) <-> exists key s, In key l /\ In (key, s) (cs_cls c) /\ In p [s_p1 s; s_p2 s]) /\
      (forall (p : string) w, In (p, w) (snd a) -> weight_kept (W p) w).
    Lemma note_spec (d : dict string (weight F)) (p : string) w : NoDup (dkeys d) -> (forall (q : string) x, In (q, x) d -> weight_kept (W q) x) -> weight_kept (W p) w ->
      exists d', note_weight d p (Ok w) = Ok d' /\ NoDup (dkeys d') /\ (forall q : string, In q (dkeys d') <-> In q (dkeys d) \/ q = p) /\ (forall (q : string) x, In (q, x) d' -> weight_kept (W q) x).
    Proof.
      intros ND A B. unfold note_weight, dmem. destruct (dget String.eqb d p) as [x|] eqn:M.
      - exists d. split; [reflexivity|]. split; [exact ND|]. split; [|exact A]. apply (dget_In _ String.eqb_spec) in M. intros q. split; [auto|intros [X| ->]; [exact X|exact (in_map fst _ _ M)]].
      - apply (dget_None _ String.eqb_spec) in M. eexists. split; [reflexivity|]. rewrite (dset_added _ _ _ M). unfold dkeys in *. rewrite map_app. cbn [map fst]. split; [apply (Permutation_NoDup (Permutation_cons_append _ _)); constructor; assumption|]. split.
        + intros q. rewrite in_app_iff. cbn. intuition congruence.
        + intros q x I. apply in_app_or in I as [I|[I|[]]]; [exact (A _ _ I)|]. injection I as <- <-. exact B.
    Qed.
    Lemma reads_good l : forall done_ a, good done_ a -> NoDup (done_ ++ l) -> (forall n, In n l -> In n (dkeys (cs_cls c))) -> exists a', fold_left reads l (Ok a) = Ok a' /\ good (done_ ++ l) a'.
    Proof.
      pose proof HA as (NDc & HC & _). induction l as [|n l IH]; intros dn a G ND SUB; [exists a; split; [reflexivity|rewrite app_nil_r; exact G]|].
      destruct (proj1 (in_map_iff _ _ _) (SUB n (or_introl eq_refl))) as ([n' s] & E & I). cbn [fst] in E. subst n'. destruct (HC n s I) as (En & P1 & P2 & _).
      destruct (spectrum_loaded n s I) as (s' & L & KP). 
      pose proof KP as (_ & _ & _ & _ & _ & k & w1 & w2 & k' & w1' & w2' & Ek & Ek' & _ & K1 & K2).
      destruct (HC n s I) as (_ & _ & _ & k0 & Ek0). rewrite Ek0 in Ek. injection Ek as <- <- <-.
      destruct G as (G1 & G2 & G3 & G4 & G5).
      destruct (note_spec (snd a) (s_p1 s) w1' G3 G5 K1) as (d1 & E1 & N1 & M1 & B1). destruct (note_spec d1 (s_p2 s) w2' N1 B1 K2) as (d2 & E2 & N2 & M2 & B2).
      assert (R : reads (Ok a) n = Ok (dset String.eqb (fst a) n s', d2)).
      { unfold reads. cbn [rbind]. replace (comb_probes n) with [s_p1 s; s_p2 s] by (rewrite En; symmetry; apply (class_key _ _ P1 P2)). rewrite L. unfold the_weight. cbn [rbind]. rewrite Ek'. rewrite E1. cbn [rbind]. rewrite E2. reflexivity. }
      cbn [fold_left]. rewrite R.
      replace (dn ++ n :: l) with ((dn ++ [n]) ++ l) by (rewrite <- app_assoc; reflexivity).
      apply IH; [|rewrite <- app_assoc; exact ND|intros m J; apply SUB; right; exact J].
      assert (FR : ~ In n dn) by (apply NoDup_remove_2 in ND; intros X; apply ND, in_or_app; auto).
      assert (FR' : ~ In n (dkeys (fst a))) by (intros X; apply FR; eapply Permutation_in; [exact G1|exact X]).
      unfold good. cbn [fst snd]. split; [|split; [|split; [exact N2|split; [|exact B2]]]].
      - rewrite (dset_added _ _ _ FR'). unfold dkeys. rewrite map_app. apply Permutation_app_tail. exact G1.
      - intros key x J. rewrite (dset_added _ _ _ FR') in J. apply in_app_or in J as [J|[J|[]]]; [exact (G2 _ _ J)|]. injection J as <- <-. exists s; split; assumption.
      - intros p. rewrite M2, M1, G4. split.
        + intros [[(key & t & A & B & C)| ->]| ->]; [exists key, t; split; [apply in_or_app; auto|auto]| |]; exists n, s; (split; [apply in_or_app; right; left; reflexivity|]; split; [exact I|cbn; tauto]).
        + intros (key & t & A & B & C). apply in_app_or in A as [A|[<-|[]]]; [left; left; exists key, t; auto|]. rewrite (key_once _ _ _ B I) in C. destruct C as [<-|[<-|[]]]; auto.
    Qed.
  End Saved.

  (** A collection saved to a new file is loaded as it was: the same spectra
      under the same keys, with their kernels, and the weight functions of the
      probes that occur in them. *)
  Theorem C96_round_trip meta c W h : assembled c W -> save_steps meta (spectra_steps c) [] None = (Some h, Ok tt) ->
    exists c', load spectra_rd [] (Some h) = Ok c' /\ cs_z c' = cs_z c /\ Permutation (dkeys (cs_cls c')) (dkeys (cs_cls c)) /\
      (forall key s', In (key, s') (cs_cls c') -> exists s, In (key, s) (cs_cls c) /\ spectrum_kept s s') /\
      NoDup (dkeys (cs_weights c')) /\ (forall p : string, In p (dkeys (cs_weights c')) <-> exists key s, In (key, s) (cs_cls c) /\ (p = s_p1 s \/ p = s_p2 s)) /\
      (forall (p : string) w, In (p, w) (cs_weights c') -> weight_kept (W p) w).
  Proof.
    intros HA HS. rewrite (load_open _ _ _ (st_root _ _ _ (all_stored c meta h HS))). unfold spectra_rd. cbn [app]. rewrite (z_read c W HA meta h HS). cbn [rbind].
    destruct (weights_read c W HA meta h HS) as (x & ->). cbn [rbind]. pose proof (cls_group c meta h HS) as CG. unfold grp in CG. destruct (hget h ["cls"]) as [[|]|]; try discriminate CG.
    pose proof (cls_children c W HA meta h HS) as PC.
    destruct (reads_good c W HA meta h HS (children h ["cls"]) [] ([], [])) as (a & E & G1 & G2 & G3 & G4 & G5).
    - split; [constructor|]. split; [intros key s' []|]. split; [constructor|]. split; [|intros p w []]. intros p. split; [intros []|intros (key & s & [] & _)].
    - cbn [app]. eapply Permutation_NoDup; [apply Permutation_sym; exact PC|apply HA].
    - intros n I. eapply Permutation_in; [exact PC|exact I].
    - match type of E with ?x = _ => match goal with |- context [fold_left ?f ?l ?i] => change (fold_left f l i) with x end end. rewrite E. cbn [rbind]. eexists. split; [reflexivity|]. cbn [cs_z cs_cls cs_weights]. split; [reflexivity|]. split; [cbn [app] in G1; rewrite G1; exact PC|]. split; [exact G2|]. split; [exact G3|]. split; [|exact G5].
      intros p. rewrite G4. split.
      + intros (key & s & _ & I & J). exists key, s. split; [exact I|]. destruct J as [<-|[<-|[]]]; auto.
      + intros (key & s & I & J). exists key, s. split; [cbn [app]; eapply Permutation_in; [apply Permutation_sym; exact PC|exact (in_map fst _ _ I)]|]. split; [exact I|]. destruct J as [->| ->]; cbn; tauto.
  Qed.
End P.
