(** C96: comparison of loaded spectra; files that do not give back what was saved. *)
From Coq Require Import Permutation Field.
From Verif Require Import Base SortLib StrLib FrameModel FrameLemmas FsModel ParamModel ParamFileModel KeyModel NameModel NameLemmas H5Model H5Lemmas H5Lemmas2 H5Lemmas3 H5Props H5Props2 H5Props3 H5Props4 H5Props5 SpectraModel SpectraLemmas SpectraProps.
Open Scope string_scope.
Open Scope list_scope.

Section P.
  Context {F : Type} {K : Fld F}.
  Implicit Types (h : hfile F) (c : spectra F) (s : spectrum F) (w : weight F).

  Definition finite_spectrum s : Prop := no_nan (s_cl s) /\ no_nan (s_ells s) /\ no_nan (s_widths s).
  Lemma data_there meta c W h key s : assembled c W -> save_steps meta (spectra_steps c) [] None = (Some h, Ok tt) -> In (key, s) (cs_cls c) ->
    forall v, In v [s_cl s; s_ells s; s_widths s] -> v = VNone \/ exists d, to_data v = Ok d.
  Proof.
    intros HA HS I v J. destruct (is_none v) eqn:N; [left; destruct v; try discriminate N; reflexivity|right].
    assert (V : v <> VNone) by (intros ->; discriminate N). pose proof HA as (_ & HC & _). destruct (HC key s I) as (Ekey & _ & _ & k & Ek).
    assert (X : exists n, In (SOp (OData ["cls"; key; n] v)) (spectrum_steps s ["cls"])).
    { unfold spectrum_steps. rewrite <- Ekey. destruct J as [<-|[<-|[<-|[]]]]; [exists "c_lij"|exists "l_bin_centers"|exists "l_bin_widths"]; apply in_or_app; left; apply in_map; [left; reflexivity|right; left; reflexivity|].
      apply in_or_app. right. apply in_data_if. split; [exact V|reflexivity]. }
    destruct X as (n & X). apply (spectrum_op_in c meta key s _ I) in X. destruct (st_dat _ _ _ (all_stored c meta h HS) ["cls"; key; n] v X) as (d & T & _). exists d. exact T.
  Qed.
  Lemma all_true {A} (f : A -> res bool) l : (b <- rmapM f l ;; Ok (all_ok b)) = Ok true <-> forall x, In x l -> f x = Ok true.
  Proof.
    induction l as [|x l IH]; [split; [intros _ x []|reflexivity]|]. cbn [rmapM]. destruct (f x) as [b|e] eqn:E; cbn [rbind].
    - destruct (rmapM f l) as [bs|e] eqn:R; cbn [rbind] in *.
      + change (all_ok (b :: bs)) with (b && all_ok bs). split.
        * intros X. injection X as X. apply andb_true_iff in X as [-> X]. intros y [<-|I]; [exact E|]. apply IH; [rewrite X; reflexivity|exact I].
        * intros X. pose proof (X x (or_introl eq_refl)) as Z. rewrite E in Z. injection Z as ->. cbn [andb]. apply IH. intros y I. apply X. right. exact I.
      + split; [discriminate|]. intros X. apply IH. intros y I. apply X. right. exact I.
    - split; [discriminate|]. intros X. rewrite (X x (or_introl eq_refl)) in E. discriminate E.
  Qed.
  Lemma self_data v : v = VNone \/ (exists d, to_data v = Ok d) -> (veq v v = Ok true <-> no_nan v).
  Proof. intros [->|(d & T)]; [split; [intros _ a X; discriminate X|reflexivity]|exact (self_iff v d T)]. Qed.
  Lemma spectrum_self s s' : (forall v, In v [s_cl s; s_ells s; s_widths s] -> v = VNone \/ exists d, to_data v = Ok d) ->
    s_cl s' = s_cl s -> s_ells s' = s_ells s -> s_widths s' = s_widths s ->
    (spectrum_eq s s' = Ok true <-> finite_spectrum s) /\ (spectrum_eq s' s = Ok true <-> finite_spectrum s).
  Proof.
    intros D E1 E2 E3. assert (G : spectrum_eq s s = Ok true <-> finite_spectrum s).
    { unfold finite_spectrum, spectrum_eq. rewrite <- !self_data by (apply D; cbn; tauto). split.
      - destruct (veq (s_cl s) (s_cl s)) as [x|]; [|discriminate]. destruct (veq (s_ells s) (s_ells s)) as [y|]; [|discriminate]. destruct (veq (s_widths s) (s_widths s)) as [z|]; [|discriminate].
        cbn [rbind]. destruct x, y, z; try discriminate; auto.
      - intros (-> & -> & ->). reflexivity. }
    unfold spectrum_eq in *. rewrite E1, E2, E3. split; exact G.
  Qed.

  (** The loaded collection compares equal exactly if no value is NaN; both ways round. *)
  Theorem C96_equal meta c W h c' : assembled c W -> save_steps meta (spectra_steps c) [] None = (Some h, Ok tt) -> load spectra_rd [] (Some h) = Ok c' ->
    (spectra_eq c c' = Ok true <-> forall key s, In (key, s) (cs_cls c) -> finite_spectrum s) /\
    (spectra_eq c' c = Ok true <-> forall key s, In (key, s) (cs_cls c) -> finite_spectrum s).
  Proof.
    intros HA HS L. destruct (C96_round_trip meta c W h HA HS) as (c2 & L2 & _ & PK & KP & _). rewrite L in L2. injection L2 as <-.
    pose proof HA as (ND & _). assert (ND' : NoDup (dkeys (cs_cls c'))) by (eapply Permutation_NoDup; [apply Permutation_sym; exact PK|exact ND]).
    assert (G : forall key s s', In (key, s) (cs_cls c) -> In (key, s') (cs_cls c') -> (spectrum_eq s s' = Ok true <-> finite_spectrum s) /\ (spectrum_eq s' s = Ok true <-> finite_spectrum s)).
    { intros key s s' I J. destruct (KP key s' J) as (s2 & I2 & _ & _ & E1 & E2 & E3 & _).
      assert (s2 = s) as -> by (apply (dget_NoDup_In _ String.eqb_spec _ _ _ ND) in I, I2; congruence).
      apply spectrum_self; [exact (data_there meta c W h key s HA HS I)|assumption..]. }
    assert (T : forall key s, In (key, s) (cs_cls c) -> exists s', In (key, s') (cs_cls c')).
    { intros key s I. assert (X : In key (dkeys (cs_cls c'))) by (eapply Permutation_in; [apply Permutation_sym; exact PK|exact (in_map fst _ _ I)]).
      apply in_map_iff in X as ([k s'] & <- & X). exists s'. exact X. }
    unfold spectra_eq. rewrite !all_true. split; split.
    - intros X key s I. destruct (T key s I) as (s' & J). specialize (X (key, s) I). cbn [fst snd] in X. rewrite (dget_NoDup_In _ String.eqb_spec _ _ _ ND' J) in X. exact (proj1 (proj1 (G key s s' I J)) X).
    - intros X [key s] I. cbn [fst snd]. destruct (T key s I) as (s' & J). rewrite (dget_NoDup_In _ String.eqb_spec _ _ _ ND' J). exact (proj2 (proj1 (G key s s' I J)) (X key s I)).
    - intros X key s I. destruct (T key s I) as (s' & J). specialize (X (key, s') J). cbn [fst snd] in X. rewrite (dget_NoDup_In _ String.eqb_spec _ _ _ ND I) in X. exact (proj1 (proj2 (G key s s' I J)) X).
    - intros X [key s'] J. cbn [fst snd]. destruct (KP key s' J) as (s & I & _). rewrite (dget_NoDup_In _ String.eqb_spec _ _ _ ND I). exact (proj2 (proj2 (G key s s' I J)) (X key s I)).
  Qed.
  (** A collection with a spectrum that has no kernel is never saved without an error. *)
  Theorem C96_no_kernel meta c r st key s : In (key, s) (cs_cls c) -> s_kernel s = None -> exists e, snd (save_steps meta (spectra_steps c) r st) = Err e.
  Proof.
    intros I N. unfold save_steps. rewrite run_done. set (l := map SOp _ ++ _). set (h0 := match st with Some h => h | None => empty_file end).
    destruct (run_ops (done l h0) h0) as [h' [[]|e]] eqn:R; [|exists e; reflexivity]. exfalso. eapply (saved_ok_In _ EAttributeError _ _ _ R). apply done_ops_in. unfold l, spectra_steps.
    apply in_or_app. right. apply in_or_app. right. apply in_or_app. left. apply in_flat_map. exists (key, s). split; [exact I|]. right. cbn [snd]. unfold spectrum_steps. rewrite N. apply in_or_app. right. left. reflexivity.
  Qed.

  (** ** Examples *)
  Definition vec (x : F) : pv F := VArr (mkArr [1] [Some x]).
  Definition a_weight (p : string) (x : F) : weight F := mkWeight p (vec x) (vec x) None None.
  Definition a_kernel (p q : string) : obj F :=
    setattr (setattr (setattr (setattr new_kernel "probe1" (VStr p)) "probe2" (VStr q)) "z_grid" (vec fz)) "k_ijz" (vec fo).
  Definition a_spectrum (p q : string) (x : F) (w1 w2 : weight F) : spectrum F :=
    mkSpectrum p q (vec x) (vec fo) VNone (Some (a_kernel p q, (Some w1, Some w2))).
  Definition LL : string := "Lensing_Lensing".
  Definition LV : string := "Lensing_Void".
  Definition VV : string := "Void_Void".
  Example C96_instance : let W p := a_weight p fz in
    let c := mkSpectra (vec fo) [(LV, a_spectrum "Lensing" "Void" fz (W "Lensing") (W "Void")); (LL, a_spectrum "Lensing" "Lensing" fo (W "Lensing") (W "Lensing"))] [("Void", W "Void")] in
    assembled c W /\ exists h, save_steps ("t", "u") (spectra_steps c) [] None = (Some h, Ok tt).
  Proof.
    cbv zeta. split; [|eexists; reflexivity]. unfold assembled. cbn [cs_cls cs_weights]. split; [repeat constructor; cbn; intuition discriminate|]. split; [|split].
    - intros key s [E|[E|[]]]; injection E as <- <-; (split; [reflexivity|]); (split; [cbn; tauto|]); (split; [cbn; tauto|]); eexists; reflexivity.
    - intros p w [E|[]]. injection E as <- <-. split; [cbn; tauto|reflexivity].
    - intros p I. split; [exact I|]. intros o E. discriminate E.
  Qed.
  (** Spectra without kernels, as read from an external source, cannot be saved;
      the file left behind cannot be loaded. *)
  Theorem C96_no_kernel_refuted : forall meta : string * string, exists c h,
    save_steps meta (spectra_steps c) [] None = (Some h, Err EAttributeError) /\ load spectra_rd [] (Some h) = Err EAttributeError.
  Proof.
    intros meta. exists (mkSpectra (vec fo) [(LL, mkSpectrum "Lensing" "Lensing" (vec fz) (vec fo) VNone None)] []). eexists. split; reflexivity.
  Qed.
  (** Two weight functions for one probe: the first is kept for both spectra. *)
  Theorem C96_weights_refuted : forall meta : string * string, exists c h c' w w',
    save_steps meta (spectra_steps c) [] None = (Some h, Ok tt) /\ load spectra_rd [] (Some h) = Ok c' /\
    (exists s k u, dget String.eqb (cs_cls c) LL = Some s /\ s_kernel s = Some (k, (Some w, u))) /\
    (exists s k u, dget String.eqb (cs_cls c') LL = Some s /\ s_kernel s = Some (k, (Some w', u))) /\ w_bin w' <> w_bin w.
  Proof.
    intros meta. exists (mkSpectra (vec fo) [(LV, a_spectrum "Lensing" "Void" fz (a_weight "Lensing" fz) (a_weight "Void" fz)); (LL, a_spectrum "Lensing" "Lensing" fo (a_weight "Lensing" fo) (a_weight "Lensing" fo))] []).
    do 4 eexists. split; [reflexivity|]. split; [reflexivity|]. split; [do 3 eexists; split; reflexivity|]. split; [do 3 eexists; split; reflexivity|].
    cbn. intros E. injection E as E. exact (F_1_neq_0 fth (eq_sym E)).
  Qed.
  (** A second collection in the same file, elsewhere: its spectra are loaded
      with the weight functions of the first. *)
  Theorem C96_second_collection_refuted : forall meta : string * string, exists c1 c2 h1 h2 c' w w',
    save_steps meta (spectra_steps c1) ["x"] None = (Some h1, Ok tt) /\ save_steps meta (spectra_steps c2) ["y"] (Some h1) = (Some h2, Ok tt) /\
    load spectra_rd ["y"] (Some h2) = Ok c' /\ dget String.eqb (cs_weights c2) "Lensing" = Some w /\ dget String.eqb (cs_weights c') "Lensing" = Some w' /\
    dget String.eqb (cs_weights c1) "Lensing" = Some w' /\ w_bin w' <> w_bin w.
  Proof.
    intros meta. exists (mkSpectra (vec fo) [(LL, a_spectrum "Lensing" "Lensing" fo (a_weight "Lensing" fz) (a_weight "Lensing" fz))] [("Lensing", a_weight "Lensing" fz)]),
      (mkSpectra (vec fo) [(LL, a_spectrum "Lensing" "Lensing" fo (a_weight "Lensing" fo) (a_weight "Lensing" fo))] [("Lensing", a_weight "Lensing" fo)]).
    do 5 eexists. split; [reflexivity|]. split; [reflexivity|]. split; [reflexivity|]. split; [reflexivity|]. split; [reflexivity|]. split; [reflexivity|].
    cbn. intros E. injection E as E. exact (F_1_neq_0 fth (eq_sym E)).
  Qed.
  (** A weight function that no spectrum uses is written but not loaded. *)
  Theorem C96_unused_weight_refuted : forall meta : string * string, exists c h c',
    save_steps meta (spectra_steps c) [] None = (Some h, Ok tt) /\ load spectra_rd [] (Some h) = Ok c' /\
    dkeys (cs_weights c) = ["Void"; "Lensing"] /\ dkeys (cs_weights c') = ["Lensing"] /\ exists w, load weight_rd ["weight_functions"; "Void"] (Some h) = Ok w.
  Proof.
    intros meta. exists (mkSpectra (vec fo) [(LL, a_spectrum "Lensing" "Lensing" fo (a_weight "Lensing" fz) (a_weight "Lensing" fz))] [("Void", a_weight "Void" fz); ("Lensing", a_weight "Lensing" fz)]).
    do 2 eexists. split; [reflexivity|]. split; [reflexivity|]. split; [reflexivity|]. split; [reflexivity|]. eexists. reflexivity.
  Qed.
  (** The comparison looks only at the spectra of the first collection. *)
  Theorem C96_equal_refuted : exists c c', spectra_eq c c' = Ok true /\ spectra_eq c' c = Err EKeyError /\ dkeys (cs_cls c) <> dkeys (cs_cls c').
  Proof.
    exists (mkSpectra VNone [] []), (mkSpectra VNone [(LL, a_spectrum "Lensing" "Lensing" fo (a_weight "Lensing" fz) (a_weight "Lensing" fz))] []).
    split; [reflexivity|]. split; [reflexivity|discriminate].
  Qed.
End P.

Print Assumptions C96_round_trip.
Print Assumptions C96_equal.
Print Assumptions C96_no_kernel.
Print Assumptions C96_no_kernel_refuted.
Print Assumptions C96_weights_refuted.
Print Assumptions C96_second_collection_refuted.
Print Assumptions C96_unused_weight_refuted.
Print Assumptions C96_equal_refuted.
