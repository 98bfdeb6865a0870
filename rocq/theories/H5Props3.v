(** Bias functions and Delta C_l blocks (C69). *)
From Verif Require Import Base SortLib StrLib FrameModel FrameLemmas FsModel ParamModel ParamFileModel KeyModel H5Model H5Lemmas H5Lemmas2 H5Lemmas3 H5Props H5Props2.
Open Scope list_scope.

Section Props.
  Context {F : Type} {K : Fld F}.
  Implicit Types (o : obj F) (h : hfile F) (r : path) (st : option (hfile F)).

  (** ** DeltaCl *)
  Definition delta_arrays : list string := ["l_bin_centers"; "delta_c_lij"; "inv_delta_c_lij"; "l_bin_widths"; "noise_lij"; "c_lij"]%string.
  Ltac delta_in I := unfold delta_ops in I; cbv beta zeta in I; cbn [map flat_map app] in I; inv_in I.
  Lemma in_delta o r (x : op F) : In x (delta_ops o r) <->
    x = OAttr r "name" (getattr o "name") \/
    (exists n, In n ["probe_1"; "probe_2"]%string /\ getattr o n <> VNone /\ x = OAttr r n (getattr o n)) \/
    (exists n, In n ["l_bin_centers"; "delta_c_lij"]%string /\ x = OData (r ++ [n]) (getattr o n)) \/
    (exists n, In n ["inv_delta_c_lij"; "l_bin_widths"; "noise_lij"; "c_lij"]%string /\ getattr o n <> VNone /\ x = OData (r ++ [n]) (getattr o n)).
  Proof.
    unfold delta_ops. cbv beta zeta. rewrite !in_app_iff, !in_attr_if, in_map_iff, in_flat_map. cbn [In]. split.
    - intros [[<-|[]]|[[N ->]|[[N ->]|[(n & <- & I)|(n & I & J)]]]]; [left; reflexivity| | | |].
      + right. left. exists "probe_1"%string. auto.
      + right. left. exists "probe_2"%string. auto.
      + right. right. left. exists n. auto.
      + apply in_data_if in J as [N ->]. right. right. right. exists n. auto.
    - intros [->|[(n & I & N & ->)|[(n & I & ->)|(n & I & N & ->)]]].
      + auto.
      + destruct I as [<-|[<-|[]]]; auto.
      + right. right. right. left. exists n. auto.
      + right. right. right. right. exists n. rewrite in_data_if. auto.
  Qed.
  Lemma delta_data o r n v : In (OData (r ++ [n]) v) (delta_ops o r) -> In n delta_arrays /\ v = getattr o n.
  Proof.
    rewrite in_delta. intros [X|[(m & _ & _ & X)|[(m & I & X)|(m & I & _ & X)]]]; try discriminate X; injection X as X ->; apply app_inv_head in X; injection X as <-;
      (split; [cbn [In delta_arrays] in *; tauto|reflexivity]).
  Qed.
  Lemma delta_stored h o r : stored h r (delta_ops o r) -> exists o', load delta_rd r (Some h) = Ok o' /\
    (forall n, In n ("name" :: "probe_1" :: "probe_2" :: delta_arrays)%string -> getattr o' n = getattr o n) /\
    (forall n, In n ["forecast_config"; "fisher_config"]%string -> getattr o' n = VNone) /\
    (forall n, In n delta_arrays -> getattr o n <> VNone -> exists d, to_data (getattr o n) = Ok d).
  Proof.
    intros S. rewrite (load_open _ _ _ (st_root _ _ _ S)). unfold delta_rd.
    assert (NM : rd_attr h r "name" = Ok (getattr o "name")).
    { rewrite <- (app_nil_r r) at 1. eapply attr_read; [exact S|rewrite app_nil_r; apply in_delta; left; reflexivity| |reflexivity].
      rewrite app_nil_r. intros w I. apply in_delta in I. destruct I as [X|[(m & I & _ & X)|[(m & _ & X)|(m & _ & _ & X)]]]; try discriminate X; [injection X as ->; reflexivity|].
      exfalso. injection X as X _. cbn [In] in I. destruct I as [<-|[<-|[]]]; discriminate X. }
    assert (PB : forall n, In n ["probe_1"; "probe_2"]%string -> forall p, getattr p n = VNone ->
       forall m, getattr (optional_attr h r p n) m = if String.eqb n m then getattr o n else getattr p m).
    { intros n I p E m. unfold optional_attr.
      assert (U : forall w, In (OAttr r n w) (delta_ops o r) -> getattr o n <> VNone /\ w = getattr o n).
      { intros w J. apply in_delta in J. destruct J as [X|[(k & J & N & X)|[(k & _ & X)|(k & _ & _ & X)]]]; try discriminate X; [|injection X as <- ->; auto].
        injection X as X _. cbn [In] in I. subst n. destruct I as [X|[X|[]]]; discriminate X. }
      destruct (is_none (getattr o n)) eqn:Z.
      - assert (V : getattr o n = VNone) by (destruct (getattr o n); cbn in Z; congruence).
        assert (X : att h r n = None).
        { rewrite <- (app_nil_r r). apply (st_no_attr _ _ _ S); [rewrite app_nil_r; intros w J; destruct (U w J) as [J1 _]; congruence|].
          apply not_meta. cbn [In] in I. destruct I as [<-|[<-|[]]]; reflexivity. }
        unfold rd_attr. unfold att in X. rewrite V.
        destruct (hget h r) as [[d|]|]; try rewrite X; destruct (String.eqb_spec n m) as [->|]; auto.
      - apply is_none_false in Z. assert (R : rd_attr h r n = Ok (getattr o n)).
        { rewrite <- (app_nil_r r) at 1. eapply attr_read; [exact S|rewrite app_nil_r; apply in_delta; right; left; exists n; auto| |].
          - rewrite app_nil_r. intros w J. apply U, J.
          - cbn [In] in I. destruct I as [<-|[<-|[]]]; reflexivity. }
        rewrite R. apply getattr_set. }
    assert (OP : forall n, In n ["inv_delta_c_lij"; "l_bin_widths"; "noise_lij"; "c_lij"]%string -> forall p,
       optional h (r ++ [n]) p n = Ok (if is_none (getattr o n) then p else setattr p n (getattr o n))).
    { intros n I p. eapply opt_read; [exact S| |].
      - intros N. apply in_delta. right. right. right. exists n. auto.
      - intros N x q J Q (t & P). subst q. apply in_delta in J. destruct J as [->|[(m & _ & _ & ->)|[(m & J & ->)|(m & J & M & ->)]]]; try discriminate Q; cbn [target] in Q; injection Q as Q; paths.
        + cbn in Q. injection Q as -> _. cbn [In] in I, J. destruct J as [<-|[<-|[]]]; intuition discriminate.
        + cbn in Q. injection Q as -> _. contradiction. }
    rewrite NM. cbn [rbind].
    destruct (st_data _ _ _ S ["delta_c_lij"%string] (getattr o "delta_c_lij")) as [-> _]; [apply in_delta; right; right; left; eexists; split; [right; left; reflexivity|reflexivity]|]. cbn [rbind].
    destruct (st_data _ _ _ S ["l_bin_centers"%string] (getattr o "l_bin_centers")) as [-> _]; [apply in_delta; right; right; left; eexists; split; [left; reflexivity|reflexivity]|]. cbn [rbind fold_left].
    do 4 (rewrite OP by (cbn; tauto); cbn [rbind]). eexists. split; [reflexivity|].
    set (o1 := setattr (setattr (setattr new_delta "name" (getattr o "name")) "delta_c_lij" (getattr o "delta_c_lij")) "l_bin_centers" (getattr o "l_bin_centers")).
    assert (G1 : forall m, getattr o1 m = if smem m ["name"; "delta_c_lij"; "l_bin_centers"]%string then getattr o m else VNone).
    { intros m. unfold o1. rewrite !getattr_set. unfold smem. cbn [existsb]. rewrite (String.eqb_sym "l_bin_centers" m), (String.eqb_sym "delta_c_lij" m), (String.eqb_sym "name" m).
      destruct (String.eqb_spec m "l_bin_centers") as [->|]; [reflexivity|]. destruct (String.eqb_spec m "delta_c_lij") as [->|]; [reflexivity|].
      destruct (String.eqb_spec m "name") as [->|]; [reflexivity|]. cbn [orb]. unfold getattr, new_delta, blank, delta_fields. cbn [map dget].
      repeat match goal with |- context [String.eqb ?a m] => destruct (String.eqb a m); [reflexivity|] end. reflexivity. }
    set (o2 := optional_attr h r o1 "probe_1").
    assert (G2 : forall m, getattr o2 m = if smem m ["name"; "delta_c_lij"; "l_bin_centers"; "probe_1"]%string then getattr o m else VNone).
    { intros m. unfold o2. rewrite (PB "probe_1"%string) by (first [rewrite G1; reflexivity|cbn; tauto]). rewrite G1. unfold smem. cbn [existsb]. rewrite (String.eqb_sym "probe_1" m).
      destruct (String.eqb_spec m "probe_1") as [->|]; [reflexivity|]. reflexivity. }
    set (o3 := optional_attr h r o2 "probe_2").
    assert (G3 : forall m, getattr o3 m = if smem m ["name"; "delta_c_lij"; "l_bin_centers"; "probe_1"; "probe_2"]%string then getattr o m else VNone).
    { intros m. unfold o3. rewrite (PB "probe_2"%string) by (first [rewrite G2; reflexivity|cbn; tauto]). rewrite G2. unfold smem. cbn [existsb]. rewrite (String.eqb_sym "probe_2" m).
      destruct (String.eqb_spec m "probe_2") as [->|]; [reflexivity|]. reflexivity. }
    set (o4 := if is_none (getattr o "c_lij") then o3 else _). set (o5 := if is_none (getattr o "noise_lij") then o4 else _).
    set (o6 := if is_none (getattr o "l_bin_widths") then o5 else _).
    assert (G4 : forall m, getattr o4 m = if String.eqb "c_lij" m then getattr o "c_lij" else getattr o3 m) by (intros m; apply get_if; rewrite G3; reflexivity).
    assert (G5 : forall m, getattr o5 m = if String.eqb "noise_lij" m then getattr o "noise_lij" else getattr o4 m) by (intros m; apply get_if; rewrite G4, G3; reflexivity).
    assert (G6 : forall m, getattr o6 m = if String.eqb "l_bin_widths" m then getattr o "l_bin_widths" else getattr o5 m) by (intros m; apply get_if; rewrite G5, G4, G3; reflexivity).
    assert (G7 : forall m, getattr (if is_none (getattr o "inv_delta_c_lij") then o6 else setattr o6 "inv_delta_c_lij" (getattr o "inv_delta_c_lij")) m =
      if String.eqb "inv_delta_c_lij" m then getattr o "inv_delta_c_lij" else getattr o6 m) by (intros m; apply get_if; rewrite G6, G5, G4, G3; reflexivity).
    split; [|split].
    - intros n I. rewrite G7, G6, G5, G4, G3. cbn [delta_arrays In] in I. repeat (destruct I as [<-|I]; [reflexivity|]). destruct I.
    - intros n I. rewrite G7, G6, G5, G4, G3. cbn [In] in I. repeat (destruct I as [<-|I]; [reflexivity|]). destruct I.
    - intros n I N. destruct (st_dat _ _ _ S [n] (getattr o n)) as (d & T & _); [|eauto]. apply in_delta. cbn [delta_arrays In] in I |- *.
      destruct I as [<-|[<-|I]]; [right; right; left; eexists; split; [left; reflexivity|reflexivity]|right; right; left; eexists; split; [right; left; reflexivity|reflexivity]|].
      right. right. right. exists n. split; [tauto|auto].
  Qed.
  Theorem C69_delta_round_trip meta o r st h : fresh r st -> save meta (delta_ops o) r st = (Some h, Ok tt) ->
    exists o', load delta_rd r (Some h) = Ok o' /\
    (forall n, In n ("name" :: "probe_1" :: "probe_2" :: delta_arrays)%string -> getattr o' n = getattr o n) /\
    (forall n, In n ["forecast_config"; "fisher_config"]%string -> getattr o' n = VNone) /\
    (delta_eq o o' = Ok true <-> forall n, In n ["delta_c_lij"; "noise_lij"; "l_bin_centers"; "l_bin_widths"]%string -> no_nan (getattr o n)).
  Proof.
    intros FR SV. destruct (delta_stored h o r (save_stored _ _ _ _ _ FR SV)) as (o' & L & A & B & T). exists o'. split; [exact L|]. split; [exact A|]. split; [exact B|].
    assert (TN : forall n, In n delta_arrays -> (veq (getattr o n) (getattr o n) = Ok true <-> no_nan (getattr o n))).
    { intros n I. destruct (is_none (getattr o n)) eqn:E.
      - assert (V : getattr o n = VNone) by (destruct (getattr o n); cbn in E; congruence). rewrite V. split; [intros _ a X; discriminate X|reflexivity].
      - apply is_none_false in E. destruct (T n I E) as (d & Td). exact (self_iff _ _ Td). }
    assert (IN : forall n, In n ["delta_c_lij"; "noise_lij"; "l_bin_centers"; "l_bin_widths"]%string -> In n delta_arrays) by (intros n; cbn; tauto).
    unfold delta_eq. rewrite compare_attrs_iff. split.
    - intros C n I. apply TN; [auto|]. rewrite <- (A n) at 2 by (right; right; right; auto). apply C, I.
    - intros C n I. rewrite (A n) by (right; right; right; auto). apply TN; auto.
  Qed.

  (** ** Bias *)
  Lemma nums_read h r l s v : stored h r l -> (forall x, In x (nums_ops (r ++ s) v) -> In x l) -> In (OGroup (r ++ s)) l ->
    (forall (x : op F) n q, In x l -> target x = Some q -> prefix ((r ++ s) ++ [n]) q -> In x (nums_ops (r ++ s) v)) ->
    exists d d', v = VNums d /\ rd_nums h (r ++ s) = Ok d' /\ NoDup (dkeys d') /\ same_dict d d'.
  Proof.
    intros S J G U. destruct v as [| | | | |d|]; try (exfalso; exact (st_fail _ _ _ S EAttributeError (J _ (or_introl eq_refl)))).
    destruct (rd_nums_get h (r ++ s) d) as (d' & R & N & D).
    - apply (st_grp _ _ _ S), G.
    - intros n. rewrite <- app_assoc. destruct (dget String.eqb d n) as [x|] eqn:X.
      + apply (dget_In _ String.eqb_spec) in X. destruct (st_dat _ _ _ S (s ++ [n]) (VNum x)) as (y & Y & D); [|injection Y as <-; apply dat_hget, D].
        apply J. rewrite app_assoc. cbn [nums_ops]. apply in_map_iff. exists (n, x). auto.
      + apply (st_absent _ _ _ S); [destruct s; discriminate|]. intros q p I Q P. rewrite app_assoc in P. pose proof (U _ _ _ I Q P) as I1. cbn [nums_ops] in I1.
        apply in_map_iff in I1 as ([k y] & <- & I1). cbn [target fst] in Q. injection Q as <-. destruct P as (t & P). rewrite <- !app_assoc in P. apply app_inv_head, app_inv_head in P.
        cbn in P. injection P as -> _. apply (dget_None _ String.eqb_spec) in X. apply X. apply in_map with (f := fst) in I1. exact I1.
    - exists d, d'. split; [reflexivity|]. split; [exact R|]. split; [exact N|]. intros n. symmetry. apply D.
  Qed.
  Ltac bias_in I := unfold bias_ops in I; cbv beta zeta in I; inv_in I.
  Lemma bias_stored h o r : stored h r (bias_ops o r) -> exists o', load bias_rd r (Some h) = Ok o' /\
    (forall n, In n bias_fields -> has_attr o' n) /\
    (forall n, In n ["probe"; "model_name"; "z_bin_edges"; "z_grid"]%string -> getattr o' n = getattr o n) /\
    (forall n, In n ["additional_parameters"; "nuisance_parameters"]%string -> exists d d', getattr o n = VNums d /\ getattr o' n = VNums d' /\ NoDup (dkeys d') /\ same_dict d d') /\
    getattr o' "b_i_z" = (if is_none (getattr o "z_grid") then VNone else getattr o "b_i_z") /\ getattr o' "model" = VNone /\
    (forall n, In n ["z_bin_edges"; "z_grid"; "b_i_z"]%string -> getattr o n <> VNone -> exists d, to_data (getattr o n) = Ok d) /\
    (forall n, In n ["probe"; "model_name"]%string -> exists a, to_attr (getattr o n) = Ok a).
  Proof.
    intros S. rewrite (load_open _ _ _ (st_root _ _ _ S)). unfold bias_rd.
    assert (A : rd_attr h r "probe" = Ok (getattr o "probe")).
    { rewrite <- (app_nil_r r) at 1. eapply attr_read; [exact S| | |reflexivity].
      - rewrite app_nil_r. unfold bias_ops. cbv beta zeta. rewrite !in_app_iff. cbn. tauto.
      - rewrite app_nil_r. intros w J. bias_in J; op_eq J; subst; reflexivity. }
    assert (B : rd_attr h (r ++ ["bias_model"%string]) "model_name" = Ok (getattr o "model_name")).
    { eapply attr_read; [exact S| | |reflexivity].
      - unfold bias_ops. cbv beta zeta. rewrite !in_app_iff. cbn. tauto.
      - intros w J. bias_in J; op_eq J; subst; reflexivity. }
    assert (OP : forall n, In n ["z_bin_edges"; "z_grid"; "b_i_z"]%string -> (getattr o n <> VNone -> In (OData (r ++ [n]) (getattr o n)) (bias_ops o r)) /\
       (getattr o n = VNone -> forall (x : op F) q, In x (bias_ops o r) -> target x = Some q -> ~ prefix (r ++ [n]) q)).
    { intros n I. split.
      - intros N. unfold bias_ops. cbv beta zeta. rewrite !in_app_iff, !in_data_if. cbn [In] in I. destruct I as [<-|[<-|[<-|[]]]]; tauto.
      - intros N x q J Q (t & P). subst q. assert (M : n <> "bias_model"%string) by (intros ->; cbn [In] in I; intuition discriminate).
        bias_in J; subst x; cbn [target] in Q; try discriminate Q; injection Q as Q; paths; cbn in Q; injection Q as Q _; subst n; first [congruence|contradiction]. }
    rewrite A, B. cbn [rbind].
    rewrite (opt_read h r _ _ _ (getattr o "z_bin_edges") S) by (apply OP; cbn; tauto). cbn [rbind].
    assert (NR : forall n, In n ["additional_parameters"; "nuisance_parameters"]%string ->
       exists d d', getattr o n = VNums d /\ rd_nums h ((r ++ ["bias_model"%string]) ++ [n]) = Ok d' /\ NoDup (dkeys d') /\ same_dict d d').
    { intros n I. rewrite <- app_assoc. apply (nums_read h r (bias_ops o r)); [exact S| | |]; rewrite ?app_assoc.
      - intros x J. unfold bias_ops. cbv beta zeta. rewrite !in_app_iff. cbn [In] in I. destruct I as [<-|[<-|[]]]; tauto.
      - unfold bias_ops. cbv beta zeta. rewrite !in_app_iff. cbn [In] in I |- *. destruct I as [<-|[<-|[]]]; tauto.
      - intros x m q J Q (t & P). subst q. cbn [In] in I. unfold bias_ops in J. cbv beta zeta in J.
        repeat match type of J with In _ (_ ++ _) => apply in_app_or in J; destruct J as [J|J] end;
        try (inv_in J; subst x; cbn [target] in Q; try discriminate Q; injection Q as Q; paths; destruct I as [<-|[<-|[]]]; discriminate Q);
        (destruct I as [<-|[<-|[]]]; [try exact J|try exact J]; exfalso; inv_in J; subst x; cbn [target] in Q; try discriminate Q; injection Q as Q; paths). }
    destruct (NR "additional_parameters"%string) as (a & a' & Ea & Ra & Na & Sa); [cbn; tauto|]. rewrite Ra. cbn [rbind].
    destruct (NR "nuisance_parameters"%string) as (u & u' & Eu & Ru & Nu & Su); [cbn; tauto|]. rewrite Ru. cbn [rbind].
    set (o1 := setattr (setattr new_bias "probe" (getattr o "probe")) "model_name" (getattr o "model_name")).
    set (o2 := if is_none (getattr o "z_bin_edges") then o1 else _). set (o3 := setattr (setattr o2 "additional_parameters" (VNums a')) "nuisance_parameters" (VNums u')).
    assert (G2 : forall m, getattr o2 m = if String.eqb "z_bin_edges" m then getattr o "z_bin_edges" else getattr o1 m) by (intros m; apply get_if; reflexivity).
    assert (H3 : forall n, In n bias_fields -> has_attr o3 n).
    { intros n I. unfold o3. do 2 apply has_attr_set. unfold o2. apply has_if. unfold o1. do 2 apply has_attr_set. apply has_attr_keys. exact I. }
    assert (DZ : rd_data h (r ++ ["z_grid"%string]) = if is_none (getattr o "z_grid") then Err EKeyError else Ok (getattr o "z_grid")).
    { destruct (is_none (getattr o "z_grid")) eqn:Z.
      - assert (V : getattr o "z_grid" = VNone) by (destruct (getattr o "z_grid"); cbn in Z; congruence). unfold rd_data. rewrite (st_absent _ _ _ S ["z_grid"%string]); [reflexivity|discriminate|].
        apply (OP "z_grid"%string); [cbn; tauto|exact V].
      - apply is_none_false in Z. apply (st_data _ _ _ S ["z_grid"%string]). apply OP; [cbn; tauto|exact Z]. }
    assert (TD : forall n, In n ["z_bin_edges"; "z_grid"; "b_i_z"]%string -> getattr o n <> VNone -> exists d, to_data (getattr o n) = Ok d).
    { intros n I N. destruct (st_dat _ _ _ S [n] (getattr o n)) as (d & T & _); [apply OP; assumption|eauto]. }
    assert (TA : forall n, In n ["probe"; "model_name"]%string -> exists t, to_attr (getattr o n) = Ok t).
    { intros n I. cbn [In] in I. destruct I as [<-|[<-|[]]]; eapply rd_attr_ok; eassumption. }
    assert (FIN : forall o', (forall m, getattr o' m = if String.eqb "z_grid" m then getattr o "z_grid" else if String.eqb "b_i_z" m then (if is_none (getattr o "z_grid") then VNone else getattr o "b_i_z") else getattr o3 m) ->
      (forall n, In n ["probe"; "model_name"; "z_bin_edges"; "z_grid"]%string -> getattr o' n = getattr o n) /\
      (forall n, In n ["additional_parameters"; "nuisance_parameters"]%string -> exists d d', getattr o n = VNums d /\ getattr o' n = VNums d' /\ NoDup (dkeys d') /\ same_dict d d') /\
      getattr o' "b_i_z" = (if is_none (getattr o "z_grid") then VNone else getattr o "b_i_z") /\ getattr o' "model" = VNone).
    { intros o' H. split; [|split; [|split]].
      - intros n I. rewrite H. unfold o3. rewrite !getattr_set, G2. cbn [In] in I. destruct I as [<-|[<-|[<-|[<-|[]]]]]; reflexivity.
      - intros n I. rewrite H. unfold o3. rewrite !getattr_set, G2. cbn [In] in I. destruct I as [<-|[<-|[]]]; [exists a, a'|exists u, u']; auto.
      - rewrite H. reflexivity.
      - rewrite H. unfold o3. rewrite !getattr_set, G2. reflexivity. }
    rewrite DZ. destruct (is_none (getattr o "z_grid")) eqn:Z.
    - exists o3. split; [reflexivity|]. split; [exact H3|]. assert (V : getattr o "z_grid" = VNone) by (destruct (getattr o "z_grid"); cbn in Z; congruence).
      destruct (FIN o3) as (X1 & X2 & X3 & X4); [|repeat (split; [assumption|]); exact TA].
      intros m. destruct (String.eqb_spec "z_grid" m) as [<-|]; [unfold o3; rewrite !getattr_set, G2, V; reflexivity|].
      destruct (String.eqb_spec "b_i_z" m) as [<-|]; [unfold o3; rewrite !getattr_set, G2; reflexivity|reflexivity].
    - rewrite (opt_read h r _ _ _ (getattr o "b_i_z") S) by (apply OP; cbn; tauto). eexists. split; [reflexivity|].
      split; [intros n I; apply has_if, has_attr_set, H3, I|].
      match goal with |- _ /\ _ /\ getattr ?x _ = _ /\ _ => destruct (FIN x) as (X1 & X2 & X3 & X4) end; [|repeat (split; [assumption|]); exact TA].
      intros m. rewrite get_if; [|rewrite !getattr_set; unfold o3; rewrite !getattr_set, G2; reflexivity]. rewrite getattr_set.
      destruct (String.eqb_spec "b_i_z" m) as [<-|]; [reflexivity|]. reflexivity.
  Qed.
  Theorem C69_bias_round_trip meta o r st h : fresh r st -> nums_ok o -> dkeys o = bias_fields -> save meta (bias_ops o) r st = (Some h, Ok tt) ->
    exists o', load bias_rd r (Some h) = Ok o' /\
    (forall n, In n ["probe"; "model_name"; "z_bin_edges"; "z_grid"]%string -> getattr o' n = getattr o n) /\
    (forall n, In n ["additional_parameters"; "nuisance_parameters"]%string -> kept (getattr o n) (getattr o' n)) /\
    getattr o' "b_i_z" = (if is_none (getattr o "z_grid") then VNone else getattr o "b_i_z") /\
    (bias_eq o o' = Ok true <-> no_nan (getattr o "z_bin_edges") /\ no_nan (getattr o "z_grid") /\
       (if is_none (getattr o "z_grid") then veq (getattr o "b_i_z") VNone = Ok true else no_nan (getattr o "b_i_z"))).
  Proof.
    intros FR NO DK SV. destruct (bias_stored h o r (save_stored _ _ _ _ _ FR SV)) as (o' & L & HA & A & N & B & M & TD & TA). exists o'. split; [exact L|]. split; [exact A|].
    split; [intros n I; right; exact (N n I)|]. split; [exact B|].
    assert (TN : forall n, In n ["z_bin_edges"; "z_grid"; "b_i_z"]%string -> (veq (getattr o n) (getattr o n) = Ok true <-> no_nan (getattr o n))).
    { intros n I. destruct (is_none (getattr o n)) eqn:E.
      - assert (V : getattr o n = VNone) by (destruct (getattr o n); cbn in E; congruence). rewrite V. split; [intros _ a X; discriminate X|reflexivity].
      - apply is_none_false in E. destruct (TD n I E) as (d & Td). exact (self_iff _ _ Td). }
    unfold bias_eq. rewrite compare_iff; [|rewrite DK; repeat constructor; cbn; intuition discriminate|rewrite DK; exact HA]. rewrite DK. split.
    - intros C. split; [|split].
      + apply TN; [cbn; tauto|]. rewrite <- (A "z_bin_edges"%string) at 2 by (cbn; tauto). apply C; cbn; intuition discriminate.
      + apply TN; [cbn; tauto|]. rewrite <- (A "z_grid"%string) at 2 by (cbn; tauto). apply C; cbn; intuition discriminate.
      + assert (X : veq (getattr o "b_i_z") (getattr o' "b_i_z") = Ok true) by (apply C; cbn; intuition discriminate). rewrite B in X.
        destruct (is_none (getattr o "z_grid")); [exact X|apply TN; [cbn; tauto|exact X]].
    - intros (Z & Y & W) n I X. cbn [bias_fields In] in I.
      destruct I as [<-|[<-|[<-|[<-|[<-|[<-|[<-|[<-|[]]]]]]]]].
      + rewrite A by (cbn; tauto). destruct (TA "probe"%string) as (a & Ta); [cbn; tauto|]. exact (self_attr _ _ Ta).
      + destruct (N "nuisance_parameters"%string) as (d & d' & E & E' & ND & SM); [cbn; tauto|]. rewrite E, E'. cbn [veq]. rewrite nums_same; [reflexivity|exact (NO _ _ E)|exact ND|exact SM].
      + destruct (N "additional_parameters"%string) as (d & d' & E & E' & ND & SM); [cbn; tauto|]. rewrite E, E'. cbn [veq]. rewrite nums_same; [reflexivity|exact (NO _ _ E)|exact ND|exact SM].
      + rewrite A by (cbn; tauto). apply TN; [cbn; tauto|exact Y].
      + rewrite B. destruct (is_none (getattr o "z_grid")); [exact W|apply TN; [cbn; tauto|exact W]].
      + exfalso. apply X. cbn. auto.
      + rewrite A by (cbn; tauto). destruct (TA "model_name"%string) as (a & Ta); [cbn; tauto|]. exact (self_attr _ _ Ta).
      + rewrite A by (cbn; tauto). apply TN; [cbn; tauto|exact Z].
  Qed.
End Props.
