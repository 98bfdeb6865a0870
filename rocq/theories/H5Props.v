(** Objects saved to HDF5 files (C69). *)
From Verif Require Import Base SortLib StrLib FrameModel FrameLemmas FsModel ParamModel ParamFileModel KeyModel H5Model H5Lemmas H5Lemmas2 H5Lemmas3.
Open Scope list_scope.

Ltac inv_in H :=
  match type of H with
  | In _ (_ ++ _) => apply in_app_or in H; destruct H as [H|H]; inv_in H
  | In _ (_ :: _) => destruct H as [H|H]; [|inv_in H]
  | In _ [] => destruct H
  | In _ (data_if _ _) => apply in_data_if in H; destruct H as [? H]; symmetry in H
  | In _ (attr_if _ _ _) => apply in_attr_if in H; destruct H as [? H]; symmetry in H
  | In _ (nums_ops _ _) => apply in_nums in H; destruct H as [(? & ? & ? & ? & ? & H)|[? H]]; symmetry in H
  | In _ (if ?b then _ else _) => destruct b eqn:?; inv_in H
  | _ => idtac
  end.
(** Equations between operations below one root. *)
Ltac paths :=
  repeat match goal with
  | H : (_ ++ _) ++ _ = _ |- _ => rewrite <- app_assoc in H; cbn [app] in H
  | H : _ = (_ ++ _) ++ _ |- _ => rewrite <- app_assoc in H; cbn [app] in H
  | H : ?r ++ _ = ?r ++ _ |- _ => apply app_inv_head in H
  | H : ?r = ?r ++ _ |- _ => apply app_self_nil in H
  | H : ?r ++ _ = ?r |- _ => symmetry in H; apply app_self_nil in H
  end; try discriminate.
Ltac op_eq H := first [discriminate H | injection H; clear H; intros; paths; try discriminate | idtac].

Section Props.
  Context {F : Type} {K : Fld F}.
  Implicit Types (o : obj F) (h : hfile F) (r : path) (st : option (hfile F)).

  (** The dictionaries an object holds are dictionaries: no key twice. *)
  Definition nums_ok o : Prop := forall n d, getattr o n = VNums d -> NoDup (dkeys d).
  Lemma is_none_false (v : pv F) : v <> VNone <-> is_none v = false.
  Proof. destruct v; cbn; split; congruence. Qed.
  Lemma nums_dict o n d : nums_ok o -> getattr o n = VNums d -> NoDup (dkeys d).
  Proof. intros H. apply H. Qed.
  Lemma load_open {A} h r (f : hfile F -> path -> res A) : grp h r = true -> load f r (Some h) = f h r.
  Proof. unfold load, open_read, grp. destruct (hget h r) as [[|]|]; try discriminate. reflexivity. Qed.
  Lemma not_meta n : smem n meta_names = false -> ~ In n meta_names.
  Proof. intros H I. apply smem_In in I. congruence. Qed.

  (** ** RedshiftDensity *)
  Definition density_saved o (n : string) : bool :=
    smem n ["has_niz_from_input"; "input_z_domain"; "z_bin_edges"; "catalog_f_sky"] ||
    (smem n ["dN_dOmega_bins"; "z_grid"; "norm_density_iz"] && negb (is_none (getattr o n))) ||
    (String.eqb n "input_n_iz" && truthy (getattr o "has_niz_from_input")) ||
    (String.eqb n "input_dN_dz_dOmega" && negb (truthy (getattr o "has_niz_from_input"))).
  Lemma density_data o r n v : In (OData (r ++ [n]) v) (density_ops o r) <-> density_saved o n = true /\ v = getattr o n.
  Proof.
    unfold density_ops, density_saved. cbv beta zeta. split.
    - intros H. inv_in H; op_eq H; try (match goal with X : [_] = [n] |- _ => injection X as <- end; subst v; split; [|reflexivity]);
        try reflexivity; cbn; repeat match goal with X : _ <> VNone |- _ => apply is_none_false in X; rewrite X end;
        repeat match goal with X : truthy _ = _ |- _ => rewrite X end; reflexivity.
    - intros [H ->]. rewrite !orb_true_iff, !andb_true_iff, !negb_true_iff, !String.eqb_eq in H.
      destruct H as [[[H|[H N]]|[-> H]]|[-> H]].
      + apply smem_In in H. cbn [In] in H. destruct H as [<-|[<-|[<-|[<-|[]]]]]; cbn; tauto.
      + apply is_none_false in N. apply smem_In in H. cbn [In] in H.
        destruct H as [<-|[<-|[<-|[]]]]; rewrite !in_app_iff, !in_data_if; tauto.
      + rewrite H. rewrite !in_app_iff. cbn. tauto.
      + rewrite H. rewrite !in_app_iff. cbn. tauto.
  Qed.
  Lemma density_response h o r : nums_ok o -> stored h r (density_ops o r) -> truthy (getattr o "has_niz_from_input") = false ->
    exists d d', getattr o "instrument_response" = VNums d /\ rd_nums h (r ++ ["instrument_response"%string]) = Ok d' /\ NoDup (dkeys d') /\ same_dict d d'.
  Proof.
    intros NO S T.
    assert (J : forall x, In x (nums_ops (r ++ ["instrument_response"%string]) (getattr o "instrument_response")) -> In x (density_ops o r))
      by (intros x I; unfold density_ops; cbv beta zeta; rewrite T, !in_app_iff; auto).
    destruct (getattr o "instrument_response") as [| | | | |d|] eqn:E; try (exfalso; exact (st_fail _ _ _ S EAttributeError (J _ (or_introl eq_refl)))).
    destruct (rd_nums_get h (r ++ ["instrument_response"%string]) d) as (d' & R & N & D).
    - apply (st_grp _ _ _ S). unfold density_ops. cbv beta zeta. rewrite T, !in_app_iff. cbn. tauto.
    - intros n. destruct (dget String.eqb d n) as [x|] eqn:X.
      + apply (dget_In _ String.eqb_spec) in X. rewrite <- app_assoc.
        destruct (st_dat _ _ _ S (["instrument_response"%string] ++ [n]) (VNum x)) as (y & Y & D); [|injection Y as <-; apply dat_hget, D].
        apply J. rewrite app_assoc. cbn [nums_ops]. apply in_map_iff. exists (n, x). auto.
      + rewrite <- app_assoc. apply (st_absent _ _ _ S); [discriminate|]. intros q p I. unfold density_ops in I. cbv beta zeta in I. rewrite T, E in I.
        inv_in I; try subst q; cbn [target]; intros Q (t & P); try discriminate Q; injection Q as <-; paths.
        cbn in P. injection P as -> _. match goal with Z : VNums d = VNums _ |- _ => injection Z as <- end.
        apply (dget_None _ String.eqb_spec) in X. apply X. eapply in_map with (f := fst) in H0. exact H0.
    - exists d, d'. split; [reflexivity|]. split; [exact R|]. split; [exact N|]. intros n. symmetry. apply D.
  Qed.
  Definition density_kept o o' (n : string) : Prop :=
    if String.eqb n "probe" || density_saved o n then getattr o' n = getattr o n
    else if String.eqb n "instrument_response" && negb (truthy (getattr o "has_niz_from_input"))
    then exists d d', getattr o n = VNums d /\ getattr o' n = VNums d' /\ NoDup (dkeys d') /\ same_dict d d'
    else getattr o' n = getattr new_density n.
  Lemma density_stored h o r : nums_ok o -> stored h r (density_ops o r) ->
    exists o', load density_rd r (Some h) = Ok o' /\ (forall n, has_attr (new_density : obj F) n -> has_attr o' n) /\ forall n, density_kept o o' n.
  Proof.
    intros NO S. rewrite (load_open _ _ _ (st_root _ _ _ S)). unfold density_rd.
    assert (A : rd_attr h r "probe" = Ok (getattr o "probe")).
    { rewrite <- (app_nil_r r) at 1. apply (st_attr _ _ _ S); [rewrite app_nil_r; left; reflexivity| |apply not_meta; reflexivity].
      rewrite app_nil_r. intros w I. unfold density_ops in I. cbv beta zeta in I. inv_in I; op_eq I; subst; reflexivity. }
    rewrite A. cbn [rbind]. set (o1 := populate h r (setattr new_density "probe" (getattr o "probe"))).
    assert (G : forall n, getattr o1 n = if density_saved o n then getattr o n else getattr (setattr new_density "probe" (getattr o "probe")) n).
    { intros n. unfold o1. rewrite populate_get. destruct (density_saved o n) eqn:D.
      - destruct (st_dat _ _ _ S [n] (getattr o n)) as (d & T & X); [apply density_data; auto|]. rewrite X. apply of_to_data, T.
      - rewrite (st_no_dat _ _ _ S [n]); [reflexivity|discriminate|]. intros v I. apply density_data in I as [I _]. congruence. }
    assert (H1 : forall n, has_attr (new_density : obj F) n -> has_attr o1 n) by (intros n X; apply populate_has, has_attr_set, X).
    assert (Z : getattr o1 "has_niz_from_input" = getattr o "has_niz_from_input") by (rewrite G; reflexivity). rewrite Z.
    assert (B : density_saved o "probe" = false) by reflexivity.
    assert (B1 : density_saved o "instrument_response" = false) by reflexivity.
    destruct (truthy (getattr o "has_niz_from_input")) eqn:T.
    - exists o1. split; [reflexivity|]. split; [exact H1|]. intros n. unfold density_kept. rewrite T. cbn [negb]. rewrite andb_false_r, G, getattr_set, (String.eqb_sym "probe" n).
      destruct (String.eqb_spec n "probe") as [->|N]; cbn [orb]; [rewrite B; reflexivity|]. destruct (density_saved o n); reflexivity.
    - destruct (density_response h o r NO S T) as (d & d' & E & R & N & D). rewrite R. cbn [rbind]. eexists. split; [reflexivity|].
      split; [intros n X; apply has_attr_set, H1, X|]. intros n. unfold density_kept. rewrite T. cbn [negb]. rewrite andb_true_r, getattr_set.
      destruct (String.eqb_spec n "instrument_response") as [->|N0].
      + rewrite B1. cbn [orb String.eqb Ascii.eqb Bool.eqb]. exists d, d'. auto.
      + rewrite (proj2 (String.eqb_neq "instrument_response" n)) by congruence.
        rewrite G, getattr_set, (String.eqb_sym "probe" n). destruct (String.eqb_spec n "probe") as [->|N1]; cbn [orb]; [rewrite B; reflexivity|]. destruct (density_saved o n); reflexivity.
  Qed.

  Lemma has_new_density n : In n density_fields -> has_attr (new_density : obj F) n.
  Proof. intros I. apply has_attr_keys. exact I. Qed.
  Lemma self_saved (v : pv F) d : to_data v = Ok d -> (self_equal v <-> forall a, v = VArr a -> ~ In None (items a)).
  Proof.
    destruct v as [|b|x|t|a|m|n]; cbn [to_data]; try discriminate; intros _; try (split; [intros _ c E; discriminate E|intros _]; unfold self_equal; cbn [veq]).
    - destruct b; reflexivity.
    - unfold xeq. destruct (fdec x x); congruence.
    - rewrite String.eqb_refl. reflexivity.
    - rewrite arr_self. split; [intros H b E; injection E as <-; exact H|intros H; apply H; reflexivity].
  Qed.
  Lemma self_attr (v : pv F) d : to_attr v = Ok d -> self_equal v.
  Proof.
    destruct v as [|b|x|t|a|m|n]; cbn [to_attr]; try discriminate; intros _; unfold self_equal; cbn [veq].
    - destruct b; reflexivity.
    - unfold xeq. destruct (fdec x x); congruence.
    - rewrite String.eqb_refl. reflexivity.
  Qed.
  Lemma rd_attr_ok h p n v : rd_attr h p n = Ok v -> exists a, to_attr v = Ok a.
  Proof.
    unfold rd_attr. destruct (hget h p) as [[d|]|]; try discriminate. destruct (dget String.eqb d n) as [a|]; try discriminate.
    intros H. injection H as <-. destruct a; eexists; reflexivity.
  Qed.

  Section Density.
    Context (meta : string * string) o r st h (FR : fresh r st) (NO : nums_ok o) (SV : save meta (density_ops o) r st = (Some h, Ok tt)).
    (** The datasets written are those of [density_saved]; what is read back. *)
    Theorem C69_density_round_trip : exists o', load density_rd r (Some h) = Ok o' /\ forall n, density_kept o o' n.
    Proof. destruct (density_stored h o r NO (save_stored _ _ _ _ _ FR SV)) as (o' & L & _ & H). eauto. Qed.

    (** The loaded object compares equal exactly when the arrays saved have no NaN
        and the inputs of the form that is not used were never set. *)
    Theorem C69_density_equal : dkeys o = density_fields -> exists o', load density_rd r (Some h) = Ok o' /\
      (density_eq o o' = Ok true <->
       (forall n a, density_saved o n = true -> getattr o n = VArr a -> ~ In None (items a)) /\
       (if truthy (getattr o "has_niz_from_input")
        then veq (getattr o "input_dN_dz_dOmega") VNone = Ok true /\ veq (getattr o "instrument_response") (VNums []) = Ok true
        else veq (getattr o "input_n_iz") VNone = Ok true)).
    Proof.
      intros DK. pose proof (save_stored _ _ _ _ _ FR SV) as S.
      destruct (density_stored h o r NO S) as (o' & L & A & H). exists o'. split; [exact L|].
      assert (P : self_equal (getattr o "probe")).
      { pose proof (H "probe"%string) as Hp. unfold density_kept in Hp. cbn [String.eqb Ascii.eqb Bool.eqb orb] in Hp.
        rewrite (load_open _ _ _ (st_root _ _ _ S)) in L. unfold density_rd in L.
        destruct (rd_attr h r "probe") as [v|] eqn:R; [|discriminate]. destruct (rd_attr_ok _ _ _ _ R) as (a & T).
        assert (E : rd_attr h r "probe" = Ok (getattr o "probe")).
        { rewrite <- (app_nil_r r) at 1. apply (st_attr _ _ _ S); [rewrite app_nil_r; left; reflexivity| |apply not_meta; reflexivity].
          rewrite app_nil_r. intros w I. unfold density_ops in I. cbv beta zeta in I. inv_in I; op_eq I; subst; reflexivity. }
        rewrite E in R. injection R as <-. exact (self_attr _ _ T). }
      assert (SD : forall n, density_saved o n = true -> (self_equal (getattr o n) <-> forall a, getattr o n = VArr a -> ~ In None (items a))).
      { intros n D. destruct (st_dat _ _ _ S [n] (getattr o n)) as (d & T & _); [apply density_data; auto|]. exact (self_saved _ _ T). }
      unfold density_eq. rewrite compare_iff; [|rewrite DK; repeat constructor; cbn; intuition discriminate|
        intros n I; rewrite DK in I; apply A, has_new_density, I].
      rewrite DK.
      assert (NV : forall v : pv F, is_none v = true -> v = VNone) by (intros v; destruct v; cbn; congruence).
      split.
      - intros C. split.
        + intros n a D E. destruct (in_dec string_dec n density_fields) as [I|I].
          * destruct (in_dec string_dec n density_excluded) as [X|X].
            { exfalso. assert (Y : forall m, In m density_excluded -> density_saved o m = false) by (intros m Im; cbn [density_excluded In] in Im;
                repeat (destruct Im as [<-|Im]; [reflexivity|]); destruct Im). rewrite (Y n X) in D. discriminate D. }
            specialize (C n I X). specialize (H n). unfold density_kept in H. rewrite D, orb_true_r in H. rewrite H in C. exact (proj1 (SD n D) C a E).
          * assert (Y : forall m, density_saved o m = true -> In m density_fields).
            { intros m Y. unfold density_saved in Y. rewrite !orb_true_iff, !andb_true_iff, !String.eqb_eq in Y.
              destruct Y as [[[Y|[Y _]]|[-> _]]|[-> _]]; try (apply smem_In in Y; cbn [In] in Y); cbn; intuition. }
            destruct (I (Y n D)).
        + destruct (truthy (getattr o "has_niz_from_input")) eqn:T.
          * split.
            -- specialize (C "input_dN_dz_dOmega"%string). specialize (H "input_dN_dz_dOmega"%string). unfold density_kept, density_saved in H. rewrite T in H.
               cbn in H. rewrite H in C. apply C; cbn; intuition discriminate.
            -- specialize (C "instrument_response"%string). specialize (H "instrument_response"%string). unfold density_kept in H. rewrite T in H.
               cbn in H. rewrite H in C. apply C; cbn; intuition discriminate.
          * specialize (C "input_n_iz"%string). specialize (H "input_n_iz"%string). unfold density_kept, density_saved in H. rewrite T in H.
            cbn in H. rewrite H in C. apply C; cbn; intuition discriminate.
      - intros [C U] n I X. specialize (H n). unfold density_kept in H. destruct (String.eqb_spec n "probe") as [E0|Np]; cbn [orb] in H; [subst n; rewrite H; exact P|].
        destruct (density_saved o n) eqn:D; [rewrite H; apply (SD n D), (fun a => C n a D)|].
        destruct (String.eqb_spec n "instrument_response") as [E0|Ni]; cbn [andb] in H; [subst n|].
        + destruct (truthy (getattr o "has_niz_from_input")) eqn:T; cbn [negb] in H; [rewrite H; exact (proj2 U)|].
          destruct H as (d & d' & E & E' & N & SM). rewrite E, E'. cbn [veq]. rewrite nums_same; [reflexivity|exact (NO _ _ E)|exact N|exact SM].
        + unfold density_saved in D. destruct (truthy (getattr o "has_niz_from_input")) eqn:T; rewrite H;
            cbn [density_fields density_excluded In] in I, X;
            repeat (destruct I as [E0|I]; [subst n; try (exfalso; tauto); try discriminate D; try (cbn in D; rewrite ?orb_false_r, negb_false_iff in D; rewrite (NV _ D); reflexivity); try exact U; try exact (proj1 U)|]); destruct I.
    Qed.
  End Density.
End Props.
