(** C86: comparing and checking Fisher matrices.  C18: marginalizeNuisance. *)
From Verif Require Import Base SortLib FrameModel FrameLemmas LabLin FisherModel FisherSpec FisherLemmas FisherLemmas2 FisherLemmas5 FisherProps.
From Coq Require Import Permutation QArith Qcanon.
Close Scope Qc_scope. Close Scope Q_scope.
Open Scope list_scope.

Section Props.
  Context {F : Type} {K : Fld F} {SO : SetOrder}.
  Open Scope fld_scope.
  Implicit Types f g h t u v : fisher F.

  Lemma sorted_same (l m : list string) : NoDup l -> NoDup m -> (ssort l = ssort m <-> forall x, In x l <-> In x m).
  Proof.
    intros Nl Nm. split.
    - intros E x. rewrite <- (ssort_In l), <- (ssort_In m), E. reflexivity.
    - intros H. apply ssort_unique. apply NoDup_Permutation; assumption.
  Qed.
  Lemma phys_In f x : In x (phys f) <-> In x (fcosmo f) \/ In x (fnuis f).
  Proof. unfold phys. rewrite set_union_In. tauto. Qed.

  (** Equal means: the same parameters in the matrix, the same entries, the same
      name, the same declared parameters; the order of the rows is irrelevant. *)
  Theorem C86_equal_iff f g : frame_ok (fmat f) -> frame_ok (fmat g) ->
    (fisher_eq f g = Ok true <->
     (forall x, In x (labels f) <-> In x (labels g)) /\
     (forall a b, In a (labels f) -> In b (labels f) -> fval f a b = fval g a b) /\
     fname f = fname g /\
     forall x, In x (fcosmo f) \/ In x (fnuis f) <-> In x (fcosmo g) \/ In x (fnuis g)).
  Proof.
    intros Wf Wg. pose proof Wf as (Nf & Cf & _). pose proof Wg as (Ng & Cg & _). unfold fisher_eq, labels in *. cbn [f_sort1 f_sort0 ix cx ce].
    destruct (sl_eqb_spec (ssort (ix (fmat f))) (ssort (ix (fmat g)))) as [E|N].
    - rewrite Cf, Cg, E. destruct (sl_eqb_spec (ssort (ix (fmat g))) (ssort (ix (fmat g)))) as [_|C]; [|congruence]. cbn [negb andb].
      pose proof (proj1 (sorted_same _ _ Nf Ng) E) as Sm.
      assert (Cells : forallb (fun r => forallb (fun c => oeqb (ce (fmat f) r c) (ce (fmat g) r c)) (ssort (ix (fmat g)))) (ssort (ix (fmat g))) = true <->
                      forall a b, In a (ix (fmat f)) -> In b (ix (fmat f)) -> fval f a b = fval g a b).
      { rewrite forallb_forall. split.
        - intros H a b Ha Hb. assert (Ha' := proj1 (Sm a) Ha). assert (Hb' := proj1 (Sm b) Hb).
          specialize (H a). rewrite ssort_In in H. specialize (H Ha'). rewrite forallb_forall in H. specialize (H b). rewrite ssort_In in H. specialize (H Hb').
          rewrite (ce_fv (fmat f) a b Wf Ha Hb), (ce_fv (fmat g) a b Wg Ha' Hb') in H. cbn in H. unfold fval. destruct (fdec _ _); [assumption|discriminate].
        - intros H a Ha. rewrite ssort_In in Ha. rewrite forallb_forall. intros b Hb. rewrite ssort_In in Hb.
          assert (Ha' := proj2 (Sm a) Ha). assert (Hb' := proj2 (Sm b) Hb). rewrite (ce_fv (fmat f) a b Wf Ha' Hb'), (ce_fv (fmat g) a b Wg Ha Hb). cbn.
          pose proof (H a b Ha' Hb') as Q. unfold fval in Q. destruct (fdec _ _); [reflexivity|contradiction]. }
      assert (Ph : set_eqb (phys f) (phys g) = true <-> forall x, In x (fcosmo f) \/ In x (fnuis f) <-> In x (fcosmo g) \/ In x (fnuis g)).
      { rewrite set_eqb_spec. split; intros H x; specialize (H x); rewrite !phys_In in *; exact H. }
      split.
      + intros H. assert (Hb : forallb (fun r => forallb (fun c => oeqb (ce (fmat f) r c) (ce (fmat g) r c)) (ssort (ix (fmat g)))) (ssort (ix (fmat g))) && String.eqb (fname f) (fname g) && set_eqb (phys f) (phys g) = true) by congruence.
        apply andb_true_iff in Hb. destruct Hb as [Hb H3]. apply andb_true_iff in Hb. destruct Hb as [H1 H2].
        split; [exact Sm|]. split; [apply Cells; exact H1|]. split; [apply String.eqb_eq; exact H2|apply Ph; exact H3].
      + intros (_ & H1 & H2 & H3). rewrite (proj2 Cells H1), H2, String.eqb_refl, (proj2 Ph H3). reflexivity.
    - cbn [andb negb]. split; [discriminate|]. intros (H & _). exfalso. apply N. apply (sorted_same _ _ Nf Ng). exact H.
  Qed.
  (** Matrices of other parameters cannot be compared; otherwise there is an answer. *)
  Theorem C86_other_parameters f g : frame_ok (fmat f) -> frame_ok (fmat g) ->
    (fisher_eq f g = Err EValueError <-> ~ forall x, In x (labels f) <-> In x (labels g)).
  Proof.
    intros (Nf & Cf & _) (Ng & Cg & _). unfold fisher_eq, labels. cbn [f_sort1 f_sort0 ix cx ce]. rewrite Cf, Cg.
    destruct (sl_eqb_spec (ssort (ix (fmat f))) (ssort (ix (fmat g)))) as [E|N]; cbn [andb negb].
    - split; [discriminate|]. intros H. exfalso. apply H. apply (sorted_same _ _ Nf Ng). exact E.
    - split; [|reflexivity]. intros _ H. apply N. apply (sorted_same _ _ Nf Ng). exact H.
  Qed.
  (** It is an equivalence: f equals itself and its copy, in both directions. *)
  Theorem C86_reflexive f : wf f -> fisher_eq f f = Ok true /\ fisher_eq f (fcopy f) = Ok true.
  Proof.
    intros (W & _). assert (Wc : frame_ok (fmat (fcopy f))) by exact W. split.
    - apply (C86_equal_iff _ _ W W). split; [reflexivity|]. split; [reflexivity|]. split; reflexivity.
    - apply (C86_equal_iff _ _ W Wc). split; [reflexivity|]. split; [reflexivity|]. split; [reflexivity|].
      intros x. cbn [fcopy new_fisher fcosmo fnuis]. rewrite !set_of_In. reflexivity.
  Qed.
  Theorem C86_symmetric f g : frame_ok (fmat f) -> frame_ok (fmat g) -> fisher_eq f g = Ok true -> fisher_eq g f = Ok true.
  Proof.
    intros Wf Wg H. apply (C86_equal_iff _ _ Wf Wg) in H. destruct H as (H1 & H2 & H3 & H4). apply (C86_equal_iff _ _ Wg Wf). split; [intros x; symmetry; apply H1|].
    split; [|split; [auto|intros x; symmetry; apply H4]]. intros a b Ha Hb. symmetry. apply H2; apply H1; assumption.
  Qed.
  Theorem C86_transitive f g h : frame_ok (fmat f) -> frame_ok (fmat g) -> frame_ok (fmat h) -> fisher_eq f g = Ok true -> fisher_eq g h = Ok true -> fisher_eq f h = Ok true.
  Proof.
    intros Wf Wg Wh H1 H2. apply (C86_equal_iff _ _ Wf Wg) in H1. apply (C86_equal_iff _ _ Wg Wh) in H2. destruct H1 as (A1 & A2 & A3 & A4), H2 as (B1 & B2 & B3 & B4).
    apply (C86_equal_iff _ _ Wf Wh). split; [intros x; rewrite A1; apply B1|]. split; [|split; [congruence|intros x; rewrite A4; apply B4]].
    intros a b Ha Hb. rewrite (A2 a b Ha Hb). apply B2; apply A1; assumption.
  Qed.

  (** checkAttributes accepts exactly the objects whose rows, columns and declared
      parameters are the same sets. *)
  Theorem C86_check f : check_attributes f = Ok tt <->
    (forall x, In x (ix (fmat f)) <-> In x (cx (fmat f))) /\ (forall x, In x (ix (fmat f)) <-> In x (fcosmo f) \/ In x (fnuis f)).
  Proof.
    unfold check_attributes. destruct (set_eqb (ix (fmat f)) (cx (fmat f))) eqn:E1; cbn [negb].
    - pose proof (proj1 (set_eqb_spec _ _) E1) as H1. destruct (set_eqb (ix (fmat f)) (phys f)) eqn:E2; cbn [negb].
      + pose proof (proj1 (set_eqb_spec _ _) E2) as H2. split; [|reflexivity]. intros _. split; [exact H1|]. intros x. rewrite (H2 x). apply phys_In.
      + split; [discriminate|]. intros [_ H2]. assert (E : set_eqb (ix (fmat f)) (phys f) = true) by (apply set_eqb_spec; intros x; rewrite H2, phys_In; reflexivity). congruence.
    - split; [discriminate|]. intros [H1 _]. apply set_eqb_spec in H1. congruence.
  Qed.
  Theorem C86_check_errors f : 
    (check_attributes f = Err EException <-> ~ forall x, In x (ix (fmat f)) <-> In x (cx (fmat f))) /\
    (check_attributes f = Err EValueError <-> (forall x, In x (ix (fmat f)) <-> In x (cx (fmat f))) /\ ~ forall x, In x (ix (fmat f)) <-> In x (fcosmo f) \/ In x (fnuis f)).
  Proof.
    assert (P : set_eqb (ix (fmat f)) (phys f) = true <-> forall x, In x (ix (fmat f)) <-> In x (fcosmo f) \/ In x (fnuis f)).
    { rewrite set_eqb_spec. split; intros H x; specialize (H x); rewrite phys_In in *; exact H. }
    unfold check_attributes. destruct (set_eqb (ix (fmat f)) (cx (fmat f))) eqn:E1; cbn [negb].
    - pose proof (proj1 (set_eqb_spec _ _) E1) as H1. destruct (set_eqb (ix (fmat f)) (phys f)) eqn:E2; cbn [negb].
      + pose proof (proj1 P eq_refl) as H2. split; split; try discriminate; tauto.
      + assert (N2 : ~ forall x, In x (ix (fmat f)) <-> In x (fcosmo f) \/ In x (fnuis f)) by (intros H; apply P in H; congruence). split; split; try discriminate; tauto.
    - assert (N1 : ~ forall x, In x (ix (fmat f)) <-> In x (cx (fmat f))) by (intros H; apply set_eqb_spec in H; congruence). split; split; try discriminate; tauto.
  Qed.
  Theorem C86_consistent_accepted f : wf f -> check_attributes f = Ok tt.
  Proof. intros ((_ & C & _) & _ & _ & L). apply C86_check. rewrite C. split; [reflexivity|exact L]. Qed.

  (** ** marginalizeNuisance (C18) *)
  (** It marginalises over exactly the nuisance parameters, so none is left and
      the cosmological ones stay... *)
  Theorem C18_marginalize_nuisance rc f f' r : wf f -> fmflag f = true -> marginalize_nuisance rc f = (f', Ok r) ->
    exists t, t = match r with Some u => u | None => f' end /\ margd (fnuis f) rc f t /\ wf t /\
      (forall x, In x (labels t) <-> In x (fcosmo f) /\ ~ In x (fnuis f)) /\ (forall x, ~ In x (fnuis t)).
  Proof.
    intros W Fl H. unfold marginalize_nuisance in H. rewrite Fl in H. eexists. split; [reflexivity|].
    assert (M : margd (fnuis f) rc f match r with Some u => u | None => f' end) by (exists f', r; auto). split; [exact M|].
    destruct (margd_spec (fnuis f) rc f _ W M) as (C & _ & Wt & Lt & _ & _ & _ & _ & Nt & _). split; [exact Wt|]. destruct W as (_ & _ & _ & L). split.
    - intros x. rewrite (Lt x), (L x). tauto.
    - intros x Hx. apply Nt in Hx. tauto.
  Qed.
  (** ... unless the object is flagged not to. *)
  Theorem C18_nuisance_flag_off rc f : fmflag f = false -> marginalize_nuisance rc f = (f, Ok (if rc then Some (fcopy f) else None)).
  Proof. intros E. unfold marginalize_nuisance. rewrite E. reflexivity. Qed.
  (** C18 for the method itself. *)
  Theorem C18_nuisance_before_or_after f g t u v rc1 rc2 rc3 f' g' h' rf rg rh : wf f -> wf g -> fmflag f = true -> fmflag g = true ->
    (forall x, In x (fnuis f) -> ~ In x (labels g)) -> (forall x, In x (fnuis g) -> ~ In x (labels f)) ->
    marginalize_nuisance rc1 f = (f', Ok rf) -> t = match rf with Some x => x | None => f' end ->
    marginalize_nuisance rc2 g = (g', Ok rg) -> u = match rg with Some x => x | None => g' end ->
    marginalize_nuisance rc3 (fisher_add f g) = (h', Ok rh) -> v = match rh with Some x => x | None => h' end ->
    same (fisher_add t u) v.
  Proof.
    intros Wf Wg Ff Fg N1 N2 M1 -> M2 -> M3 ->. unfold marginalize_nuisance in *. rewrite Ff in M1. rewrite Fg in M2.
    replace (fmflag (fisher_add f g)) with true in M3 by (unfold fisher_add, fcombine; destruct (zero_pad (fcopy f) (fcopy g)); reflexivity).
    apply (C18_before_or_after f g _ _ _ rc1 rc2 rc3 Wf Wg N1 N2); [exists f', rf|exists g', rg|exists h', rh]; auto.
  Qed.
End Props.

(** The kind of a parameter is not compared. *)
Theorem C86_kinds_not_compared {SO : SetOrder} : exists f g : fisher Qc, wf f /\ wf g /\ fisher_eq f g = Ok true /\ In "bgph0"%string (fnuis f) /\ ~ In "bgph0"%string (fnuis g).
Proof.
  exists exF, (with_sets exF ["Omm"; "bgph0"]%string []). assert (W : wf exF) by apply exF_wf.
  assert (W2 : wf (with_sets exF ["Omm"; "bgph0"]%string [])).
  { destruct W as (W1 & _ & _ & L). split; [exact W1|]. split; [repeat constructor; intros C; cbn in C; repeat (destruct C as [C|C]; [discriminate C|]); destruct C|]. split; [constructor|].
    intros x. change (labels (with_sets exF ["Omm"; "bgph0"]%string [])) with (labels exF). rewrite (L x). cbn. tauto. }
  split; [exact W|]. split; [exact W2|]. split; [|cbn; tauto].
  apply (C86_equal_iff _ _ (proj1 W) (proj1 W2)). split; [reflexivity|]. split; [reflexivity|]. split; [reflexivity|]. intros x. cbn. tauto.
Qed.
(** Rows in another order compare equal; another entry does not. *)
Example C86_instance {SO : SetOrder} : 
  fisher_eq exF (with_mat exF (mkF ["bgph0"; "Omm"]%string ["bgph0"; "Omm"]%string (ce (fmat exF)))) = Ok true /\
  fisher_eq exF (with_mat exF (mkF (ix (fmat exF)) (cx (fmat exF)) (fun _ _ => Some (qz 7)))) = Ok false /\ check_attributes exF = Ok tt.
Proof.
  split; [|split; [vm_compute; reflexivity|apply C86_consistent_accepted; apply exF_wf]].
  pose proof exF_wf as (W & _). assert (W2 : frame_ok (fmat (with_mat exF (mkF ["bgph0"; "Omm"]%string ["bgph0"; "Omm"]%string (ce (fmat exF)))))).
  { destruct W as (_ & _ & N). split; [repeat constructor; intros C; cbn in C; repeat (destruct C as [C|C]; [discriminate C|]); destruct C|]. split; [reflexivity|]. intros a b Ha Hb. apply N; cbn in *; tauto. }
  apply (C86_equal_iff _ _ W W2). split; [intros x; cbn; tauto|]. repeat split; auto.
Qed.
(** marginalizeNuisance leaves the cosmological parameter alone. *)
Example C18_nuisance_instance : fmflag exF = true /\ exists f' t, @marginalize_nuisance _ _ id_order true exF = (f', Ok (Some t)) /\ labels t = ["Omm"]%string.
Proof.
  split; [reflexivity|].
  assert (E : match snd (@marginalize_nuisance _ _ id_order true exF) with Ok (Some t) => sl_eqb (labels t) ["Omm"%string] | _ => false end = true) by (vm_compute; reflexivity).
  destruct (@marginalize_nuisance _ _ id_order true exF) as [f' [[t|]|e]]; cbn [snd] in E; try discriminate. exists f', t. split; [reflexivity|].
  destruct (sl_eqb_spec (labels t) ["Omm"%string]); [assumption|discriminate].
Qed.

Print Assumptions C86_equal_iff.
Print Assumptions C86_other_parameters.
Print Assumptions C86_reflexive.
Print Assumptions C86_symmetric.
Print Assumptions C86_transitive.
Print Assumptions C86_check.
Print Assumptions C86_check_errors.
Print Assumptions C86_consistent_accepted.
Print Assumptions C86_kinds_not_compared.
Print Assumptions C18_marginalize_nuisance.
Print Assumptions C18_nuisance_flag_off.
Print Assumptions C18_nuisance_before_or_after.
