(** Properties C76 (configuration editor) and C77 (configuration identifiers). *)
From Verif Require Import Base SortLib StrLib KeyModel ParamModel EvalModel NameModel ConfigModel ConfigLemmas.
From Coq Require Import Permutation.
Open Scope list_scope.

Section Editor.
  Context {F : Type} {K : Fld F} {O : OFld (F := F)} (ftext : F -> string).

  (** ** C76: which options are accepted *)
  Definition has_value (o : opts) (n : string) (P : sval F -> Prop) : Prop := exists v, dget String.eqb o n = Some v /\ P v.
  Definition a_bool (v : sval F) : Prop := exists b, v = SBool b.
  Definition valid_opts (o : @opts F) : Prop :=
    (forall n, In n (dkeys o) <-> In n opt_names) /\
    has_value o "scenario" (fun v => exists s, In s scenarios /\ v = SStr s) /\
    has_value o "n_sp_bins" (fun v => exists n, In n bin_numbers /\ sv_num v = Some (fzed n)) /\
    has_value o "gcph_minus_gcsp" a_bool /\ has_value o "shot_noise_sp_reduced" a_bool /\ has_value o "gcph_only_bins_in_spectro_range" a_bool.
  Lemma dget_key (o : @opts F) n : dmem String.eqb o n = true <-> In n (dkeys o).
  Proof.
    unfold dmem. destruct (dget String.eqb o n) eqn:E.
    - split; [|reflexivity]. intros _. apply (dget_In _ String.eqb_spec) in E. apply (in_map fst) in E. exact E.
    - apply (dget_None _ String.eqb_spec) in E. split; [discriminate|contradiction].
  Qed.
  Lemma is_bool_iff (v : sval F) : is_bool v = true <-> a_bool v.
  Proof. unfold a_bool. destruct v; cbn; split; try discriminate; try (intros [b' E]; discriminate); eauto. Qed.
  Theorem C76_accepts (o : @opts F) : check_opts o = Ok tt <-> valid_opts o.
  Proof.
    unfold check_opts, valid_opts.
    destruct (forallb (fun n => dmem String.eqb o n) opt_names) eqn:E1; cbn [negb].
    2:{ split; [discriminate|]. intros [H _]. assert (forallb (fun n => dmem String.eqb o n) opt_names = true); [|congruence].
        apply forallb_forall. intros n Hn. apply dget_key. apply H. exact Hn. }
    destruct (forallb (fun n => smem n opt_names) (dkeys o)) eqn:E2; cbn [negb].
    2:{ split; [discriminate|]. intros [H _]. assert (forallb (fun n => smem n opt_names) (dkeys o) = true); [|congruence].
        apply forallb_forall. intros n Hn. apply smem_In. apply H. exact Hn. }
    rewrite forallb_forall in E1, E2.
    assert (Keys : forall n, In n (dkeys o) <-> In n opt_names).
    { intros n. split; intros H; [apply smem_In; apply E2; exact H|apply dget_key; apply E1; exact H]. }
    assert (G : forall n, In n opt_names -> exists v, dget String.eqb o n = Some v).
    { intros n Hn. specialize (E1 n Hn). unfold dmem in E1. destruct (dget String.eqb o n); [eauto|discriminate]. }
    destruct (G "scenario"%string) as [v1 V1]; [cbn; tauto|]. destruct (G "n_sp_bins"%string) as [v2 V2]; [cbn; tauto|]. destruct (G "gcph_minus_gcsp"%string) as [v3 V3]; [cbn; tauto|].
    destruct (G "shot_noise_sp_reduced"%string) as [v4 V4]; [cbn; tauto|]. destruct (G "gcph_only_bins_in_spectro_range"%string) as [v5 V5]; [cbn; tauto|].
    unfold dgetr, has_value. rewrite V1, V2, V3, V4, V5. cbn [rbind].
    assert (HV : forall (v : sval F) (P : sval F -> Prop), (exists w, Some v = Some w /\ P w) <-> P v).
    { intros v P. split; [intros [w [E H]]; injection E as <-; exact H|eauto]. }
    rewrite !HV, <- !is_bool_iff.
    assert (S1 : existsb (fun s => sv_eqb v1 (SStr s)) scenarios = true <-> exists s, In s scenarios /\ v1 = SStr s).
    { rewrite existsb_exists. split; intros [s [Hs H]]; exists s; (split; [exact Hs|]).
      - apply sv_eqb_iff in H. destruct H as [[x [_ X]]|H]; [discriminate|exact H].
      - apply sv_eqb_iff. right. exact H. }
    assert (S2 : existsb (fun n => sv_eqb v2 (SInt n)) bin_numbers = true <-> exists n, In n bin_numbers /\ sv_num v2 = Some (fzed n)).
    { rewrite existsb_exists. split; intros [n [Hn H]]; exists n; (split; [exact Hn|]).
      - apply sv_eqb_iff in H. destruct H as [[x [X Y]]|H]; [cbn in Y; congruence|subst v2; reflexivity].
      - apply sv_eqb_iff. left. exists (fzed n). split; [exact H|reflexivity]. }
    rewrite <- S1, <- S2. destruct (existsb (fun s => sv_eqb v1 (SStr s)) scenarios); cbn [negb]; [|split; [discriminate|intros (_ & X & _); discriminate]].
    destruct (existsb (fun n => sv_eqb v2 (SInt n)) bin_numbers); cbn [negb]; [|split; [discriminate|intros (_ & _ & X & _); discriminate]].
    destruct (is_bool v3); cbn [negb]; [|split; [discriminate|intros (_ & _ & _ & X & _); discriminate]].
    destruct (is_bool v4); cbn [negb]; [|split; [discriminate|intros (_ & _ & _ & _ & X & _); discriminate]].
    destruct (is_bool v5); cbn [negb]; [|split; [discriminate|intros (_ & _ & _ & _ & _ & X); discriminate]].
    split; [|reflexivity]. intros _. repeat split; apply Keys; assumption.
  Qed.

  (** ** C76: what the editor sets *)
  Definition setting (es : @entries F) (p k : string) : option (sval F) := match dget String.eqb es p with Some e => dget String.eqb e k | None => None end.
  Definition has_probe (es : @entries F) (p : string) : Prop := exists e, dget String.eqb es p = Some e.
  Lemma set_in_spec (es : @entries F) p k v : has_probe es p -> exists es', set_in es p k v = Ok es' /\
    (forall p', has_probe es p' -> has_probe es' p') /\ setting es' p k = Some v /\ (forall p' k', (p', k') <> (p, k) -> setting es' p' k' = setting es p' k').
  Proof.
    intros [e He]. unfold set_in, dgetr. rewrite He. cbn [rbind]. eexists. split; [reflexivity|]. unfold has_probe, setting. split; [|split].
    - intros p' [e' H']. destruct (string_dec p p') as [<-|N]; [rewrite (dget_dset_same _ String.eqb_spec); eauto|rewrite (dget_dset_other _ String.eqb_spec) by exact N; eauto].
    - rewrite (dget_dset_same _ String.eqb_spec). apply (dget_dset_same _ String.eqb_spec).
    - intros p' k' N. destruct (string_dec p p') as [<-|Np].
      + rewrite (dget_dset_same _ String.eqb_spec), He. apply (dget_dset_other _ String.eqb_spec). congruence.
      + rewrite (dget_dset_other _ String.eqb_spec) by exact Np. reflexivity.
  Qed.
  (** Setting a list of values whose places are distinct. *)
  Lemma set_all_spec l : forall es : @entries F, (forall p k v, In (p, k, v) l -> has_probe es p) -> NoDup (map fst l) ->
    exists es', set_all es l = (es', Ok tt) /\ (forall p, has_probe es p -> has_probe es' p) /\
      (forall p k v, In (p, k, v) l -> setting es' p k = Some v) /\ (forall p k, ~ In (p, k) (map fst l) -> setting es' p k = setting es p k).
  Proof.
    induction l as [|[[p k] v] l IH]; intros es H N; cbn [set_all]; [exists es; repeat split; auto; intros ? ? ? []|].
    cbn [map fst] in N. inversion N as [|? ? Nk N']; subst.
    destruct (set_in_spec es p k v (H p k v (or_introl eq_refl))) as (es1 & -> & P1 & S1 & O1).
    destruct (IH es1) as (es' & -> & P2 & S2 & O2); [intros p' k' v' Hin; apply P1; apply (H p' k' v'); right; exact Hin|exact N'|].
    exists es'. split; [reflexivity|]. split; [auto|]. split.
    - intros p' k' v' [E|Hin]; [injection E as <- <- <-; rewrite O2 by exact Nk; exact S1|apply S2; exact Hin].
    - intros p' k' Hn. cbn [map fst In] in Hn. rewrite O2 by tauto. apply O1. intros E. apply Hn. left. symmetry. exact E.
  Qed.
  Lemma set_all_app l m (es es' : @entries F) : set_all es l = (es', Ok tt) -> set_all es (l ++ m) = set_all es' m.
  Proof.
    revert es. induction l as [|[[p k] v] l IH]; intros es; cbn [set_all app]; [congruence|]. destruct (set_in es p k v); [apply IH|discriminate].
  Qed.
  Definition both_flags (o : @opts F) : bool := flag o "gcph_minus_gcsp" && flag o "gcph_only_bins_in_spectro_range".
  Definition updated_places := [("GCph", "l_min"); ("GCph", "l_max"); ("GCph", "log_l_number"); ("GCph", "ell_log_selection"); ("GCsp", "l_min"); ("GCsp", "l_max"); ("GCsp", "log_l_number"); ("GCsp", "ell_log_selection"); ("WL", "ell_external_filename"); ("GCph", "density_file"); ("GCph", "bias_file"); ("GCsp", "density_file"); ("GCsp", "bias_file")]%string.
  Theorem C76_updates (o : @opts F) (es : entries) : has_probe es "GCph" -> has_probe es "GCsp" -> has_probe es "WL" -> both_flags o = false ->
    exists es', update_data ftext o es = (es', Ok tt) /\
      (forall p, p = "GCph"%string \/ p = "GCsp"%string -> setting es' p "l_min" = Some (SInt 10) /\
         setting es' p "l_max" = Some (SInt (if pessimistic o then 750 else 3000)) /\ setting es' p "log_l_number" = Some (SInt 100) /\
         setting es' p "ell_log_selection" = Some (SBool true)) /\
      setting es' "GCph" "density_file" = Some (SStr (if flag o "gcph_minus_gcsp" then "gcph_dndz_redbook_gcsp_subtracted.h5"
         else if flag o "gcph_only_bins_in_spectro_range" then "gcph_dndz_redbook_only_bins_in_spectro_range.h5" else "gcph_dndz_redbook.h5")) /\
      setting es' "GCph" "bias_file" = (if flag o "gcph_minus_gcsp" then setting es "GCph" "bias_file"
         else Some (SStr (if flag o "gcph_only_bins_in_spectro_range" then "gcph_bias_piecewise_only_bins_in_spectro_range.h5" else "gcph_bias_piecewise.h5"))) /\
      setting es' "GCsp" "density_file" = Some (SStr ("gcsp_dndz_" ++ bins_text ftext o ++ "_bins.h5")%string) /\
      setting es' "GCsp" "bias_file" = Some (SStr ("gcsp_bias_piecewise_" ++ bins_text ftext o ++ "_bins.h5")%string) /\
      (forall p k, ~ In (p, k) updated_places -> setting es' p k = setting es p k).
  Proof.
    intros Hph Hsp Hwl Hb. unfold update_data. unfold both_flags in Hb. rewrite Hb.
    set (l1 := multipole_sets o). set (l2 := gcph_sets o ++ gcsp_sets ftext o).
    assert (Nd : NoDup (map fst (l1 ++ l2))).
    { unfold l1, l2, multipole_sets, gcph_sets, gcsp_sets. cbn [flat_map app map fst]. destruct (flag o "gcph_minus_gcsp"), (flag o "gcph_only_bins_in_spectro_range"); cbn [app map fst];
      repeat constructor; cbn; intuition discriminate. }
    assert (Pr : forall p k v, In (p, k, v) (l1 ++ l2) -> has_probe es p).
    { intros p k v Hin. assert (Q : p = "GCph"%string \/ p = "GCsp"%string \/ p = "WL"%string); [|destruct Q as [-> |[-> | ->]]; assumption].
      unfold l1, l2, multipole_sets, gcph_sets, gcsp_sets in Hin. cbn [flat_map app] in Hin.
      destruct (flag o "gcph_minus_gcsp"), (flag o "gcph_only_bins_in_spectro_range"); cbn [app In] in Hin;
      repeat (destruct Hin as [Hin|Hin]; [injection Hin as <- _ _; tauto|]); destruct Hin. }
    destruct (set_all_spec (l1 ++ l2) es Pr Nd) as (es' & E & _ & S & Un).
    assert (E' : exists es1, set_all es l1 = (es1, Ok tt)).
    { destruct (set_all_spec l1 es) as (es1 & E1 & _); [intros p k v H; apply (Pr p k v); apply in_or_app; left; exact H| |eauto].
      rewrite map_app in Nd. revert Nd. generalize (map fst l1) (map fst l2). intros u v. induction u as [|x u IHu]; cbn; [constructor|]. intros Q. inversion Q as [|? ? Qx Q']; subst. constructor; [intros X; apply Qx; apply in_or_app; left; exact X|apply IHu; exact Q']. }
    destruct E' as [es1 E1]. rewrite (set_all_app _ _ _ _ E1) in E. rewrite E1. fold l2. exists es'. split; [exact E|].
    assert (In1 : forall x, In x l1 -> In x (l1 ++ l2)) by (intros x H; apply in_or_app; left; exact H).
    assert (In2 : forall x, In x l2 -> In x (l1 ++ l2)) by (intros x H; apply in_or_app; right; exact H).
    split; [|split; [|split; [|split; [|split]]]].
    - intros p [-> | ->]; repeat split; apply S; apply In1; unfold l1, multipole_sets; cbn; tauto.
    - apply S. apply In2. unfold l2, gcph_sets. destruct (flag o "gcph_minus_gcsp"), (flag o "gcph_only_bins_in_spectro_range"); cbn; tauto.
    - destruct (flag o "gcph_minus_gcsp") eqn:Em.
      + apply Un. unfold l1, l2, multipole_sets, gcph_sets, gcsp_sets. rewrite Em. cbn [flat_map app map fst In]. intuition discriminate.
      + apply S. apply In2. unfold l2, gcph_sets. rewrite Em. destruct (flag o "gcph_only_bins_in_spectro_range"); cbn; tauto.
    - apply S. apply In2. unfold l2, gcsp_sets. apply in_or_app. right. cbn; tauto.
    - apply S. apply In2. unfold l2, gcsp_sets. apply in_or_app. right. cbn; tauto.
    - intros p k Hn. apply Un. intros H. apply Hn. revert H. unfold l1, l2, multipole_sets, gcph_sets, gcsp_sets, updated_places.
      destruct (flag o "gcph_minus_gcsp"), (flag o "gcph_only_bins_in_spectro_range"); cbn [flat_map app map fst In]; tauto.
  Qed.
  (** Both GCph switches at once are refused, after the multipoles were set. *)
  Theorem C76_conflict (o : @opts F) (es : entries) : has_probe es "GCph" -> has_probe es "GCsp" -> has_probe es "WL" -> both_flags o = true ->
    exists es', update_data ftext o es = (es', Err ENotImplemented) /\ setting es' "GCsp" "l_min" = Some (SInt 10) /\
      setting es' "GCph" "density_file" = setting es "GCph" "density_file".
  Proof.
    intros Hph Hsp Hwl Hb. unfold update_data. unfold both_flags in Hb. rewrite Hb.
    destruct (set_all_spec (multipole_sets o) es) as (es' & -> & _ & S & Un).
    - intros p k v Hin. assert (Q : p = "GCph"%string \/ p = "GCsp"%string \/ p = "WL"%string); [|destruct Q as [-> |[-> | ->]]; assumption].
      unfold multipole_sets in Hin. cbn [flat_map app In] in Hin. repeat (destruct Hin as [Hin|Hin]; [injection Hin as <- _ _; tauto|]); destruct Hin.
    - unfold multipole_sets. cbn [flat_map app map fst]. repeat constructor; cbn; intuition discriminate.
    - exists es'. split; [reflexivity|]. split.
      + apply S. unfold multipole_sets. cbn; tauto.
      + apply Un. unfold multipole_sets. cbn [flat_map app map fst In]. intuition discriminate.
  Qed.

  (** ** C76: file names *)
  Definition flag_names := ["gcph_minus_gcsp"; "shot_noise_sp_reduced"; "gcph_only_bins_in_spectro_range"]%string.
  Definition flag_lists : list (list string) :=
    [] :: map (fun a => [a]) flag_names ++
    flat_map (fun a => map (fun b => [a; b]) flag_names) flag_names ++
    flat_map (fun a => flat_map (fun b => map (fun c => [a; b; c]) flag_names) flag_names) flag_names.
  Definition stem (x : string * (Z * list string)) : string :=
    fold_left (fun s n => s ++ "_" ++ n)%string (snd (snd x)) (fst x ++ "_" ++ ztext (fst (snd x)) ++ "_sp_bins")%string.
  Definition all_stems : list (string * (Z * list string)) := list_prod scenarios (list_prod bin_numbers flag_lists).
  Lemma flag_lists_In l : NoDup l -> incl l flag_names -> In l flag_lists.
  Proof.
    intros N I. assert (L : length l <= 3) by (apply (NoDup_incl_length N) in I; exact I).
    assert (Hin : forall x, In x l -> In x flag_names) by exact I. clear N I. unfold flag_lists.
    destruct l as [|a [|b [|c [|? ?]]]]; cbn [length] in L; try lia.
    - left; reflexivity.
    - right. apply in_or_app. left. apply (in_map (fun x => [x])). apply Hin. left; reflexivity.
    - right. apply in_or_app. right. apply in_or_app. left. apply in_flat_map. exists a. split; [apply Hin; left; reflexivity|]. apply (in_map (fun x => [a; x])). apply Hin. right; left; reflexivity.
    - right. apply in_or_app. right. apply in_or_app. right. apply in_flat_map. exists a. split; [apply Hin; left; reflexivity|].
      apply in_flat_map. exists b. split; [apply Hin; right; left; reflexivity|]. apply (in_map (fun x => [a; b; x])). apply Hin. right; right; left; reflexivity.
  Qed.
  Fixpoint nodupb (l : list string) : bool := match l with [] => true | x :: l' => negb (smem x l') && nodupb l' end.
  Lemma nodupb_NoDup l : nodupb l = true -> NoDup l.
  Proof. induction l as [|x l IH]; cbn; [constructor|]. rewrite andb_true_iff, negb_true_iff. intros [A B]. apply smem_false in A. constructor; auto. Qed.
  Lemma map_inj {A} (f : A -> string) l x y : NoDup (map f l) -> In x l -> In y l -> f x = f y -> x = y.
  Proof.
    induction l as [|a l IH]; intros N Hx Hy E; [destruct Hx|]. cbn in N. inversion N as [|? ? Na N']; subst.
    destruct Hx as [<-|Hx], Hy as [<-|Hy]; [reflexivity|destruct Na; rewrite E; apply in_map; exact Hy|destruct Na; rewrite <- E; apply in_map; exact Hx|apply IH; assumption].
  Qed.
  Lemma stems_inj x y : In x all_stems -> In y all_stems -> stem x = stem y -> x = y.
  Proof. apply map_inj. apply nodupb_NoDup. vm_compute. reflexivity. Qed.
  Lemma sapp_inj_r a b c : (a ++ c = b ++ c)%string -> a = b.
  Proof.
    revert b. induction a as [|x a IH]; intros [|y b] E.
    - reflexivity.
    - apply (f_equal String.length) in E. cbn in E. rewrite slen_app in E. lia.
    - apply (f_equal String.length) in E. cbn in E. rewrite slen_app in E. lia.
    - cbn in E. injection E as <- E. f_equal. apply IH. exact E.
  Qed.
  Lemma true_opts_flag (o : @opts F) n : NoDup (dkeys o) -> (In n (true_opts o) <-> flag o n = true).
  Proof.
    intros N. unfold true_opts, flag. rewrite in_map_iff. split.
    - intros [[k v] [<- H]]. apply filter_In in H. destruct H as [H V]. cbn [fst snd] in *. rewrite (@dget_NoDup_In _ _ String.eqb String.eqb_spec o k v N H). destruct v as [|[]| | |]; try discriminate. reflexivity.
    - destruct (dget String.eqb o n) as [v|] eqn:E; [|discriminate]. apply (dget_In _ String.eqb_spec) in E. intros V. exists (n, v). split; [reflexivity|]. apply filter_In. split; [exact E|]. cbn. destruct v as [|[]| | |]; try discriminate. reflexivity.
  Qed.
  (** Options that differ give files with different names (whole bin numbers, same date). *)
  Theorem C76_file_names (o o' : @opts F) date s s' n n' name :
    NoDup (dkeys o) -> NoDup (dkeys o') -> (forall k, In k (dkeys o) -> In k opt_names) -> (forall k, In k (dkeys o') -> In k opt_names) ->
    In s scenarios -> In s' scenarios -> In n bin_numbers -> In n' bin_numbers ->
    dget String.eqb o "scenario" = Some (SStr s) -> dget String.eqb o' "scenario" = Some (SStr s') ->
    dget String.eqb o "n_sp_bins" = Some (SInt n) -> dget String.eqb o' "n_sp_bins" = Some (SInt n') ->
    file_name ftext date o = Ok name -> file_name ftext date o' = Ok name ->
    s = s' /\ n = n' /\ forall k, flag o k = flag o' k.
  Proof.
    intros N N' Ko Ko' Hs Hs' Hn Hn' Es Es' En En'. unfold file_name, dgetr. rewrite Es, Es', En, En'. cbn [rbind sv_text]. intros E E'. injection E as E. injection E' as E'.
    rewrite <- E' in E. clear E'. apply sapp_inj_r in E. change (stem (s, (n, true_opts o)) = stem (s', (n', true_opts o'))) in E.
    assert (G : forall (o : @opts F), NoDup (dkeys o) -> (forall k, In k (dkeys o) -> In k opt_names) -> flag o "scenario" = false -> flag o "n_sp_bins" = false -> In (true_opts o) flag_lists).
    { clear. intros o N Ko F1 F2. apply flag_lists_In.
      - unfold true_opts. unfold dkeys in N. clear -N. induction o as [|[k v] o IH]; cbn; [constructor|]. cbn in N. inversion N as [|? ? Nk N']; subst.
        destruct v as [|[]| | |]; try (apply IH; exact N'). cbn. constructor; [|apply IH; exact N']. intros H. apply Nk. apply in_map_iff in H. destruct H as [[k' v'] [<- H]]. apply filter_In in H. destruct H as [H _]. apply (in_map fst) in H. exact H.
      - intros k Hk. pose proof Hk as Hk2. apply (true_opts_flag o k N) in Hk2.
        assert (Kk : In k (dkeys o)) by (unfold true_opts in Hk; apply in_map_iff in Hk; destruct Hk as [[k' v'] [<- H]]; apply filter_In in H; destruct H as [H _]; apply (in_map fst) in H; exact H).
        apply Ko in Kk. cbn in Kk. destruct Kk as [<-|[<-|[<-|[<-|[<-|[]]]]]]; [congruence|congruence|cbn; tauto|cbn; tauto|cbn; tauto]. }
    assert (Fs : flag o "scenario" = false /\ flag o "n_sp_bins" = false) by (unfold flag; rewrite Es, En; auto).
    assert (Fs' : flag o' "scenario" = false /\ flag o' "n_sp_bins" = false) by (unfold flag; rewrite Es', En'; auto).
    apply stems_inj in E.
    - injection E as <- <- E. split; [reflexivity|]. split; [reflexivity|]. intros k. apply eq_true_iff_eq. rewrite <- !true_opts_flag by assumption. rewrite E. tauto.
    - unfold all_stems. apply in_prod; [exact Hs|]. apply in_prod; [exact Hn|]. apply G; tauto.
    - unfold all_stems. apply in_prod; [exact Hs'|]. apply in_prod; [exact Hn'|]. apply G; tauto.
  Qed.

  (** ** C77: identifiers *)
  Definition std_opts (s : string) (n : Z) (f1 f2 f3 : bool) : @opts F :=
    [("scenario", SStr s); ("n_sp_bins", SInt n); ("gcph_minus_gcsp", SBool f1); ("shot_noise_sp_reduced", SBool f2); ("gcph_only_bins_in_spectro_range", SBool f3)]%string.
  (** Complete valid options in the usual order are told apart. *)
  Definition std_id (x : string * (Z * (bool * (bool * bool)))) : string :=
    match config_id ftext (std_opts (fst x) (fst (snd x)) (fst (snd (snd x))) (fst (snd (snd (snd x)))) (snd (snd (snd (snd x))))) with Some t => t | None => "" end.
  Definition bools := [true; false].
  Theorem C77_distinct s n f1 f2 f3 s' n' f1' f2' f3' : In s scenarios -> In n bin_numbers -> In s' scenarios -> In n' bin_numbers ->
    config_id ftext (std_opts s n f1 f2 f3) = config_id ftext (std_opts s' n' f1' f2' f3') -> std_opts s n f1 f2 f3 = std_opts s' n' f1' f2' f3'.
  Proof.
    intros Hs Hn Hs' Hn' E.
    assert (X : (s, (n, (f1, (f2, f3)))) = (s', (n', (f1', (f2', f3'))))).
    { assert (B : forall b, In b bools) by (intros []; cbn; tauto).
      apply (map_inj std_id (list_prod scenarios (list_prod bin_numbers (list_prod bools (list_prod bools bools))))).
      - apply nodupb_NoDup. vm_compute. reflexivity.
      - repeat (apply in_prod; auto).
      - repeat (apply in_prod; auto).
      - unfold std_id. cbn [fst snd]. rewrite E. reflexivity. }
    injection X as -> -> -> -> ->. reflexivity.
  Qed.
  (** No identifier exactly when all options are switches that are off. *)
  Theorem C77_none (o : @opts F) : config_id ftext o = None <-> forall k v, In (k, v) o -> v = SBool false.
  Proof.
    unfold config_id. assert (G : id_parts ftext o = [] <-> forall k v, In (k, v) o -> v = SBool false).
    { unfold id_parts. induction o as [|[k v] o IH]; cbn; [split; [intros _ ? ? []|reflexivity]|]. split.
      - intros E. apply app_eq_nil in E. destruct E as [E1 E2]. intros k' v' [H|H]; [injection H as <- <-; destruct v as [|[]| | |]; try discriminate; reflexivity|apply (proj1 IH E2 k' v' H)].
      - intros H. rewrite (H k v (or_introl eq_refl)). cbn. apply IH. intros k' v' Hin. apply (H k' v'). right. exact Hin. }
    rewrite <- G. destruct (id_parts ftext o); split; congruence.
  Qed.
  (** The same options in another order have another identifier. *)
  Theorem C77_order_refuted : exists o o' : @opts F, (forall k, dget String.eqb o k = dget String.eqb o' k) /\ config_id ftext o <> config_id ftext o'.
  Proof.
    exists [("a", SInt 1); ("b", SInt 2)]%string, [("b", SInt 2); ("a", SInt 1)]%string. split; [|vm_compute; discriminate].
    intros x. cbn [dget]. destruct (String.eqb_spec "a" x) as [A|A], (String.eqb_spec "b" x) as [B|B]; try reflexivity. subst x. discriminate.
  Qed.
  (** Different options may share an identifier. *)
  Theorem C77_collision_refuted : exists o o' : @opts F, dget String.eqb o "a" <> dget String.eqb o' "a" /\ config_id ftext o = config_id ftext o' /\ config_id ftext o <> None.
  Proof. exists [("a", SInt 1)]%string, [("a_1", SBool true)]%string. split; [discriminate|]. split; [reflexivity|discriminate]. Qed.
End Editor.

From Coq Require Import QArith Qcanon.
Close Scope Qc_scope. Close Scope Q_scope.
Example C76_instance : valid_opts (std_opts (F := Qc) "optimistic" 12 false true false) /\
  is_ok (check_opts (std_opts (F := Qc) "optimistic" 13 false true false)) = false /\
  file_name (fun _ => ""%string) None (std_opts (F := Qc) "optimistic" 12 false true false) = Ok "optimistic_12_sp_bins_shot_noise_sp_reduced.json"%string /\
  config_id (fun _ => ""%string) (std_opts (F := Qc) "optimistic" 12 false true false) = Some "scenario_optimistic__n_sp_bins_12__shot_noise_sp_reduced"%string.
Proof. split; [apply C76_accepts; vm_compute; reflexivity|]. split; [vm_compute; reflexivity|]. split; vm_compute; reflexivity. Qed.

Print Assumptions C76_accepts.
Print Assumptions C76_updates.
Print Assumptions C76_conflict.
Print Assumptions C76_file_names.
Print Assumptions C77_distinct.
Print Assumptions C77_none.
Print Assumptions C77_order_refuted.
Print Assumptions C77_collision_refuted.
