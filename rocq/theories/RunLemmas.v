(** Lemmas on the program run_seyfert: the command line read back. *)
From Verif Require Import Base SortLib StrLib NameModel NameLemmas FsModel IniModel BatchModel BatchProps BatchProps2 RunModel.
Open Scope list_scope.
Open Scope string_scope.

(** ** Numbers *)
Lemma is_number_dec n : is_number (dec n) = true.
Proof.
  destruct (dec_digits n) as [A N]. unfold is_number. pose proof (span_app is_digit (dec n) "" A I) as E. rewrite sapp_nil_r in E. rewrite E.
  destruct (dec n); [congruence|reflexivity].
Qed.
Lemma parse_ztext n : parse_int (ztext n) = Some n.
Proof.
  unfold ztext. destruct (Z.ltb_spec n 0) as [L|L].
  - cbn [append parse_int]. rewrite is_number_dec, num_dec. f_equal. rewrite Nat2Z.inj_abs_nat. lia.
  - unfold parse_int. pose proof (is_number_dec (Z.abs_nat n)) as D. destruct (dec_first (Z.abs_nat n)) as (d & r & Hd & E).
    destruct (digit_props d Hd) as [Dd _]. rewrite E in *. assert (G : forall a, is_digit a = true -> a <> "-"%char) by (intros a Ha ->; discriminate Ha).
    specialize (G _ Dd). destruct (digit d) as [[] [] [] [] [] [] [] []]; try (rewrite D, <- E, num_dec; f_equal; rewrite Nat2Z.inj_abs_nat; lia). congruence.
Qed.
Lemma argument_number n : is_argument (ztext n) = true.
Proof.
  unfold ztext. destruct (Z.ltb n 0).
  - cbn [append is_argument]. pose proof (is_number_dec (Z.abs_nat n)) as D. destruct (dec (Z.abs_nat n)); [reflexivity|exact D].
  - pose proof (is_number_dec (Z.abs_nat n)) as D. destruct (dec (Z.abs_nat n)) as [|a r]; [reflexivity|]. cbn [is_argument].
    destruct (Ascii.eqb_spec a "-"); [subst a; discriminate D|]. destruct a as [[] [] [] [] [] [] [] []]; try reflexivity. congruence.
Qed.

(** ** Grouping *)
Lemma option_not_argument k : is_argument ("--" ++ k) = false.
Proof. reflexivity. Qed.
Definition pair_words (kx : string * string) : list string := ["--" ++ fst kx; snd kx].
Lemma group_pairs l : (forall k v, In (k, v) l -> is_argument v = true) ->
  group (flat_map pair_words l) = Some (map (fun kx => ("--" ++ fst kx, [snd kx])) l).
Proof.
  intros H. unfold group. assert (E : fold_right group_step ([], []) (flat_map pair_words l) = ([], map (fun kx => ("--" ++ fst kx, [snd kx])) l)); [|rewrite E; reflexivity].
  induction l as [|[k v] l IH]; [reflexivity|]. cbn [flat_map pair_words fst snd app fold_right]. rewrite IH by (intros k' v' I; apply (H k'); right; exact I).
  unfold group_step at 2. rewrite (H k v (or_introl eq_refl)). unfold group_step. rewrite option_not_argument. reflexivity.
Qed.

(** ** Options *)
Lemma dashes_inj a b : "--" ++ a = "--" ++ b -> a = b. Proof. apply sapp_inj_l. Qed.
Lemma find_opt_named os o : NoDup (map o_name os) -> In o os -> find_opt os ("--" ++ o_name o) = Some o.
Proof.
  intros N I. unfold find_opt. induction os as [|p os IH]; [destruct I|]. cbn [find]. inversion N as [|? ? Np N']; subst. destruct I as [->|I].
  - rewrite String.eqb_refl. reflexivity.
  - destruct (String.eqb_spec ("--" ++ o_name p) ("--" ++ o_name o)) as [E|_]; [|apply IH; assumption].
    exfalso. apply Np. apply dashes_inj in E. rewrite E. apply in_map. exact I.
Qed.
Lemma find_opt_some os w o : find_opt os w = Some o -> In o os /\ w = "--" ++ o_name o.
Proof. intros H. apply find_some in H as [I E]. apply String.eqb_eq in E. auto. Qed.
Lemma aset_same (d : args) k v : dget String.eqb (sset d k v) k = Some v.
Proof. apply (dget_dset_same _ String.eqb_spec). Qed.
Lemma aset_other (d : args) k k' v : k <> k' -> dget String.eqb (sset d k v) k' = dget String.eqb d k'.
Proof. intros N. unfold sset. apply (dget_dset_other _ String.eqb_spec). congruence. Qed.
Lemma sset_keys (d : args) k v : In k (dkeys d) -> dkeys (sset d k v) = dkeys d.
Proof.
  unfold sset, dkeys. induction d as [|[k' v'] d IH]; intros I; [destruct I|]. cbn [dset]. destruct (String.eqb_spec k' k) as [->|N]; [reflexivity|].
  cbn. f_equal. apply IH. destruct I as [E|I]; [cbn in E; congruence|exact I].
Qed.
(** Every option has a value after parsing: read from its words, or its default
    unless it is required. *)
Definition has_value (gs : list (string * list string)) (d : args) (o : opt) : Prop :=
  exists v, dget String.eqb d (o_name o) = Some v /\
    ((exists ws, In ("--" ++ o_name o, ws) gs /\ take (o_kind o) ws = Some v) \/ (v = o_default o /\ ~ exists ws, In ("--" ++ o_name o, ws) gs)).
Lemma parse_groups_values os : NoDup (map o_name os) -> forall gs d d', dkeys d = map o_name os -> parse_groups os gs d = Some d' ->
  dkeys d' = map o_name os /\ forall o v, In o os -> dget String.eqb d (o_name o) = Some v ->
    exists v', dget String.eqb d' (o_name o) = Some v' /\
      ((exists ws, In ("--" ++ o_name o, ws) gs /\ take (o_kind o) ws = Some v') \/ (v' = v /\ ~ exists ws, In ("--" ++ o_name o, ws) gs)).
Proof.
  intros N. induction gs as [|[w ws] gs IH]; intros d d' Kd E.
  - cbn in E. injection E as <-. split; [exact Kd|]. intros o v _ D. exists v. split; [exact D|]. right. split; [reflexivity|]. intros (ws & []).
  - cbn [parse_groups] in E. destruct (find_opt os w) as [p|] eqn:Fp; [|discriminate E]. destruct (take (o_kind p) ws) as [u|] eqn:T; [|discriminate E].
    destruct (find_opt_some _ _ _ Fp) as [Ip ->]. assert (Kp : In (o_name p) (dkeys d)) by (rewrite Kd; apply in_map; exact Ip).
    destruct (IH (sset d (o_name p) u) d') as [K' H]; [rewrite sset_keys; assumption|exact E|]. split; [exact K'|]. intros o v Io D.
    destruct (string_dec (o_name p) (o_name o)) as [Ep|Np].
    + assert (Eo : p = o). { pose proof (find_opt_named os o N Io) as A. rewrite <- Ep, Fp in A. congruence. } subst p. clear Ep.
      destruct (H o u Io) as (v' & D' & [(ws' & I & T')|(-> & Nn)]); [apply aset_same| |].
      * exists v'. split; [exact D'|]. left. exists ws'. split; [right; exact I|exact T'].
      * exists u. split; [exact D'|]. left. exists ws. split; [left; reflexivity|exact T].
    + destruct (H o v Io) as (v' & D' & [(ws' & I & T')|(-> & Nn)]); [rewrite aset_other by exact Np; exact D| |].
      * exists v'. split; [exact D'|]. left. exists ws'. split; [right; exact I|exact T'].
      * exists v. split; [exact D'|]. right. split; [reflexivity|]. intros (ws' & [I|I]); [injection I as E1 _; exact (Np E1)|apply Nn; eauto].
Qed.
Lemma default_get os o : NoDup (map o_name os) -> In o os -> dget String.eqb (map (fun o => (o_name o, o_default o)) os) (o_name o) = Some (o_default o).
Proof.
  intros N I. apply (dget_NoDup_In _ String.eqb_spec); [unfold dkeys; rewrite map_map; exact N|]. apply in_map_iff. exists o. auto.
Qed.
Lemma parse_args_values os ws d : NoDup (map o_name os) -> parse_args os ws = Some d ->
  dkeys d = map o_name os /\ forall o, In o os -> exists v, dget String.eqb d (o_name o) = Some v /\
    ((exists l, take (o_kind o) l = Some v) \/ (v = o_default o /\ o_required o = false)).
Proof.
  intros N E. unfold parse_args in E. destruct (group ws) as [gs|]; [|discriminate E]. destruct (forallb _ os) eqn:Rq; [|discriminate E]. rewrite forallb_forall in Rq.
  destruct (parse_groups_values os N gs (map (fun o => (o_name o, o_default o)) os) d) as [K H]; [unfold dkeys; rewrite map_map; reflexivity|exact E|]. split; [exact K|]. intros o Io.
  destruct (H o _ Io (default_get os o N Io)) as (v & D & [(l & _ & T)|(-> & Nn)]); eexists; (split; [exact D|]); [left; eauto|].
  right. split; [reflexivity|]. specialize (Rq o Io). destruct (o_required o); [|reflexivity]. cbn [negb orb] in Rq. exfalso. apply Nn. apply existsb_exists in Rq as ([w l] & I & Ew).
  apply String.eqb_eq in Ew. cbn [fst] in Ew. subst w. eauto.
Qed.

(** ** The command read back *)
(** What a printed value is read as. *)
Definition read_as (k : kind) (v : value) : value :=
  match v with
  | VFlag _ => VText (value_text v)
  | VText t => match k with KList => VList [t] | _ => v end
  | _ => v
  end.
Definition printed (v : value) : bool := match v with VNone => false | _ => true end.
Definition printed_pairs (d : args) : list (string * string) := map (fun kx => (fst kx, value_text (snd kx))) (filter (fun kx => printed (snd kx)) d).
Lemma printed_In d k v : In (k, v) d -> v <> VNone -> In (k, value_text v) (printed_pairs d).
Proof. intros I N. unfold printed_pairs. apply in_map_iff. exists (k, v). split; [reflexivity|]. apply filter_In. split; [exact I|]. destruct v; [congruence|reflexivity..]. Qed.
Lemma printed_out d k t : In (k, t) (printed_pairs d) -> exists v, In (k, v) d /\ v <> VNone /\ t = value_text v.
Proof. intros I. unfold printed_pairs in I. apply in_map_iff in I as ([k' v] & E & I). injection E as <- <-. apply filter_In in I as [I P]. exists v. split; [exact I|]. split; [intros ->; discriminate P|reflexivity]. Qed.
(** Every option of [os] has a value in [d] that its kind can read. *)
Definition fits_kind (o : opt) (v : value) : Prop :=
  match v with
  | VNone => True
  | VFlag _ => o_kind o = KFlag
  | VInt _ => o_kind o = KInt
  | VText s => o_kind o <> KInt
  | VList _ => False
  end.
Lemma take_text o v : fits_kind o v -> v <> VNone -> take (o_kind o) [value_text v] = Some (read_as (o_kind o) v).
Proof.
  destruct v as [|b|n|s|l]; cbn [fits_kind]; intros H N; [congruence| | | |contradiction].
  - rewrite H. reflexivity.
  - rewrite H. cbn. rewrite parse_ztext. reflexivity.
  - destruct (o_kind o); [reflexivity|congruence|reflexivity..].
Qed.
Lemma parse_groups_pairs os : NoDup (map o_name os) -> forall l d0, NoDup (dkeys l) ->
  (forall k v, In (k, v) l -> v <> VNone -> exists o, In o os /\ o_name o = k /\ fits_kind o v) ->
  exists d, parse_groups os (map (fun kx => ("--" ++ fst kx, [snd kx])) (printed_pairs l)) d0 = Some d /\
    (forall o v, In o os -> In (o_name o, v) l -> v <> VNone -> dget String.eqb d (o_name o) = Some (read_as (o_kind o) v)) /\
    (forall k, (forall v, In (k, v) l -> v = VNone) -> dget String.eqb d k = dget String.eqb d0 k).
Proof.
  intros N. induction l as [|[k v] l IH]; intros d0 Nl H.
  - exists d0. split; [reflexivity|]. split; [intros ? ? ? []|auto].
  - unfold dkeys in Nl. cbn in Nl. inversion Nl as [|? ? Nk Nl']; subst.
    assert (H' : forall k' v', In (k', v') l -> v' <> VNone -> exists o, In o os /\ o_name o = k' /\ fits_kind o v') by (intros; apply H; [right|]; assumption).
    destruct (printed v) eqn:P.
    + assert (Nv : v <> VNone) by (intros ->; discriminate P). destruct (H k v (or_introl eq_refl) Nv) as (o & Io & <- & Fo).
      destruct (IH (sset d0 (o_name o) (read_as (o_kind o) v)) Nl' H') as (d & E & A & B). exists d.
      assert (Bo : dget String.eqb d (o_name o) = Some (read_as (o_kind o) v)).
      { rewrite B; [apply aset_same|]. intros v' I. exfalso. apply Nk. apply in_map_iff. exists (o_name o, v'). auto. }
      split; [|split].
      * unfold printed_pairs. cbn [filter snd]. rewrite P. cbn [map fst snd parse_groups]. rewrite (find_opt_named os o N Io), (take_text o v Fo Nv). exact E.
      * intros o' v' Io' [I|I] Nv'; [|apply A; assumption]. injection I as En <-. assert (o' = o). { pose proof (find_opt_named os o' N Io') as X. rewrite <- En, (find_opt_named os o N Io) in X. congruence. }
        subst o'. exact Bo.
      * intros k' Hk. rewrite B by (intros v' I; apply Hk; right; exact I). apply aset_other. intros <-. apply Nv. apply Hk. left. reflexivity.
    + assert (v = VNone) by (destruct v; try discriminate P; reflexivity). subst v. destruct (IH d0 Nl' H') as (d & E & A & B). exists d. split; [|split].
      * unfold printed_pairs. cbn [filter snd printed]. exact E.
      * intros o' v' Io' [I|I] Nv'; [injection I as _ <-; congruence|apply A; assumption].
      * intros k' Hk. apply B. intros v' I. apply Hk. right. exact I.
Qed.
(** A printed dictionary of all options is read back. *)
Lemma read_back os d : NoDup (map o_name os) -> dkeys d = map o_name os ->
  (forall o v, In o os -> dget String.eqb d (o_name o) = Some v -> fits_kind o v /\ (v = VNone -> o_required o = false) /\ (v <> VNone -> is_argument (value_text v) = true)) ->
  exists d', parse_args os (flat_map pair_words (printed_pairs d)) = Some d' /\
    forall o v, In o os -> dget String.eqb d (o_name o) = Some v ->
      dget String.eqb d' (o_name o) = Some (match v with VNone => o_default o | _ => read_as (o_kind o) v end).
Proof.
  intros N Kd H. assert (Nd : NoDup (dkeys d)) by (rewrite Kd; exact N).
  assert (G : forall k v, In (k, v) d -> exists o, In o os /\ o_name o = k /\ dget String.eqb d (o_name o) = Some v).
  { intros k v I. assert (Ik : In k (map o_name os)) by (rewrite <- Kd; apply in_map_iff; exists (k, v); auto). apply in_map_iff in Ik as (o & <- & Io). exists o. split; [exact Io|]. split; [reflexivity|].
    apply (dget_NoDup_In _ String.eqb_spec); assumption. }
  unfold parse_args. rewrite group_pairs.
  - assert (Rq : forallb (fun o => negb (o_required o) || existsb (fun g => String.eqb ("--" ++ o_name o) (fst g)) (map (fun kx => ("--" ++ fst kx, [snd kx])) (printed_pairs d))) os = true).
    { apply forallb_forall. intros o Io. assert (Ik : In (o_name o) (dkeys d)) by (rewrite Kd; apply in_map; exact Io). unfold dkeys in Ik. apply in_map_iff in Ik as ([k v] & Ek & I). cbn in Ek. subst k.
      pose proof (dget_NoDup_In _ String.eqb_spec d _ _ Nd I) as D. destruct (H o v Io D) as (_ & Hn & _). destruct (o_required o) eqn:R; [|reflexivity]. cbn [negb orb].
      apply existsb_exists. exists ("--" ++ o_name o, [value_text v]). split; [|apply String.eqb_refl]. apply in_map_iff. exists (o_name o, value_text v). split; [reflexivity|].
      apply printed_In; [exact I|]. intros ->. discriminate (Hn eq_refl). }
    rewrite Rq. destruct (parse_groups_pairs os N d (map (fun o => (o_name o, o_default o)) os) Nd) as (d' & E & A & B).
    { intros k v I _. destruct (G k v I) as (o & Io & En & D). exists o. split; [exact Io|]. split; [exact En|]. apply (H o v Io D). }
    exists d'. split; [exact E|]. intros o v Io D. pose proof (dget_In _ String.eqb_spec d (o_name o) D) as I.
    assert (X : v = VNone \/ v <> VNone) by (destruct v; [left; reflexivity|right; discriminate..]). destruct X as [-> |Nv].
    + rewrite B; [apply default_get; assumption|]. intros v' I'. pose proof (dget_NoDup_In _ String.eqb_spec d _ _ Nd I'). congruence.
    + rewrite (A o v Io I Nv). destruct v; congruence.
  - intros k t I. destruct (printed_out d k t I) as (v & Iv & Nv & ->). destruct (G k v Iv) as (o & Io & En & D). apply (H o v Io D). exact Nv.
Qed.
