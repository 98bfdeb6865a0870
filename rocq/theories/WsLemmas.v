(** Lemmas about WsModel. *)
From Coq Require Import Permutation.
From Verif Require Import Base SortLib StrLib FrameModel NameModel NameLemmas ParamLemmas WsModel.
Open Scope string_scope.
Open Scope list_scope.

Lemma occurs_iff w s : occurs w s = true <-> exists a b, s = (a ++ w ++ b)%string.
Proof.
  split.
  - induction s as [|c s IH]; cbn [occurs]; rewrite orb_true_iff.
    + intros [H|H]; [|discriminate]. apply starts_iff in H. destruct H as (r & H). exists ""%string, r. exact H.
    + intros [H|H].
      * apply starts_iff in H. destruct H as (r & H). exists ""%string, r. exact H.
      * destruct (IH H) as (a & b & ->). exists (String c a), b. reflexivity.
  - intros (a & b & ->). induction a as [|c a IH].
    + destruct (w ++ b)%string eqn:E; cbn [append occurs]; rewrite orb_true_iff; left; apply starts_iff; exists b; symmetry; exact E.
    + cbn [append occurs]. rewrite IH. apply orb_true_r.
Qed.

(** A text without the separator cannot straddle it. *)
Lemma cut_sep c w : has c w = false -> w <> ""%string -> forall a b x y, (a ++ String c b = x ++ w ++ y)%string ->
  (exists p q, a = (p ++ w ++ q)%string) \/ (exists p q, b = (p ++ w ++ q)%string).
Proof.
  intros Hw Hne. induction a as [|d a IH]; intros b x y E.
  - destruct x as [|e x].
    + cbn in E. destruct w as [|e w]; [congruence|]. cbn in E. injection E as E1 E2. subst e.
      cbn in Hw. rewrite Ascii.eqb_refl in Hw. discriminate.
    + cbn in E. injection E as _ E. right. exists x, y. exact E.
  - destruct x as [|e x].
    + cbn [append] in E. clear IH. revert E.
      assert (G : forall a' w', has c w' = false -> (a' ++ String c b = w' ++ y)%string -> exists q, a' = (w' ++ q)%string).
      { clear. induction a' as [|f a' IH]; intros w' Hw E.
        - destruct w' as [|g w']; [exists ""%string; reflexivity|]. cbn in E. injection E as E1 _. subst g. cbn in Hw. rewrite Ascii.eqb_refl in Hw. discriminate.
        - destruct w' as [|g w']; [exists (String f a'); reflexivity|]. cbn in E. injection E as E1 E2. subst g.
          cbn in Hw. apply orb_false_iff in Hw. destruct Hw as [_ Hw]. destruct (IH w' Hw E2) as (q & ->). exists q. reflexivity. }
      intros E. destruct (G (String d a) w Hw E) as (q & Hq). left. exists ""%string, q. exact Hq.
    + cbn in E. injection E as E1 E2. subst e. destruct (IH b x y E2) as [(p & q & ->)|(p & q & ->)].
      * left. exists (String d p), q. reflexivity.
      * right. exists p, q. reflexivity.
Qed.

Lemma dec_digits n : all_chars is_digit (dec n) = true.
Proof.
  unfold dec. assert (G : forall f m, all_chars is_digit (dec_fuel f m) = true).
  { induction f as [|f IH]; intros m; [reflexivity|]. cbn [dec_fuel]. destruct (m <? 10)%nat eqn:E.
    - apply Nat.ltb_lt in E. cbn [all_chars]. rewrite (proj1 (digit_props m E)). reflexivity.
    - assert (A : forall u v, all_chars is_digit u = true -> all_chars is_digit v = true -> all_chars is_digit (u ++ v)%string = true).
      { induction u as [|c u IHu]; intros v Hu Hv; [exact Hv|]. cbn in *. apply andb_true_iff in Hu. destruct Hu as [-> Hu]. apply IHu; assumption. }
      apply A; [apply IH|]. cbn [all_chars]. rewrite (proj1 (digit_props (m mod 10) ltac:(apply Nat.mod_upper_bound; lia))). reflexivity. }
  apply G.
Qed.
(** The number a text of digits stands for. *)
Fixpoint number (acc : nat) (s : string) : nat :=
  match s with EmptyString => acc | String a r => number (10 * acc + (nat_of_ascii a - 48)) r end.
Lemma number_app s : forall t acc, number acc (s ++ t)%string = number (number acc s) t.
Proof. induction s as [|c s IH]; intros t acc; [reflexivity|]. cbn [append number]. apply IH. Qed.
Lemma dec_number n : number 0 (dec n) = n.
Proof.
  unfold dec. assert (G : forall f m, (m < f)%nat -> number 0 (dec_fuel f m) = m).
  { induction f as [|f IH]; intros m Hm; [lia|]. cbn [dec_fuel]. destruct (m <? 10)%nat eqn:E.
    - apply Nat.ltb_lt in E. cbn [number]. destruct (digit_props m E) as [_ D]. unfold digit_val in D. rewrite D. lia.
    - apply Nat.ltb_ge in E. rewrite number_app, IH.
      + cbn [number]. destruct (digit_props (m mod 10) ltac:(apply Nat.mod_upper_bound; lia)) as [_ D]. unfold digit_val in D. rewrite D.
        rewrite <- Nat.div_mod by lia. reflexivity.
      + apply Nat.lt_le_trans with m; [apply Nat.div_lt; lia|lia]. }
  apply G. lia.
Qed.

Lemma digits_no_central s : all_chars is_digit s = true -> forall a b, s <> (a ++ "central" ++ b)%string.
Proof.
  intros H a b ->. induction a as [|c a IH]; cbn [append all_chars] in H.
  - cbn in H. discriminate.
  - apply andb_true_iff in H. apply IH. tauto.
Qed.
Lemma central_in_name v s : occurs "central" (jobdir_name v s) = occurs "central" v.
Proof.
  apply eq_iff_eq_true. rewrite !occurs_iff. split.
  - intros (a & b & E). unfold jobdir_name in E.
    change ("dvar_" ++ v ++ "_step_" ++ step_text s)%string with ("dvar" ++ String "_" (v ++ String "_" ("step" ++ String "_" (step_text s))))%string in E.
    destruct (cut_sep "_" "central" eq_refl ltac:(discriminate) _ _ _ _ E) as [(p & q & H)|(p & q & H)].
    { exfalso. revert H. clear. intros H. do 5 (destruct p as [|? p]; [discriminate H|]; cbn in H; try (injection H as _ H); try discriminate H). }
    destruct (cut_sep "_" "central" eq_refl ltac:(discriminate) _ _ _ _ H) as [Hv|(p' & q' & H')]; [exact Hv|].
    exfalso. destruct (cut_sep "_" "central" eq_refl ltac:(discriminate) _ _ _ _ H') as [(u & w & X)|(u & w & X)].
    { revert X. clear. intros H. do 5 (destruct u as [|? u]; [discriminate H|]; cbn in H; try (injection H as _ H); try discriminate H). }
    unfold step_text in X. destruct (Z.eqb s 0).
    { revert X. clear. intros H. do 2 (destruct u as [|? u]; [discriminate H|]; cbn in H; try (injection H as _ H); try discriminate H). }
    assert (Y : forall c, (c ++ "_" ++ dec (Z.abs_nat s))%string = (u ++ "central" ++ w)%string -> (c = "m" \/ c = "p")%string -> False).
    { clear X. intros c X Hc. change (c ++ "_" ++ dec (Z.abs_nat s))%string with (c ++ String "_" (dec (Z.abs_nat s)))%string in X.
      destruct (cut_sep "_" "central" eq_refl ltac:(discriminate) _ _ _ _ X) as [(u' & w' & Z)|(u' & w' & Z)].
      - destruct Hc; subst c; do 2 (destruct u' as [|? u']; [discriminate Z|]; cbn in Z; try (injection Z as _ Z); try discriminate Z).
      - exact (digits_no_central _ (dec_digits _) _ _ Z). }
    destruct (Z.ltb s 0); [apply (Y "m"%string); [exact X|left; reflexivity]|apply (Y "p"%string); [exact X|right; reflexivity]].
  - intros (a & b & ->). unfold jobdir_name. exists ("dvar_" ++ a)%string, (b ++ "_step_" ++ step_text s)%string. rewrite !sapp_assoc. reflexivity.
Qed.

Lemma in_dirs D d : In d (dirs_in D) <-> exists fs, In (d, Some fs) D.
Proof.
  unfold dirs_in. rewrite in_map_iff. split.
  - intros ((d' & o) & E & H). cbn in E. subst d'. apply filter_In in H. destruct H as [H X]. cbn in X. destruct o as [fs|]; [|discriminate]. exists fs. exact H.
  - intros (fs & H). exists (d, Some fs). split; [reflexivity|]. apply filter_In. split; [exact H|reflexivity].
Qed.
Lemma in_listing D d f : In (d, f) (listing_of D) <-> exists fs, In (d, Some fs) D /\ In f fs.
Proof.
  unfold listing_of. rewrite in_flat_map. split.
  - intros ((d' & o) & H & X). cbn in X. destruct o as [fs|]; [|destruct X]. apply in_map_iff in X. destruct X as (f' & E & X). injection E as -> ->. exists fs. split; assumption.
  - intros (fs & H & X). exists (d, Some fs). split; [exact H|]. cbn. apply in_map. exact X.
Qed.
Lemma In_set_of {SO : SetOrder} l x : In x (set_of l) <-> In x l.
Proof.
  unfold set_of, sdup. split; intros H.
  - eapply Permutation_in in H; [|apply ord_perm]. apply nodup_In in H. exact H.
  - eapply Permutation_in; [apply Permutation_sym, ord_perm|]. apply nodup_In. exact H.
Qed.
Lemma set_of_NoDup {SO : SetOrder} l : NoDup (set_of l).
Proof. unfold set_of. eapply Permutation_NoDup; [apply Permutation_sym, ord_perm|]. apply NoDup_nodup. Qed.

(** The filter that looks for one file, on one directory. *)
Lemma listing_dir D dir P : NoDup (map fst D) ->
  filter (fun df => String.eqb (fst df) dir && P (snd df)) (listing_of D) =
  match dget String.eqb D dir with Some (Some fs) => map (pair dir) (filter P fs) | _ => [] end.
Proof.
  induction D as [|[d o] D IH]; intros Hn; [reflexivity|]. cbn [map fst] in Hn. apply NoDup_cons_iff in Hn. destruct Hn as [Hd Hn].
  unfold listing_of in *. cbn [flat_map fst snd]. rewrite filter_app, IH by exact Hn. cbn [dget]. rewrite (String.eqb_sym d dir).
  assert (Z : String.eqb dir d = true -> dget String.eqb D dir = None).
  { intros E. apply String.eqb_eq in E. subst d. destruct (dget String.eqb D dir) eqn:G; [|reflexivity]. exfalso. apply Hd.
    apply (dget_In _ String.eqb_spec) in G. apply in_map_iff. exists (dir, o0). split; [reflexivity|exact G]. }
  assert (Y : filter (fun df => String.eqb (fst df) dir && P (snd df)) (match o with Some fs => map (pair d) fs | None => [] end) =
              if String.eqb dir d then match o with Some fs => map (pair dir) (filter P fs) | None => [] end else []).
  { destruct o as [fs|]; [|destruct (String.eqb dir d); reflexivity]. rewrite (String.eqb_sym dir d). clear. induction fs as [|f fs IH]; [destruct (String.eqb d dir); reflexivity|].
    cbn [map filter fst snd]. destruct (String.eqb d dir) eqn:E; cbn [andb]; [|exact IH].
    apply String.eqb_eq in E. subst d. destruct (P f); cbn [map]; rewrite IH; reflexivity. }
  rewrite Y. destruct (String.eqb dir d) eqn:E.
  - rewrite (Z eq_refl), app_nil_r. destruct o; reflexivity.
  - reflexivity.
Qed.
Lemma ends_iff suf s : ends suf s = true <-> exists a, s = (a ++ suf)%string.
Proof.
  unfold ends. rewrite existsb_exists. split.
  - intros (n & _ & H). apply String.eqb_eq in H. exists (substring 0 n s). subst suf. revert n. induction s as [|c s IH]; intros n; [destruct n; reflexivity|].
    destruct n as [|n]; cbn.
    + f_equal. clear. induction s as [|c s IH]; [reflexivity|]. cbn. f_equal. exact IH.
    + f_equal. apply IH.
  - intros (a & ->). exists (String.length a). split.
    + apply in_seq. rewrite slen_app. lia.
    + apply String.eqb_eq. induction a as [|c a IH].
      * cbn [append String.length]. rewrite Nat.sub_0_r. clear. induction suf as [|c s IH]; [reflexivity|]. cbn. f_equal. exact IH.
      * cbn [append String.length substring]. exact IH.
Qed.
Lemma is_cl_file_iff f : is_cl_file f = true <-> exists m, f = ("cl" ++ m ++ ".h5")%string.
Proof.
  unfold is_cl_file. split.
  - destruct (strip_prefix "cl" f) as [r|] eqn:E; [|discriminate]. apply strip_prefix_some in E. intros H. apply ends_iff in H. destruct H as (m & ->). exists m. exact E.
  - intros (m & ->). rewrite strip_prefix_app. apply ends_iff. exists m. reflexivity.
Qed.
Lemma is_der_file_iff f : is_der_file f = true <-> exists m, f = ("cl_derivatives" ++ m ++ ".h5")%string.
Proof.
  unfold is_der_file. split.
  - destruct (strip_prefix "cl_derivatives" f) as [r|] eqn:E; [|discriminate]. apply strip_prefix_some in E. intros H. apply ends_iff in H. destruct H as (m & ->). exists m. exact E.
  - intros (m & ->). rewrite strip_prefix_app. apply ends_iff. exists m. reflexivity.
Qed.
Lemma filter_one {A} (P : A -> bool) l x : NoDup l -> (filter P l = [x] <-> In x l /\ P x = true /\ forall y, In y l -> P y = true -> y = x).
Proof.
  intros Hn. split.
  - intros E. assert (H : In x (filter P l)) by (rewrite E; left; reflexivity). apply filter_In in H. repeat split; try tauto.
    intros y Hy Py. assert (G : In y (filter P l)) by (apply filter_In; tauto). rewrite E in G. destruct G as [G|[]]. congruence.
  - intros (H & Px & Hu). assert (H' : In x (filter P l)) by (apply filter_In; tauto).
    pose proof (NoDup_filter P Hn) as Nf. destruct (filter P l) as [|y [|z r]] eqn:E; [destruct H'| |].
    + destruct H' as [->|[]]. reflexivity.
    + exfalso. assert (Iy : In y (filter P l)) by (rewrite E; left; reflexivity). assert (Iz : In z (filter P l)) by (rewrite E; right; left; reflexivity).
      apply filter_In in Iy, Iz. rewrite (Hu y), (Hu z) in Nf by tauto. inversion Nf as [|? ? Hni _]. apply Hni. left. reflexivity.
Qed.

Lemma parse_fst v s : alnum v -> exists st, parse_jobdir (jobdir_name v s) = Ok (v, st).
Proof. intros Ha. destruct (parse_jobdir_name v s Ha) as (d & r & Hd & Es & H). eexists. exact H. Qed.
