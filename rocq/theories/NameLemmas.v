(** Directory and key names. *)
From Verif Require Import Base SortLib StrLib NameModel ParamModel ParamLemmas.
From Coq Require Import Sorted Permutation.
Open Scope list_scope.

Fixpoint all_chars (f : ascii -> bool) (s : string) : bool :=
  match s with EmptyString => true | String a r => f a && all_chars f r end.
Definition alnum (s : string) : Prop := s <> ""%string /\ all_chars is_alnum s = true.

Lemma span_app f a r : all_chars f a = true -> (match r with EmptyString => True | String c _ => f c = false end) ->
  span f (a ++ r) = (a, r).
Proof.
  induction a as [|c a IH]; cbn; intros H Hr.
  - destruct r as [|c r]; cbn; [reflexivity|]. rewrite Hr. reflexivity.
  - apply andb_prop in H. destruct H as [H1 H2]. rewrite H1, (IH H2 Hr). reflexivity.
Qed.
Lemma digit_props n : n < 10 -> is_digit (digit n) = true /\ digit_val (digit n) = n.
Proof. intros H. do 10 (destruct n as [|n]; [split; reflexivity|]). lia. Qed.
Lemma digit_not_sign n : n < 10 -> digit n <> "p"%char /\ digit n <> "m"%char.
Proof. intros H. do 10 (destruct n as [|n]; [split; discriminate|]). lia. Qed.
Lemma dec_small n : n < 10 -> dec n = String (digit n) "".
Proof. intros H. unfold dec. cbn [dec_fuel]. destruct (Nat.ltb_spec n 10); [reflexivity|lia]. Qed.
Lemma dec_first n : exists d r, d < 10 /\ dec n = String (digit d) r.
Proof.
  unfold dec. assert (G : forall f n, n < f -> exists d r, d < 10 /\ dec_fuel f n = String (digit d) r).
  { induction f as [|f IH]; intros m Hm; [lia|]. cbn [dec_fuel]. destruct (Nat.ltb_spec m 10) as [H|H].
    - exists m, ""%string. auto.
    - destruct (IH (m / 10)) as (d & r & Hd & E). { apply Nat.lt_le_trans with m; [apply Nat.div_lt; lia|lia]. }
      exists d, (r ++ String (digit (m mod 10)) "")%string. split; [exact Hd|]. rewrite E. reflexivity. }
  apply G. lia.
Qed.
Lemma signs_digit d r last : d < 10 -> signs (String "_" (String (digit d) r)) last = (last, String "_" (String (digit d) r)).
Proof. intros H. do 10 (destruct d as [|d]; [reflexivity|]). lia. Qed.

Lemma signs_m r last : signs (String "_" (String "m" r)) last = signs r (Some true).
Proof. reflexivity. Qed.
Lemma signs_p r last : signs (String "_" (String "p" r)) last = signs r (Some false).
Proof. reflexivity. Qed.

(** The decoded step: sign and leading digit. *)
Definition decoded (d : nat) (step : Z) : Z := if Z.ltb step 0 then (- Z.of_nat d)%Z else Z.of_nat d.
Lemma match_jobdir_name dvar step : alnum dvar -> exists d r, d < 10 /\
  (if Z.eqb step 0 then "0"%string else dec (Z.abs_nat step)) = String (digit d) r /\
  match_jobdir (jobdir_name dvar step) = Some (dvar, decoded d step).
Proof.
  intros [Hne Ha].
  assert (X : exists d r, d < 10 /\ (if Z.eqb step 0 then "0"%string else dec (Z.abs_nat step)) = String (digit d) r).
  { destruct (Z.eqb step 0); [exists 0, ""%string; split; [lia|reflexivity]|apply dec_first]. }
  destruct X as (d & r & Hd & E). exists d, r. split; [exact Hd|]. split; [exact E|].
  unfold match_jobdir, jobdir_name. rewrite strip_prefix_app.
  rewrite span_app; [|exact Ha|reflexivity]. destruct dvar as [|a dvar]; [congruence|].
  assert (Es : strip_prefix "_step" ("_step_" ++ step_text step) = Some ("_" ++ step_text step)%string).
  { change ("_step_" ++ step_text step)%string with ("_step" ++ ("_" ++ step_text step))%string. apply strip_prefix_app. }
  rewrite Es. unfold step_text, decoded in *. destruct (digit_props d Hd) as [D1 D2].
  destruct (Z.eqb_spec step 0) as [->|n0].
  - injection E as E1 E2. assert (d = 0) by (do 10 (destruct d as [|d]; [first [reflexivity|discriminate E1]|]); lia). subst d. reflexivity.
  - destruct (Z.ltb step 0); cbn [append].
    + rewrite E, signs_m, (signs_digit d r _ Hd). rewrite D1, D2. reflexivity.
    + rewrite E, signs_p, (signs_digit d r _ Hd). rewrite D1, D2. reflexivity.
Qed.
Lemma search_first s x : match_jobdir s = Some x -> search_jobdir s = Some x.
Proof. intros H. destruct s; cbn [search_jobdir]; rewrite H; reflexivity. Qed.
Lemma parse_jobdir_name dvar step : alnum dvar -> exists d r, d < 10 /\
  (if Z.eqb step 0 then "0"%string else dec (Z.abs_nat step)) = String (digit d) r /\
  parse_jobdir (jobdir_name dvar step) = Ok (dvar, decoded d step).
Proof.
  intros H. destruct (match_jobdir_name dvar step H) as (d & r & Hd & E & M). exists d, r. split; [exact Hd|]. split; [exact E|].
  unfold parse_jobdir. rewrite (search_first _ _ M). reflexivity.
Qed.
Lemma digit_inj a b : a < 10 -> b < 10 -> digit a = digit b -> a = b.
Proof. intros Ha Hb E. rewrite <- (proj2 (digit_props a Ha)), <- (proj2 (digit_props b Hb)), E. reflexivity. Qed.
Lemma parse_small dvar step : alnum dvar -> (Z.abs step < 10)%Z -> parse_jobdir (jobdir_name dvar step) = Ok (dvar, step).
Proof.
  intros H Hs. destruct (parse_jobdir_name dvar step H) as (d & r & Hd & E & ->). do 2 f_equal.
  unfold decoded. destruct (Z.eqb_spec step 0) as [->|n0].
  - injection E as E _. apply (digit_inj 0 d) in E; [subst; reflexivity|lia|exact Hd].
  - rewrite dec_small in E by lia. injection E as E _. apply digit_inj in E; [|lia|exact Hd]. subst d. destruct (Z.ltb_spec step 0); lia.
Qed.
Lemma parse_large dvar step : alnum dvar -> (10 <= Z.abs step)%Z ->
  exists s, parse_jobdir (jobdir_name dvar step) = Ok (dvar, s) /\ s <> step /\ (Z.abs s < 10)%Z.
Proof.
  intros H Hs. destruct (parse_jobdir_name dvar step H) as (d & r & Hd & E & ->). eexists. split; [reflexivity|].
  unfold decoded. destruct (Z.ltb step 0); lia.
Qed.
Lemma jobdir_inj d1 s1 d2 s2 : alnum d1 -> alnum d2 -> (Z.abs s1 < 10)%Z -> (Z.abs s2 < 10)%Z ->
  jobdir_name d1 s1 = jobdir_name d2 s2 -> d1 = d2 /\ s1 = s2.
Proof.
  intros A1 A2 B1 B2 E. pose proof (parse_small d1 s1 A1 B1) as P1. rewrite E, (parse_small d2 s2 A2 B2) in P1. injection P1; auto.
Qed.

Lemma alnum_no_underscore s : all_chars is_alnum s = true -> has "_" s = false.
Proof.
  induction s as [|a s IH]; cbn; [reflexivity|]. intros H. apply andb_prop in H. destruct H as [H1 H2]. rewrite (IH H2), orb_false_r.
  destruct (Ascii.eqb_spec a "_") as [->|]; [discriminate H1|reflexivity].
Qed.
Lemma parse_fisher_name a b : alnum a -> alnum b -> parse_fisher_dir (fisher_dir a b) = Ok (a, b).
Proof.
  intros [Na Ha] [Nb Hb]. unfold parse_fisher_dir, fisher_dir.
  rewrite span_app; [|exact Ha|reflexivity]. rewrite strip_prefix_app.
  assert (E : span is_alnum b = (b, ""%string)) by (rewrite <- (sapp_nil_r b) at 1; apply span_app; [exact Hb|exact I]).
  rewrite E. destruct a; [congruence|]. destruct b; [congruence|]. reflexivity.
Qed.
Lemma comb_probes_key p1 p2 : has "_" p1 = false -> has "_" p2 = false -> comb_probes (comb_key p1 p2) = [p1; p2].
Proof.
  intros H1 H2. unfold comb_probes, comb_key. change (p1 ++ "_" ++ p2)%string with (p1 ++ String "_" p2)%string.
  rewrite (split_app "_" p1 p2 H1). rewrite (split_none "_" p2 H2). reflexivity.
Qed.
Lemma reverse_key p1 p2 : has "_" p1 = false -> has "_" p2 = false -> reverse_comb (comb_key p1 p2) = Ok (comb_key p2 p1).
Proof. intros H1 H2. unfold reverse_comb. rewrite comb_probes_key by assumption. reflexivity. Qed.
Lemma reverse_ok k k' : reverse_comb k = Ok k' -> reverse_comb k' = Ok k.
Proof.
  unfold reverse_comb at 1. destruct (comb_probes k) as [|p1 [|p2 [|? ?]]] eqn:E; try discriminate. intros H. injection H as <-.
  assert (H1 : has "_" p1 = false) by (apply (split_parts "_" k); fold (comb_probes k); rewrite E; left; reflexivity).
  assert (H2 : has "_" p2 = false) by (apply (split_parts "_" k); fold (comb_probes k); rewrite E; right; left; reflexivity).
  rewrite (reverse_key p2 p1 H2 H1). f_equal. rewrite <- (join_split "_" k). fold (comb_probes k). rewrite E. reflexivity.
Qed.

(** ** Sorting files by their step *)
Lemma key_total {A} (x y : Z * A) : key_leb x y = true \/ key_leb y x = true.
Proof. unfold key_leb. rewrite !Z.leb_le. lia. Qed.
Lemma key_trans {A} (x y z : Z * A) : key_leb x y = true -> key_leb y z = true -> key_leb x z = true.
Proof. unfold key_leb. rewrite !Z.leb_le. lia. Qed.
Lemma ssorted_map_fst {A} (l : list (Z * A)) : StronglySorted (SortLib.le key_leb) l -> StronglySorted (SortLib.le Z.leb) (map fst l).
Proof.
  induction 1 as [|x l S IH H]; cbn; [constructor|]. constructor; [exact IH|]. rewrite Forall_forall in *.
  intros y Hy. apply in_map_iff in Hy. destruct Hy as (w & <- & Hw). exact (H w Hw).
Qed.
Lemma zrange_sorted n : StronglySorted (SortLib.le Z.leb) (zrange n).
Proof.
  unfold zrange. generalize (2 * n + 1) as m. intros m. generalize 0 as a. induction m as [|m IH]; intros a; cbn; [constructor|].
  constructor; [apply IH|]. apply Forall_forall. intros y Hy. apply in_map_iff in Hy. destruct Hy as (w & <- & Hw). apply in_seq in Hw.
  unfold SortLib.le. apply Z.leb_le. lia.
Qed.
Lemma zrange_perm n : Permutation (steps_of n ++ [0%Z]) (zrange n).
Proof.
  apply NoDup_Permutation.
  - apply Permutation_NoDup with (0%Z :: steps_of n); [apply Permutation_cons_append|]. constructor; [|apply steps_NoDup].
    intros C. apply steps_In in C. lia.
  - unfold zrange. apply FinFun.Injective_map_NoDup; [intros a b; lia|apply seq_NoDup].
  - intros s. unfold zrange. rewrite in_app_iff, steps_In, in_map_iff. cbn [In]. split.
    + intros H. exists (Z.to_nat (s + Z.of_nat n)). split; [lia|]. apply in_seq. lia.
    + intros (i & <- & Hi). apply in_seq in Hi. lia.
Qed.
Lemma sorted_keys {A} (keyed : list (Z * A)) n : Permutation (map fst keyed) (zrange n) -> map fst (isort key_leb keyed) = zrange n.
Proof.
  intros P. apply (ssorted_unique Z.leb).
  - intros x y A1 A2. apply Z.leb_le in A1, A2. lia.
  - apply ssorted_map_fst, isort_ssorted; [apply key_total|apply key_trans].
  - apply zrange_sorted.
  - apply perm_trans with (map fst keyed); [apply Permutation_map, isort_perm|exact P].
Qed.
Lemma rmapM_Ok {A B} (f : A -> res B) (g : A -> B) l : (forall x, In x l -> f x = Ok (g x)) -> rmapM f l = Ok (map g l).
Proof.
  induction l as [|x l IH]; cbn; intros H; [reflexivity|]. rewrite (H x) by (left; reflexivity). cbn [rbind]. rewrite IH; [reflexivity|].
  intros y Hy. apply H. right; exact Hy.
Qed.

(** A directory Angular with one file of spectra for each step of [par] and one
    for the fiducial. *)
Definition complete_listing (L : listing) (par : string) (n : nat) : Prop :=
  Permutation (map fst (filter (fun df => starts ("dvar_" ++ par ++ "_") (fst df) && is_cl_file (snd df)) L))
              (map (jobdir_name par) (steps_of n)) /\
  exists f, filter (fun df => String.eqb (fst df) (jobdir_name "central" 0) && is_cl_file (snd df)) L = [(jobdir_name "central" 0, f)].
Lemma collect_aligned L par n : alnum par -> 1 <= n -> n < 10 -> complete_listing L par n ->
  exists files, collect_files L par = Ok files /\ length files = 2 * n + 1 /\
    (forall df, In df files -> In df L) /\
    forall k s, nth_error (zrange n) k = Some s ->
      exists f, nth_error files k = Some (if Z.eqb s 0 then jobdir_name "central" 0 else jobdir_name par s, f).
Proof.
  intros Hp H1 H9 (P & f0 & Ec). unfold collect_files, cl_file. rewrite Ec. cbn [rbind].
  set (g := filter (fun df => starts ("dvar_" ++ par ++ "_") (fst df) && is_cl_file (snd df)) L) in *.
  set (c := (jobdir_name "central" 0, f0)) in *.
  assert (Hin : forall df, In df g -> exists s, In s (steps_of n) /\ fst df = jobdir_name par s).
  { intros df Hdf. apply (in_map fst) in Hdf. apply (Permutation_in _ P) in Hdf. apply in_map_iff in Hdf. destruct Hdf as (s & E & Hs). eauto. }
  assert (Hsm : forall s, In s (steps_of n) -> (Z.abs s < 10)%Z) by (intros s Hs; apply steps_In in Hs; lia).
  set (stp := fun df : string * string => match parse_jobdir (fst df) with Ok (_, s) => s | Err _ => 0%Z end).
  assert (Ek : rmapM (fun df : string * string => ds <- parse_jobdir (fst df) ;; Ok (snd ds, df)) (g ++ [c]) = Ok (map (fun df => (stp df, df)) (g ++ [c]))).
  { apply rmapM_Ok. intros df Hdf. unfold stp. apply in_app_or in Hdf. destruct Hdf as [Hdf|[<-|[]]].
    - destruct (Hin df Hdf) as (s & Hs & E). rewrite E, (parse_small par s Hp (Hsm s Hs)). reflexivity.
    - reflexivity. }
  rewrite Ek. cbn [rbind]. set (keyed := map (fun df => (stp df, df)) (g ++ [c])).
  assert (Pk : Permutation (map fst keyed) (zrange n)).
  { assert (E0 : map fst keyed = map stp (g ++ [c])) by (unfold keyed; rewrite map_map; reflexivity).
    rewrite E0, map_app. cbn [map]. replace (stp c) with 0%Z by reflexivity.
    apply perm_trans with (steps_of n ++ [0%Z]); [|apply zrange_perm]. apply Permutation_app_tail.
    assert (E1 : map stp g = map (fun d => match parse_jobdir d with Ok (_, s) => s | Err _ => 0%Z end) (map fst g)) by (rewrite map_map; reflexivity).
    rewrite E1, P, map_map. rewrite <- (map_id (steps_of n)) at 2. apply Permutation_refl'. apply map_ext_in. intros s Hs.
    rewrite (parse_small par s Hp (Hsm s Hs)). reflexivity. }
  pose proof (sorted_keys keyed n Pk) as Es.
  assert (Ln : length (isort key_leb keyed) = 2 * n + 1).
  { rewrite <- (map_length fst), Es. apply zrange_length. }
  rewrite map_length, Ln. destruct (Nat.leb_spec (2 * n + 1) 1) as [C|_]; [lia|].
  eexists. split; [reflexivity|]. split; [rewrite map_length; exact Ln|].
  assert (Hmem : forall sd, In sd (isort key_leb keyed) -> In (snd sd) (g ++ [c]) /\ fst sd = stp (snd sd)).
  { intros sd H. apply isort_In in H. unfold keyed in H. apply in_map_iff in H. destruct H as (df & <- & Hdf). cbn. auto. }
  split.
  - intros df Hdf. apply in_map_iff in Hdf. destruct Hdf as (sd & <- & Hsd). destruct (Hmem sd Hsd) as [Hd _].
    apply in_app_or in Hd. destruct Hd as [Hd|[<-|[]]].
    + unfold g in Hd. apply filter_In in Hd. tauto.
    + assert (Hc : In c [c]) by (left; reflexivity). rewrite <- Ec in Hc. apply filter_In in Hc. tauto.
  - intros k s Hk. rewrite <- Es, nth_error_map in Hk. destruct (nth_error (isort key_leb keyed) k) as [[z df]|] eqn:Ez; [|discriminate].
    cbn in Hk. injection Hk as ->. rewrite nth_error_map, Ez. cbn [option_map snd].
    destruct (Hmem _ (nth_error_In _ _ Ez)) as [Hd Hs]. cbn [fst snd] in Hd, Hs. apply in_app_or in Hd. destruct Hd as [Hd|[<-|[]]].
    + destruct (Hin df Hd) as (t & Ht & E). unfold stp in Hs. rewrite E, (parse_small par t Hp (Hsm t Ht)) in Hs. subst t.
      exists (snd df). destruct (Z.eqb_spec s 0) as [->|_]; [apply steps_In in Ht; lia|]. rewrite <- E. destruct df; reflexivity.
    + exists f0. subst s. reflexivity.
Qed.
