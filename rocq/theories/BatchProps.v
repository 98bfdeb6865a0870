(** Submitting jobs (C81), run identifiers (C82), batches of runs (C64),
    collecting run directories (C65). *)
From Coq Require Import Permutation Sorted.
From Verif Require Import Base SortLib StrLib NameModel NameLemmas FsModel IniModel BatchModel.
Open Scope list_scope.

(** ** C81 *)
Lemma search_first_job pre d post : has "J" pre = false -> d <> ""%string -> all_chars is_digit d = true ->
  search_job (pre ++ "Job <" ++ d ++ "> is submitted to" ++ post) = Some d.
Proof.
  intros P D A. induction pre as [|a pre IH].
  - assert (M : match_job ("Job <" ++ d ++ "> is submitted to" ++ post) = Some d).
    { unfold match_job. rewrite strip_prefix_app.
      rewrite span_app by (try exact A; cbn; reflexivity).
      destruct d; [congruence|]. cbn [nonempty andb].
      assert (S : starts "> is submitted to" ("> is submitted to" ++ post) = true) by (apply starts_iff; eauto).
      rewrite S. reflexivity. }
    change ("" ++ ?x)%string with x. cbn [search_job String.append] in *. rewrite M. reflexivity.
  - cbn [has] in P. apply orb_false_iff in P as [Pa P]. cbn [String.append search_job].
    assert (M : match_job (String a (pre ++ "Job <" ++ d ++ "> is submitted to" ++ post)) = None).
    { unfold match_job. cbn [strip_prefix]. destruct (Ascii.eqb_spec "J" a) as [<-|]; [discriminate Pa|reflexivity]. }
    cbn [String.append] in M. rewrite M. apply IH, P.
Qed.
(** All submissions answered: every script submitted once, in order, and waited
    for under its own number.  Otherwise the first unanswered one raises; the jobs
    before it stay submitted. *)
Theorem C81_all_submitted (bsub number rest pre : string -> string) limit obs scripts :
  (forall sc, In sc scripts -> bsub sc = (pre sc ++ "Job <" ++ number sc ++ "> is submitted to" ++ rest sc)%string /\
     has "J" (pre sc) = false /\ number sc <> ""%string /\ all_chars is_digit (number sc) = true) ->
  submit_batch bsub limit scripts obs = (scripts, wait_for_jobs (map number scripts) limit obs).
Proof.
  intros H. unfold submit_batch. assert (E : submit_all bsub scripts = (scripts, Ok (map number scripts))).
  { induction scripts as [|sc l IH]; [reflexivity|]. cbn [submit_all].
    destruct (H sc (or_introl eq_refl)) as (-> & P & D & A). unfold get_job_id. rewrite search_first_job by assumption.
    rewrite IH by (intros x Hx; apply H; right; exact Hx). reflexivity. }
  rewrite E. reflexivity.
Qed.
Theorem C81_refused bsub limit obs a sc l : (forall x, In x a -> search_job (bsub x) <> None) -> search_job (bsub sc) = None ->
  submit_batch bsub limit (a ++ sc :: l) obs = (a ++ [sc], Some (Err EAttributeError)).
Proof.
  intros H N. unfold submit_batch. assert (E : submit_all bsub (a ++ sc :: l) = (a ++ [sc], Err EAttributeError)).
  { induction a as [|x a IH]; cbn [submit_all app]; unfold get_job_id.
    - rewrite N. reflexivity.
    - destruct (search_job (bsub x)) eqn:X; [|destruct (H x (or_introl eq_refl) X)]. rewrite IH by (intros y Hy; apply H; right; exact Hy). reflexivity. }
  rewrite E. reflexivity.
Qed.
(** A stage without scripts raises. *)
Theorem C81_no_scripts bsub limit obs : submit_batch bsub limit [] obs = ([], Some (Err EIndexError)).
Proof. reflexivity. Qed.
Example C81_instance :
  search_job "Job <1234> is submitted to queue <medium>." = Some "1234"%string /\ search_job "Queue not found. Job not submitted." = None.
Proof. vm_compute. auto. Qed.

(** ** C82 *)
Lemma chars_app a b : chars (a ++ b) = chars a ++ chars b.
Proof. induction a as [|x a IH]; cbn; [reflexivity|]. f_equal. exact IH. Qed.
Lemma text_chars s : text (chars s) = s. Proof. apply string_of_list_ascii_of_string. Qed.
Lemma fits_length sh l : fits sh l = true -> length l = length sh.
Proof.
  revert l. induction sh as [|[c|] sh IH]; intros [|a l]; cbn; try congruence; intros H; apply andb_true_iff in H as [_ H]; rewrite (IH _ H); reflexivity.
Qed.
Lemma split_with_app sh a b : length b = length sh -> split_with sh (a ++ b) = if fits sh b then Some (a, b) else None.
Proof.
  intros L. unfold split_with, cut_last. rewrite app_length. replace (length a + length b - length sh) with (length a + 0) by lia.
  rewrite firstn_app_2, firstn_O, app_nil_r. rewrite Nat.add_0_r, skipn_app, skipn_all, Nat.sub_diag. reflexivity.
Qed.
Lemma split_with_some sh l a b : split_with sh l = Some (a, b) -> l = a ++ b /\ fits sh b = true.
Proof.
  unfold split_with, cut_last. destruct (fits sh _) eqn:E; [|discriminate]. intros H. injection H as <- <-. split; [symmetry; apply firstn_skipn|exact E].
Qed.
Lemma fits_last sh l d : fits sh l = true -> match last sh (Some d) with Some c => last l d = c | None => is_digit (last l d) = true end.
Proof.
  revert l. induction sh as [|x sh IH]; intros [|a l] H; try discriminate H.
  - reflexivity.
  - destruct x; discriminate H.
  - assert (H' : fits sh l = true) by (destruct x; cbn in H; apply andb_true_iff in H; tauto).
    destruct sh as [|y sh].
    + destruct l; [|discriminate H']. destruct x as [c|]; cbn in H |- *; apply andb_true_iff in H as [H _]; [apply Ascii.eqb_eq in H; auto|exact H].
    + destruct l as [|b l]; [destruct y; discriminate H'|]. exact (IH _ H').
Qed.
Lemma last_app_ne {A} (a b : list A) d : b <> [] -> last (a ++ b) d = last b d.
Proof.
  intros H. induction a as [|x a IH]; [reflexivity|]. cbn [app]. destruct (a ++ b) eqn:E; [|exact IH].
  apply app_eq_nil in E. tauto.
Qed.
Definition is_version (v : string) : Prop := fits (shape "#.#.#") (chars v) = true \/ fits (shape "#.#.#dev") (chars v) = true.
Definition is_stamp (t : string) : Prop := fits stamp_shape (chars t) = true.
Lemma split_chars_spec n v t : is_version v -> is_stamp t ->
  split_chars (chars (n ++ "_" ++ v ++ "_" ++ t)) = Some (chars n, chars v, chars t).
Proof.
  intros V T. rewrite !chars_app. change (chars "_") with ["_"%char]. unfold split_chars.
  pose proof (fits_length _ _ T) as LT.
  replace (chars n ++ ["_"%char] ++ chars v ++ ["_"%char] ++ chars t) with ((chars n ++ ["_"%char] ++ chars v) ++ ("_"%char :: chars t))
    by (rewrite <- !app_assoc; reflexivity).
  rewrite split_with_app by (cbn [length]; rewrite LT; reflexivity).
  change (fits (Some "_"%char :: stamp_shape) ("_"%char :: chars t)) with (fits stamp_shape (chars t)). rewrite T.
  destruct V as [V|V]; pose proof (fits_length _ _ V) as LV.
  - change (["_"%char] ++ chars v) with ("_"%char :: chars v).
    rewrite split_with_app by (cbn [length]; rewrite LV; reflexivity).
    change (fits (shape "_#.#.#") ("_"%char :: chars v)) with (fits (shape "#.#.#") (chars v)). rewrite V. reflexivity.
  - change (["_"%char] ++ chars v) with ("_"%char :: chars v).
    assert (X : split_with (shape "_#.#.#") (chars n ++ "_"%char :: chars v) = None).
    { destruct (split_with (shape "_#.#.#") (chars n ++ "_"%char :: chars v)) as [[a b]|] eqn:E; [|reflexivity]. exfalso.
      apply split_with_some in E as (E & F).
      pose proof (fits_last _ _ "0"%char V) as P. pose proof (fits_last _ _ "0"%char F) as Q. cbn [shape chars list_ascii_of_string map last Ascii.eqb Bool.eqb] in P, Q.
      assert (E' : last (chars n ++ "_"%char :: chars v) "0"%char = last (a ++ b) "0"%char) by (rewrite E; reflexivity).
      rewrite last_app_ne in E' by discriminate. rewrite last_app_ne in E' by (intros ->; discriminate F).
      assert (Nv : chars v <> []) by (intros X; rewrite X in V; discriminate V).
      destruct (chars v) as [|v1 vs]; [congruence|]. change (last ("_"%char :: v1 :: vs) "0"%char) with (last (v1 :: vs) "0"%char) in E'.
      rewrite P in E'. rewrite <- E' in Q. discriminate Q. }
    rewrite X. rewrite split_with_app by (cbn [length]; rewrite LV; reflexivity).
    change (fits (shape "_#.#.#dev") ("_"%char :: chars v)) with (fits (shape "#.#.#dev") (chars v)). rewrite V. reflexivity.
Qed.
Lemma split_chars_inv l n v t : split_chars l = Some (n, v, t) -> l = n ++ "_"%char :: v ++ "_"%char :: t /\ is_version (text v) /\ is_stamp (text t).
Proof.
  unfold split_chars. destruct (split_with (Some "_"%char :: stamp_shape) l) as [[a t0]|] eqn:E; [|discriminate].
  apply split_with_some in E as (-> & T). destruct t0 as [|t1 t0]; [discriminate T|]. cbn [fits] in T. apply andb_true_iff in T as [T1 T].
  apply Ascii.eqb_eq in T1. subst t1.
  assert (CT : forall x, chars (text x) = x) by apply list_ascii_of_string_of_list_ascii.
  destruct (split_with (shape "_#.#.#") a) as [[n0 v0]|] eqn:E1; [|destruct (split_with (shape "_#.#.#dev") a) as [[n0 v0]|] eqn:E2; [|discriminate]];
    intros X; injection X as -> <- <-; [apply split_with_some in E1 as (-> & V)|apply split_with_some in E2 as (-> & V)];
    (destruct v0 as [|v1 v0]; [discriminate V|]);
    [change (shape "_#.#.#") with (Some "_"%char :: shape "#.#.#") in V|change (shape "_#.#.#dev") with (Some "_"%char :: shape "#.#.#dev") in V];
    cbn [fits] in V; apply andb_true_iff in V as [V1 V]; apply Ascii.eqb_eq in V1; subst v1;
    (split; [rewrite <- app_assoc; reflexivity|]); unfold is_version, is_stamp; rewrite !CT; auto.
Qed.

(** Dates and their texts. *)
Definition two (n : nat) : string := String (digit (n / 10)) (String (digit (n mod 10)) "").
Definition stamp (y m d h mi s : nat) : string :=
  (two (y / 100) ++ two (y mod 100) ++ "-" ++ two m ++ "-" ++ two d ++ "T" ++ two h ++ "-" ++ two mi ++ "-" ++ two s)%string.
Definition days_in (y m : nat) : nat :=
  (if m =? 2 then (if (y mod 400 =? 0) || ((y mod 4 =? 0) && negb (y mod 100 =? 0)) then 29 else 28)
   else if existsb (Nat.eqb m) [4; 6; 9; 11] then 30 else 31)%nat.
Definition real_date (y m d h mi s : nat) : Prop :=
  1 <= y < 100 * 100 /\ 1 <= m <= 12 /\ 1 <= d <= days_in y m /\ h < 24 /\ mi < 60 /\ s < 60.
Lemma val_digit n : n < 10 -> digit_val (digit n) = n.
Proof. intros H. apply digit_props, H. Qed.
Lemma num_two a b r : a < 10 -> b < 10 -> num (digit a :: digit b :: r) = fold_left (fun n c => 10 * n + digit_val c) r (10 * a + b).
Proof. intros A B. unfold num. cbn [fold_left]. rewrite !val_digit by assumption. reflexivity. Qed.
Lemma month_days_in y m : 1 <= m <= 12 -> month_days y m = days_in y m.
Proof.
  intros H. unfold month_days, days_in, leap. rewrite orb_comm. 
  do 13 (destruct m as [|m]; [try lia; try reflexivity; cbn; rewrite ?orb_assoc; try reflexivity|]); try lia.
Qed.
Lemma stamp_fits y m d h mi s : y < 100 * 100 -> m < 100 -> d < 100 -> h < 100 -> mi < 100 -> s < 100 ->
  is_stamp (stamp y m d h mi s) /\
  stamp_ok (chars (stamp y m d h mi s)) = date_ok y m d h mi s.
Proof.
  intros Y M D H MI S.
  assert (B : forall n, n < 100 -> n / 10 < 10 /\ n mod 10 < 10) by (intros n Hn; split; [apply Nat.div_lt_upper_bound; lia|apply Nat.mod_upper_bound; lia]).
  assert (Y1 : y / 100 < 100) by (apply Nat.div_lt_upper_bound; lia). assert (Y2 : y mod 100 < 100) by (apply Nat.mod_upper_bound; lia).
  assert (DD : forall n, n < 100 -> is_digit (digit (n / 10)) = true /\ is_digit (digit (n mod 10)) = true).
  { intros n Hn. destruct (B n Hn) as [P Q]. split; apply digit_props; assumption. }
  assert (NN : forall n, n < 100 -> 10 * (n / 10) + n mod 10 = n) by (intros n _; symmetry; apply Nat.div_mod; lia).
  split.
  - unfold is_stamp, stamp, stamp_shape, shape, two. cbn [String.append chars list_ascii_of_string map Ascii.eqb Bool.eqb fits andb].
    rewrite (proj1 (DD _ Y1)), (proj2 (DD _ Y1)), (proj1 (DD _ Y2)), (proj2 (DD _ Y2)), (proj1 (DD _ M)), (proj2 (DD _ M)),
      (proj1 (DD _ D)), (proj2 (DD _ D)), (proj1 (DD _ H)), (proj2 (DD _ H)), (proj1 (DD _ MI)), (proj2 (DD _ MI)), (proj1 (DD _ S)), (proj2 (DD _ S)).
    reflexivity.
  - unfold stamp_ok, sub, stamp, two. cbn [String.append chars list_ascii_of_string skipn firstn].
    rewrite !num_two by (apply B; assumption). cbn [fold_left].
    rewrite !val_digit by (apply B; assumption).
    rewrite (NN m M), (NN d D), (NN h H), (NN mi MI), (NN s S). f_equal.
    rewrite (NN _ Y1). pose proof (NN _ Y2). pose proof (Nat.div_mod y 100). lia.
Qed.
Lemma date_ok_real y m d h mi s : y < 100 * 100 -> (date_ok y m d h mi s = true <-> real_date y m d h mi s).
Proof.
  intros Y. unfold date_ok, real_date. rewrite !andb_true_iff, !Nat.leb_le. split.
  - intros (((((((? & ?) & ?) & ?) & Hd) & ?) & ?) & ?). rewrite month_days_in in Hd by lia. lia.
  - intros (? & ? & ? & ? & ? & ?). rewrite month_days_in by lia. repeat split; lia.
Qed.
Lemma days_31 y m : days_in y m <= 31.
Proof. unfold days_in. destruct (m =? 2)%nat; [destruct (_ || _); lia|]. destruct (existsb _ _); lia. Qed.

(** A directory name gives back the identifier (whatever it contains), the
    version and the time it was built from. *)
Theorem C82_round_trip id v y m d h mi s : is_version v -> real_date y m d h mi s ->
  split_run_id (id ++ "_" ++ v ++ "_" ++ stamp y m d h mi s) = Ok (id, Some (v, stamp y m d h mi s)).
Proof.
  intros V D. pose proof D as (Y & M & Dd & H & MI & S). pose proof (days_31 y m).
  destruct (stamp_fits y m d h mi s) as [T O]; [lia..|].
  unfold split_run_id. rewrite split_chars_spec by assumption. rewrite O, (proj2 (date_ok_real y m d h mi s ltac:(lia)) D), !text_chars. reflexivity.
Qed.
(** Only such names are split; the others come back whole. *)
Theorem C82_only_run_names name r : split_run_id name = Ok r ->
  match r with
  | (id, Some (v, t)) => name = (id ++ "_" ++ v ++ "_" ++ t)%string /\ is_version v /\ is_stamp t
  | (id, None) => id = name
  end.
Proof.
  unfold split_run_id. destruct (split_chars (chars name)) as [[[n v] t]|] eqn:E; [|intros X; injection X as <-; reflexivity].
  destruct (stamp_ok t); [|discriminate]. intros X. injection X as <-. apply split_chars_inv in E as (E & V & T). split; [|auto].
  rewrite <- (text_chars name), E. clear. 
  assert (TA : forall a b, text (a ++ b) = (text a ++ text b)%string).
  { intros a b. induction a as [|x a IH]; cbn; [reflexivity|]. f_equal. exact IH. }
  rewrite TA. cbn [text string_of_list_ascii]. fold text. rewrite TA. reflexivity.
Qed.
(** A name with a version and digits in the places of a date raises exactly when
    there is no such date. *)
Theorem C82_impossible_date id v y m d h mi s : is_version v -> y < 100 * 100 -> m < 100 -> d < 100 -> h < 100 -> mi < 100 -> s < 100 ->
  ~ real_date y m d h mi s -> split_run_id (id ++ "_" ++ v ++ "_" ++ stamp y m d h mi s) = Err EValueError.
Proof.
  intros V Y M D H MI S N. destruct (stamp_fits y m d h mi s) as [T O]; [assumption..|].
  unfold split_run_id. rewrite split_chars_spec by assumption. rewrite O.
  destruct (date_ok y m d h mi s) eqn:E; [|reflexivity]. apply date_ok_real in E; [contradiction|exact Y].
Qed.
(** Versions with a number of two digits are not recognised. *)
Theorem C82_two_digit_version_refuted :
  split_run_id "fid_1.10.0_2021-03-04T05-06-07" = Ok ("fid_1.10.0_2021-03-04T05-06-07"%string, None).
Proof. vm_compute. reflexivity. Qed.
Example C82_instance : is_version "1.3.8" /\ is_version "1.4.0dev" /\ real_date 2020 2 29 23 59 59 /\
  split_run_id "a_1.3.8_2020-02-29T23-59-59_1.3.8_2020-02-29T23-59-59" = Ok ("a_1.3.8_2020-02-29T23-59-59"%string, Some ("1.3.8", "2020-02-29T23-59-59")%string) /\
  split_run_id "a_1.3.8_2021-02-29T23-59-59" = Err EValueError.
Proof. split; [left; reflexivity|]. split; [right; reflexivity|]. split; [unfold real_date; cbn; lia|]. vm_compute. auto. Qed.

(** ** C65 *)
(** The directories a run with one of the identifiers makes. *)
Definition belongs (ids : list string) (name : string) : Prop :=
  exists id v t, In id ids /\ is_version v /\ is_stamp t /\ name = (id ++ "_" ++ v ++ "_" ++ t)%string.
Lemma collected_In entries ids name : In name (collect_rundirs entries ids) <->
  In (name, true) entries /\ exists id r, In id ids /\ name = (id ++ r)%string.
Proof.
  unfold collect_rundirs. rewrite in_map_iff. split.
  - intros ((n & b) & <- & H). apply filter_In in H as [H X]. apply andb_true_iff in X as [X1 X2]. cbn in *. subst b. split; [exact H|].
    apply existsb_exists in X2 as (id & Hid & S). apply starts_iff in S as (r & ->). eauto.
  - intros (H & id & r & Hid & ->). exists ((id ++ r)%string, true). split; [reflexivity|]. apply filter_In. split; [exact H|].
    cbn. apply existsb_exists. exists id. split; [exact Hid|]. apply starts_iff. eauto.
Qed.
(** Nothing is missed, and the order of the listing is kept. *)
Theorem C65_complete entries ids name : In (name, true) entries -> belongs ids name -> In name (collect_rundirs entries ids).
Proof. intros H (id & v & t & Hid & _ & _ & E). apply collected_In. split; [exact H|]. exists id, ("_" ++ v ++ "_" ++ t)%string. auto. Qed.
Theorem C65_no_duplicates entries ids : NoDup (map fst entries) -> NoDup (collect_rundirs entries ids).
Proof.
  unfold collect_rundirs. induction entries as [|[n b] l IH]; cbn; [constructor|]. intros H. inversion H; subst.
  destruct (b && _); [|apply IH; assumption]. cbn. constructor; [|apply IH; assumption].
  intros X. apply H2. apply in_map_iff in X as (x & <- & X). apply filter_In in X as [X _]. apply in_map. exact X.
Qed.
(** Exact if and only if every directory whose name starts with one of the
    identifiers belongs to one of the runs. *)
Theorem C65_exact entries ids :
  (forall name, In name (collect_rundirs entries ids) <-> In (name, true) entries /\ belongs ids name) <->
  (forall id r, In id ids -> In ((id ++ r)%string, true) entries -> belongs ids (id ++ r)).
Proof.
  split.
  - intros H id r Hid Hr. apply H. apply collected_In. eauto.
  - intros H name. rewrite collected_In. split; intros (H1 & H2); (split; [exact H1|]).
    + destruct H2 as (id & r & Hid & ->). apply H; assumption.
    + destruct H2 as (id & v & t & Hid & _ & _ & E). exists id, ("_" ++ v ++ "_" ++ t)%string. auto.
Qed.
(** The identifier of one run can be the beginning of another's. *)
Theorem C65_prefix_refuted : exists entries ids name,
  In name (collect_rundirs entries ids) /\ ~ belongs ids name /\
  split_run_id name = Ok ("optimistic_10_sp_bins", Some ("1.3.8", "2021-03-04T05-06-07"))%string.
Proof.
  exists [("optimistic_1_1.3.8_2021-03-04T05-06-07", true); ("optimistic_10_sp_bins_1.3.8_2021-03-04T05-06-07", true)]%string, ["optimistic_1"]%string.
  exists "optimistic_10_sp_bins_1.3.8_2021-03-04T05-06-07"%string. split; [vm_compute; auto|]. split; [|vm_compute; reflexivity].
  intros (id & v & t & [<-|[]] & _ & _ & E). cbn in E. discriminate E.
Qed.
Example C65_instance : 
  let entries := [("a_1.3.8_2021-03-04T05-06-07", true); ("config", true); ("b_1.3.8_2021-03-04T05-06-07", true); ("a.log", false)]%string in
  (forall id r, In id ["a"]%string -> In ((id ++ r)%string, true) entries -> belongs ["a"]%string (id ++ r)) /\
  collect_rundirs entries ["a"]%string = ["a_1.3.8_2021-03-04T05-06-07"]%string.
Proof.
  split; [|reflexivity]. intros id r [<-|[]] H. cbn in H. destruct H as [H|[H|[H|[H|[]]]]]; try discriminate H.
  injection H as <-. exists "a"%string, "1.3.8"%string, "2021-03-04T05-06-07"%string. split; [left; reflexivity|]. split; [left; reflexivity|]. split; reflexivity.
Qed.

(** ** C64 *)
Definition wf_path (p : path) : Prop := p <> [] /\ Forall (fun c => c <> ""%string /\ has "/" c = false) p.
Lemma to_path_text p : wf_path p -> to_path (path_text p) = p.
Proof.
  intros [N W]. unfold to_path, path_text. change (("/" ++ join "/" p)%string) with (String "/" (join (cstr "/") p)).
  change (String "/" (join (cstr "/") p)) with ("" ++ String "/" (join (cstr "/") p))%string.
  rewrite split_app by reflexivity. rewrite split_join; [|exact N|intros x Hx; rewrite Forall_forall in W; apply W, Hx].
  cbn [filter nonempty]. clear N. induction W as [|c p [H _] W IH]; [reflexivity|]. cbn. destruct c; [congruence|]. cbn. rewrite IH. reflexivity.
Qed.
Lemma path_text_inj p q : wf_path p -> wf_path q -> path_text p = path_text q -> p = q.
Proof. intros P Q E. rewrite <- (to_path_text p P), <- (to_path_text q Q), E. reflexivity. Qed.

(** The combinations, in the order of nested loops. *)
Definition combos (fcfgs fishs cls : list path) (pmms : list (option path)) : list (path * path * path * option path) :=
  flat_map (fun f => flat_map (fun g => flat_map (fun c => map (fun p => (f, g, c, p)) pmms) cls) fishs) fcfgs.
Lemma combos_In fcfgs fishs cls pmms f g c p : In (f, g, c, p) (combos fcfgs fishs cls pmms) <-> In f fcfgs /\ In g fishs /\ In c cls /\ In p pmms.
Proof.
  unfold combos. rewrite in_flat_map. split.
  - intros (f' & Hf & H). apply in_flat_map in H as (g' & Hg & H). apply in_flat_map in H as (c' & Hc & H). apply in_map_iff in H as (p' & E & Hp).
    injection E as <- <- <- <-. auto.
  - intros (Hf & Hg & Hc & Hp). exists f. split; [exact Hf|]. apply in_flat_map. exists g. split; [exact Hg|]. apply in_flat_map. exists c. split; [exact Hc|].
    apply in_map. exact Hp.
Qed.
Lemma NoDup_flat_map {A B} (f : A -> list B) l : NoDup l -> (forall a, In a l -> NoDup (f a)) ->
  (forall a b x, In a l -> In b l -> In x (f a) -> In x (f b) -> a = b) -> NoDup (flat_map f l).
Proof.
  induction l as [|a l IH]; cbn; intros N F D; [constructor|]. inversion N; subst.
  assert (X : forall x, In x (f a) -> ~ In x (flat_map f l)).
  { intros x Hx Y. apply in_flat_map in Y as (b & Hb & Hy). assert (a = b) by (apply (D a b x); auto). subst b. contradiction. }
  assert (Y : NoDup (flat_map f l)) by (apply IH; auto; intros; apply (D _ _ x); auto).
  specialize (F a (or_introl eq_refl)). clear -F X Y. induction (f a) as [|x m IH]; cbn; [exact Y|]. inversion F; subst. constructor.
  - rewrite in_app_iff. intros [H|H]; [contradiction|]. apply (X x (or_introl eq_refl) H).
  - apply IH; [assumption|]. intros y Hy. apply X. right. exact Hy.
Qed.
Lemma combos_NoDup fcfgs fishs cls pmms : NoDup fcfgs -> NoDup fishs -> NoDup cls -> NoDup pmms -> NoDup (combos fcfgs fishs cls pmms).
Proof.
  intros F G C P. unfold combos. apply NoDup_flat_map; [exact F| |].
  - intros f _. apply NoDup_flat_map; [exact G| |].
    + intros g _. apply NoDup_flat_map; [exact C| |].
      * intros c _. apply FinFun.Injective_map_NoDup; [|exact P]. intros x y E. congruence.
      * intros c c' x _ _ H1 H2. apply in_map_iff in H1 as (? & <- & _), H2 as (? & E & _). congruence.
    + intros g g' x _ _ H1 H2. apply in_flat_map in H1 as (? & _ & H1), H2 as (? & _ & H2). apply in_map_iff in H1 as (? & <- & _), H2 as (? & E & _). congruence.
  - intros f f' x _ _ H1 H2. apply in_flat_map in H1 as (? & _ & H1), H2 as (? & _ & H2). apply in_flat_map in H1 as (? & _ & H1), H2 as (? & _ & H2).
    apply in_map_iff in H1 as (? & <- & _), H2 as (? & E & _). congruence.
Qed.

Lemma for_each_app {A} (body : A -> started -> started * res unit) a b st : for_each body (a ++ b) st =
  match for_each body a st with (st', Ok _) => for_each body b st' | (st', Err e) => (st', Err e) end.
Proof. revert st. induction a as [|x a IH]; intros st; cbn; [reflexivity|]. destruct (body x st) as [st' [u|e]]; [apply IH|reflexivity]. Qed.
Lemma for_each_flat {A B} (body : B -> started -> started * res unit) (f : A -> list B) l st :
  for_each (fun a => for_each body (f a)) l st = for_each body (flat_map f l) st.
Proof.
  revert st. induction l as [|a l IH]; intros st; cbn; [reflexivity|]. rewrite for_each_app.
  destruct (for_each body (f a) st) as [st' [u|e]]; [apply IH|reflexivity].
Qed.
Lemma for_each_map {A B} (body : B -> started -> started * res unit) (f : A -> B) l st :
  for_each (fun a => body (f a)) l st = for_each body (map f l) st.
Proof. revert st. induction l as [|a l IH]; intros st; cbn; [reflexivity|]. destruct (body (f a) st) as [st' [u|e]]; [apply IH|reflexivity]. Qed.
Lemma for_each_ext {A} (f g : A -> started -> started * res unit) l st : (forall a s, In a l -> f a s = g a s) -> for_each f l st = for_each g l st.
Proof. revert st. induction l as [|a l IH]; intros st H; cbn; [reflexivity|]. rewrite H by (left; reflexivity). destruct (g a st) as [st' [u|e]]; [apply IH; intros; apply H; right; assumption|reflexivity]. Qed.

Section C64.
  Variable input_dir : string.
  Variable a : batch_args.
  Variable c : batch_cfg.
  Variable pmms : list (option path).
  Notation batch := (run_batch input_dir a c pmms).
  Definition overridden (k : string) : Prop := exists x, In (k, Some x) (b_ext c).
  Notation all := (combos (sort_configs (b_fcfg c)) (b_fish c) (b_cl c) pmms).

  (** The command of a combination carries its three files, its power spectrum
      directory and the tasks' execution mode. *)
  Definition command_of (x : path * path * path * option path) (d : kv) : Prop :=
    let '(f, g, l, p) := x in
    dget String.eqb d "fcfg" = Some (path_text f) /\ dget String.eqb d "fish_cfg" = Some (path_text g) /\
    dget String.eqb d "cl_cfg" = Some (path_text l) /\ dget String.eqb d "pmm_dir" = option_map path_text p /\
    dget String.eqb d "ex" = Some (a_ex a).

  Lemma ext_other k d : ~ overridden k ->
    dget String.eqb (fold_left (fun d kx => match snd kx with Some x => sset d (fst kx) x | None => d end) (b_ext c) d) k = dget String.eqb d k.
  Proof.
    unfold overridden. revert d. induction (b_ext c) as [|[k' o] l IH]; intros d H; [reflexivity|]. cbn [fold_left fst snd].
    rewrite IH by (intros (x & Hx); apply H; exists x; right; exact Hx).
    destruct o as [x|]; [|reflexivity]. unfold sset. apply (dget_dset_other _ String.eqb_spec). intros ->. apply H. exists x. left. reflexivity.
  Qed.
  Lemma sset_other (d : kv) k k' v : String.eqb k k' = false -> dget String.eqb (sset d k v) k' = dget String.eqb d k'.
  Proof. intros H. unfold sset. apply (dget_dset_other _ String.eqb_spec). apply String.eqb_neq, H. Qed.
  Lemma sset_same (d : kv) k v : dget String.eqb (sset d k v) k = Some v.
  Proof. unfold sset. apply (dget_dset_same _ String.eqb_spec). Qed.
  Lemma keyvals_spec f g l p : (forall k, In k ["fcfg"; "fish_cfg"; "cl_cfg"; "pmm_dir"; "ex"]%string -> ~ overridden k) ->
    command_of (f, g, l, p) (keyvals c a f g l p).
  Proof.
    intros H. unfold command_of, keyvals. rewrite !ext_other by (apply H; cbn; tauto).
    unfold cli_args. destruct p as [p|]; destruct (a_ini a); cbn [option_map];
      repeat split; repeat (rewrite sset_other by reflexivity); rewrite ?sset_same; reflexivity.
  Qed.

  (** The part of a power spectrum directory that names the run it is from. *)
  Definition source_name (p : path) : string := if String.eqb (path_name p) "PowerSpectrum" then path_name (path_parent p) else path_name p.
  Definition names_ok : Prop :=
    (forall f, In f (b_fcfg c) -> wf_path f /\ exists r, split_run_id (stem f) = Ok r) /\
    (forall p, In (Some p) pmms -> wf_path p /\ exists r, split_run_id (source_name p) = Ok r) /\
    (forall f, In f (b_fish c) -> wf_path f) /\ (forall f, In f (b_cl c) -> wf_path f).
  Lemma sort_In f : In f (sort_configs (b_fcfg c)) <-> In f (b_fcfg c).
  Proof. unfold sort_configs. destruct (forallb _ _); [apply isort_In|reflexivity]. Qed.
  Lemma new_run_ok ub uc x : names_ok -> In x all -> forall d, command_of x d ->
    exists id d', new_run input_dir ub uc d = Ok (id, d') /\ command_of x d'.
  Proof.
    intros (N1 & N2 & N3 & N4) Hx d Hd. destruct x as [[[f g] l] p]. apply combos_In in Hx as (Hf & Hg & Hl & Hp).
    apply sort_In in Hf. destruct (N1 f Hf) as (Wf & r & Ef).
    pose proof Hd as (H1 & H2 & H3 & H4 & H5). unfold new_run. rewrite H1, H2, H3, H4. cbn [rbind]. rewrite to_path_text by exact Wf. rewrite Ef. cbn [rbind].
    assert (X : exists id1, (if ub then Ok (fst r ++ "_" ++ stem (to_path (path_text g)))%string else Ok (fst r)) = Ok id1) by (destruct ub; eauto).
    destruct X as (id1 & ->). cbn [rbind].
    assert (X : exists id2, (if uc then Ok (id1 ++ "_" ++ stem (to_path (path_text l)))%string else Ok id1) = Ok id2) by (destruct uc; eauto).
    destruct X as (id2 & ->). cbn [rbind].
    assert (C : forall id, command_of (f, g, l, p) (sset (sset d "id" id) "i" input_dir)).
    { intros id. unfold command_of. repeat (rewrite sset_other by reflexivity). exact Hd. }
    destruct p as [p|]; cbn [option_map].
    - destruct (N2 p Hp) as (Wp & rp & Ep). rewrite to_path_text by exact Wp. unfold source_name in Ep. rewrite Ep. cbn [rbind]. eauto.
    - cbn [rbind]. eauto.
  Qed.
  Lemma launch_all ub uc l st : a_ex a <> "no"%string -> names_ok ->
    (forall x, In x l -> In x all) ->
    (forall k, In k ["fcfg"; "fish_cfg"; "cl_cfg"; "pmm_dir"; "ex"]%string -> ~ overridden k) ->
    exists ds ids, for_each (fun x => let '(f, g, l, p) := x in launch input_dir ub uc (keyvals c a f g l p)) l st = ((fst st ++ ds, snd st ++ ids), Ok tt) /\
      Forall2 command_of l ds /\ length ids = length l.
  Proof.
    intros E N. revert st. induction l as [|x l IH]; intros st H O.
    - exists [], []. cbn. rewrite !app_nil_r. destruct st. auto.
    - cbn [for_each]. destruct x as [[[f g] cl] p] eqn:Ex.
      destruct (new_run_ok ub uc (f, g, cl, p) N (H _ (or_introl eq_refl)) (keyvals c a f g cl p)) as (id & d' & R & C); [apply keyvals_spec, O|].
      unfold launch at 1. rewrite R. pose proof C as (_ & _ & _ & _ & C5). rewrite C5.
      destruct (String.eqb_spec (a_ex a) "no") as [|_]; [contradiction|].
      destruct (IH (fst st ++ [d'], snd st ++ [id])) as (ds & ids & R' & F & L); [intros y Hy; apply H; right; exact Hy|exact O|].
      rewrite R'. cbn [fst snd]. exists (d' :: ds), (id :: ids). rewrite <- !app_assoc. cbn. split; [reflexivity|]. split; [constructor; assumption|]. cbn. auto.
  Qed.
  Lemma batch_flat : b_fcfg c <> [] -> b_fish c <> [] -> b_cl c <> [] -> (a_angular a = true -> pmms <> []) ->
    batch = for_each (fun x => let '(f, g, l, p) := x in
      launch input_dir (1 <? length (b_fish c))%nat (1 <? length (b_cl c))%nat (keyvals c a f g l p)) all ([], []).
  Proof.
    intros H1 H2 H3 H4. unfold run_batch, isnil. destruct (b_fcfg c) eqn:E1; [congruence|]. rewrite <- E1.
    destruct (b_fish c) eqn:E2; [congruence|]. rewrite <- E2. destruct (b_cl c) eqn:E3; [congruence|]. rewrite <- E3.
    destruct (_ && _) eqn:E4. { destruct pmms; [|discriminate]. apply andb_true_iff in E4 as [_ E4]. destruct (H4 E4 eq_refl). }
    unfold combos. rewrite <- for_each_flat. apply for_each_ext. intros f s _. rewrite <- for_each_flat. apply for_each_ext. intros g s' _.
    rewrite <- for_each_flat. apply for_each_ext. intros ll s'' _. rewrite <- for_each_map. reflexivity.
  Qed.

  (** One command per combination, in order, with its own directories. *)
  Theorem C64_one_each : b_fcfg c <> [] -> b_fish c <> [] -> b_cl c <> [] -> pmms <> [] -> a_ex a <> "no"%string -> names_ok ->
    (forall k, In k ["fcfg"; "fish_cfg"; "cl_cfg"; "pmm_dir"; "ex"]%string -> ~ overridden k) ->
    exists ds ids, batch = ((ds, ids), Ok tt) /\ Forall2 command_of all ds /\ length ids = length all /\
      (NoDup (b_fcfg c) -> NoDup (b_fish c) -> NoDup (b_cl c) -> NoDup pmms -> NoDup ds).
  Proof.
    intros H1 H2 H3 H4 E N O. rewrite batch_flat by auto.
    destruct (launch_all (1 <? length (b_fish c))%nat (1 <? length (b_cl c))%nat all ([], [])) as (ds & ids & R & F & L); auto.
    exists ds, ids. split; [exact R|]. split; [exact F|]. split; [exact L|]. intros N1 N2 N3 N4.
    assert (ND : NoDup all). { apply combos_NoDup; auto. unfold sort_configs. destruct (forallb _ _); [apply isort_NoDup|]; assumption. }
    assert (W : forall x, In x all -> let '(f, g, l, p) := x in wf_path f /\ wf_path g /\ wf_path l /\ forall q, p = Some q -> wf_path q).
    { intros [[[f g] l] p] Hx. apply combos_In in Hx as (Hf & Hg & Hl & Hp). destruct N as (W1 & W2 & W3 & W4). split; [apply W1, sort_In, Hf|].
      split; [apply W3, Hg|]. split; [apply W4, Hl|]. intros q ->. apply W2, Hp. }
    clear R L. induction F as [|x d l ds C F IH]; [constructor|]. inversion ND; subst. constructor.
    - intros Hd. apply H5. clear -Hd C F W.
      assert (Y : exists y, In y l /\ command_of y d).
      { clear W. induction F as [|y d' l ds C' F IH]; [destruct Hd|]. destruct Hd as [<-|Hd]; [exists y; split; [left; reflexivity|exact C']|].
        destruct (IH Hd) as (z & Hz & Cz). exists z. split; [right; exact Hz|exact Cz]. }
      destruct Y as (y & Hy & Cy). pose proof (W x (or_introl eq_refl)) as Wx. pose proof (W y (or_intror Hy)) as Wy.
      destruct x as [[[f g] cl] p], y as [[[f' g'] cl'] p']. destruct C as (C1 & C2 & C3 & C4 & _), Cy as (D1 & D2 & D3 & D4 & _).
      destruct Wx as (X1 & X2 & X3 & X4), Wy as (Y1 & Y2 & Y3 & Y4).
      assert (f = f') by (apply path_text_inj; auto; congruence). assert (g = g') by (apply path_text_inj; auto; congruence).
      assert (cl = cl') by (apply path_text_inj; auto; congruence).
      assert (p = p'). { rewrite C4 in D4. destruct p as [p|], p' as [p'|]; cbn [option_map] in D4; try discriminate D4; [|reflexivity].
        f_equal. apply path_text_inj; [apply X4; reflexivity|apply Y4; reflexivity|]. congruence. }
      subst. exact Hy.
    - apply IH; [assumption|]. intros y Hy. apply W. right. exact Hy.
  Qed.
  (** With execution "no" nothing is launched. *)
  Theorem C64_dry_run : a_ex a = "no"%string -> ~ overridden "ex" -> fst (fst batch) = [].
  Proof.
    intros E O. assert (X : forall A (body : A -> started -> started * res unit) l st, (forall x s, fst s = [] -> fst (fst (body x s)) = []) -> fst st = [] -> fst (fst (for_each body l st)) = []).
    { intros A body l. induction l as [|x l IH]; intros st H S; cbn; [exact S|]. specialize (H x st S) as Hx. destruct (body x st) as [st' [u|e]]; [apply IH; assumption|exact Hx]. }
    unfold run_batch. destruct (isnil (b_fcfg c)); [reflexivity|]. destruct (isnil pmms && _); [reflexivity|].
    destruct (isnil (b_fish c)); [reflexivity|]. destruct (isnil (b_cl c)); [reflexivity|].
    apply X; [|reflexivity]. intros f s S. apply X; [|exact S]. intros g s1 S1. apply X; [|exact S1]. intros l s2 S2. apply X; [|exact S2].
    intros p s3 S3. unfold launch.
    destruct (new_run _ _ _ _) as [[id d']|e] eqn:R; [|exact S3].
    assert (G : dget String.eqb d' "ex" = Some "no"%string).
    { assert (G0 : dget String.eqb (keyvals c a f g l p) "ex" = Some "no"%string).
      { unfold keyvals. rewrite ext_other by exact O. unfold cli_args. destruct p, (a_ini a); repeat (rewrite sset_other by reflexivity); rewrite sset_same, E; reflexivity. }
      unfold new_run in R. repeat match type of R with rbind ?e _ = _ => destruct e; cbn [rbind] in R; [|discriminate R] end.
      injection R as _ <-. repeat (rewrite sset_other by reflexivity). exact G0. }
    rewrite G. exact S3.
  Qed.
End C64.

(** The order of the configurations. *)
Lemma num_app l x : num (l ++ [x]) = 10 * num l + digit_val x.
Proof. unfold num. rewrite fold_left_app. reflexivity. Qed.
Lemma num_dec n : num (chars (dec n)) = n.
Proof.
  unfold dec. assert (H : forall fuel k, k < fuel -> num (chars (dec_fuel fuel k)) = k); [|apply H; lia].
  induction fuel as [|f IH]; intros k Hk; [lia|]. cbn [dec_fuel]. destruct (Nat.ltb_spec k 10) as [L|L].
  - change (num (chars (String (digit k) ""))) with (digit_val (digit k)). apply val_digit, L.
  - rewrite chars_app. cbn [chars list_ascii_of_string]. rewrite num_app, IH by (apply Nat.lt_le_trans with k; [apply Nat.div_lt; lia|lia]).
    rewrite val_digit by (apply Nat.mod_upper_bound; lia). rewrite <- Nat.div_mod; lia.
Qed.
Lemma dec_digits n : all_chars is_digit (dec n) = true /\ dec n <> ""%string.
Proof.
  unfold dec. assert (H : forall fuel k, all_chars is_digit (dec_fuel fuel k) = true).
  { induction fuel as [|f IH]; intros k; [reflexivity|]. cbn [dec_fuel]. destruct (Nat.ltb_spec k 10) as [L|L].
    - cbn [all_chars]. rewrite (proj1 (digit_props k L)). reflexivity.
    - assert (A : forall x y, all_chars is_digit (x ++ y) = all_chars is_digit x && all_chars is_digit y).
      { induction x as [|z x IHx]; intros y; cbn; [reflexivity|]. rewrite IHx. apply andb_assoc. }
      rewrite A, IH. cbn [all_chars]. rewrite (proj1 (digit_props (k mod 10) (Nat.mod_upper_bound k 10 ltac:(discriminate)))). reflexivity. }
  split; [apply H|]. cbn [dec_fuel]. destruct (n <? 10)%nat; [discriminate|]. destruct (dec_fuel n (n / 10)); discriminate.
Qed.
Definition numbered (p : path) (n : nat) : Prop := exists pre post, path_name p = (pre ++ dec n ++ "_sp_bins" ++ post)%string /\ all_chars (fun a => negb (is_digit a)) pre = true.
Lemma bins_numbered p n : numbered p n -> bins_of p = Some n.
Proof.
  intros (pre & post & E & H). unfold bins_of. rewrite E. clear E. induction pre as [|x pre IH].
  - destruct (dec_digits n) as [D N].
    assert (S : span is_digit (dec n ++ "_sp_bins" ++ post) = (dec n, ("_sp_bins" ++ post)%string)) by (apply span_app; [exact D|reflexivity]).
    change ("" ++ ?x)%string with x. destruct (dec n ++ "_sp_bins" ++ post)%string as [|y t] eqn:E; [destruct (dec n); [congruence|discriminate]|].
    cbn [search_bins]. rewrite S. assert (T : starts "_sp_bins" ("_sp_bins" ++ post) = true) by (apply starts_iff; eauto). rewrite T.
    rewrite num_dec. destruct (dec n); [congruence|reflexivity].
  - cbn in H. apply andb_true_iff in H as [Hx H]. apply negb_true_iff in Hx. change ((String x pre) ++ ?t)%string with (String x (pre ++ t)).
    cbn [search_bins span]. rewrite Hx. cbn [nonempty andb]. apply IH, H.
Qed.
(** Files all of whose names carry a number of bins run by increasing number;
    otherwise in the order given. *)
Theorem C64_order l : Permutation (sort_configs l) l /\
  (forall f : path -> nat, (forall p, In p l -> numbered p (f p)) -> StronglySorted (fun p q => f p <= f q) (sort_configs l)) /\
  ((exists p, In p l /\ bins_of p = None) -> sort_configs l = l).
Proof.
  unfold sort_configs. split; [destruct (forallb _ _); [apply isort_perm|reflexivity]|]. split.
  - intros f H. assert (A : forallb (fun p => match bins_of p with Some _ => true | None => false end) l = true).
    { apply forallb_forall. intros p Hp. rewrite (bins_numbered p (f p)) by auto. reflexivity. }
    rewrite A.
    assert (T : forall x y, bins_leb x y = true \/ bins_leb y x = true) by (intros x y; unfold bins_leb; rewrite !Nat.leb_le; lia).
    assert (Tr : forall x y z, bins_leb x y = true -> bins_leb y z = true -> bins_leb x z = true) by (intros x y z; unfold bins_leb; rewrite !Nat.leb_le; lia).
    pose proof (isort_ssorted bins_leb T Tr l) as S.
    assert (I : forall p, In p (isort bins_leb l) -> In p l) by (intros p; apply isort_In).
    induction S as [|p m S IH F]; constructor.
    + apply IH. intros q Hq. apply I. right. exact Hq.
    + rewrite Forall_forall in *. intros q Hq. specialize (F q Hq). unfold SortLib.le, bins_leb in F.
      rewrite (bins_numbered p (f p)), (bins_numbered q (f q)) in F; [apply Nat.leb_le, F|apply H, I; right; exact Hq|apply H, I; left; reflexivity].
  - intros (p & Hp & E). destruct (forallb _ _) eqn:A; [|reflexivity]. rewrite forallb_forall in A. specialize (A p Hp). rewrite E in A. discriminate.
Qed.
(** Empty lists of configurations, or no power spectrum for spectra: nothing runs. *)
Theorem C64_nothing_to_run i a c pmms : b_fcfg c = [] \/ b_fish c = [] \/ b_cl c = [] \/ (pmms = [] /\ a_angular a = true) ->
  run_batch i a c pmms = (([], []), Err EException).
Proof.
  unfold run_batch. intros H. destruct (b_fcfg c); cbn [isnil]; [reflexivity|].
  destruct (isnil pmms && a_angular a) eqn:E; [reflexivity|]. destruct (b_fish c); [reflexivity|]. destruct (b_cl c); [reflexivity|].
  destruct H as [H|[H|[H|[-> H]]]]; try discriminate H. cbn in E. congruence.
Qed.
(** orchestrate_run passes one empty entry when no spectra are computed. *)
Theorem C64_power_spectra exists_ angular pm l : get_pmm_dirs exists_ angular pm = Ok l ->
  l <> [] \/ exists n, pm = IsFile n [].
Proof.
  unfold get_pmm_dirs. destruct angular; [|intros X; injection X as <-; left; discriminate].
  destruct pm as [| |p|n ds|]; try discriminate; [intros X; injection X as <-; left; discriminate|].
  destruct (ends "txt" n); [|discriminate]. destruct (forallb exists_ ds); [|discriminate]. intros X. injection X as <-.
  destruct ds; [right; eauto|left; discriminate].
Qed.

(** Witnesses. *)
Definition w_args (ex : string) : batch_args := {| a_ex := ex; a_queue := "medium"; a_cores := "4"; a_mem := "2000"; a_ini := None;
  a_angular := true; a_derivative := true; a_fisher := true; a_flags := [] |}.
Definition w_pmm (stamp : string) : option path := Some ["data"; "fid_1.3.8_" ++ stamp; "PowerSpectrum"]%string.
Definition w_cfg (ext : option string) : batch_cfg := {| b_fcfg := [["w"; "opt_12_sp_bins.json"]; ["w"; "opt_4_sp_bins.json"]]%string;
  b_fish := [["w"; "fish.json"]]%string; b_cl := [["w"; "cl.json"]]%string; b_pmm_cfg := "/w/pmm.json"; b_der_cfg := "/w/der.json"; b_res_cfg := "/w/res.json";
  b_ext := [("pmm_dir", ext); ("cl_dir", None); ("der_dir", None)]%string |}.
Definition w_pmms := [w_pmm "2021-03-04T05-06-07"; w_pmm "2021-03-05T05-06-07"].
(** A power spectrum directory in external_dirs.json replaces every run's own. *)
Theorem C64_external_directory_refuted :
  let out := run_batch "/i" (w_args "batch") (w_cfg (Some "/ext/PowerSpectrum"%string)) w_pmms in
  NoDup w_pmms /\ snd out = Ok tt /\ map (fun d => dget String.eqb d "pmm_dir") (fst (fst out)) = repeat (Some "/ext/PowerSpectrum"%string) 4.
Proof.
  cbv zeta. split; [|vm_compute; auto]. constructor; [intros [X|[]]; discriminate X|]. constructor; [intros []|constructor].
Qed.
(** Runs on two power spectra of the same name get the same identifier. *)
Theorem C64_equal_identifiers : snd (fst (run_batch "/i" (w_args "batch") (w_cfg None) w_pmms)) =
  ["opt_4_sp_bins_fid"; "opt_4_sp_bins_fid"; "opt_12_sp_bins_fid"; "opt_12_sp_bins_fid"]%string.
Proof. vm_compute. reflexivity. Qed.
(** An impossible date in the last name: the runs before it have been started. *)
Theorem C64_bad_name : 
  let out := run_batch "/i" (w_args "batch") (w_cfg None) [w_pmm "2021-03-04T05-06-07"; w_pmm "2021-13-04T05-06-07"] in
  length (fst (fst out)) = 1 /\ snd out = Err EValueError.
Proof. vm_compute. auto. Qed.
Example C64_instance :
  b_fcfg (w_cfg None) <> [] /\ b_fish (w_cfg None) <> [] /\ b_cl (w_cfg None) <> [] /\ w_pmms <> [] /\ a_ex (w_args "batch") <> "no"%string /\
  names_ok (w_cfg None) w_pmms /\
  (forall k, In k ["fcfg"; "fish_cfg"; "cl_cfg"; "pmm_dir"; "ex"]%string -> ~ overridden (w_cfg None) k) /\
  numbered ["w"; "opt_4_sp_bins.json"]%string 4 /\ numbered ["w"; "opt_12_sp_bins.json"]%string 12 /\
  build_cmd (w_args "batch") (keyvals (w_cfg None) (w_args "batch") ["w"; "opt_4_sp_bins.json"]%string ["w"; "fish.json"]%string ["w"; "cl.json"]%string (w_pmm "2021-03-04T05-06-07")) =
    "job_submitter --angular --derivative --fisher -fcfg /w/opt_4_sp_bins.json -cl_cfg /w/cl.json -fish_cfg /w/fish.json -ex batch -q medium -ncj 4 -mem 2000 -pmm_dir /data/fid_1.3.8_2021-03-04T05-06-07/PowerSpectrum -pmm_cfg /w/pmm.json -der_cfg /w/der.json -res_cfg /w/res.json "%string.
Proof.
  assert (W : forall p, p <> [] -> forallb (fun c => nonempty c && negb (has "/" c)) p = true -> wf_path p).
  { intros p N H. split; [exact N|]. rewrite forallb_forall in H. apply Forall_forall. intros x Hx. specialize (H x Hx).
    apply andb_true_iff in H as [H1 H2]. apply negb_true_iff in H2. split; [intros ->; discriminate|exact H2]. }
  repeat (split; [discriminate|]). split; [|split; [|split; [|split]]].
  - split; [|split; [|split]].
    + intros f [<-|[<-|[]]]; (split; [apply W; [discriminate|reflexivity]|eexists; vm_compute; reflexivity]).
    + intros f [X|[X|[]]]; injection X as <-; (split; [apply W; [discriminate|reflexivity]|eexists; vm_compute; reflexivity]).
    + intros f [<-|[]]. apply W; [discriminate|reflexivity].
    + intros f [<-|[]]. apply W; [discriminate|reflexivity].
  - intros k _ (x & [X|[X|[X|[]]]]); discriminate X.
  - exists "opt_"%string, ".json"%string. split; reflexivity.
  - exists "opt_"%string, ".json"%string. split; reflexivity.
  - vm_compute. reflexivity.
Qed.

Print Assumptions C81_all_submitted. Print Assumptions C81_refused. Print Assumptions C81_no_scripts.
Print Assumptions C82_round_trip. Print Assumptions C82_only_run_names. Print Assumptions C82_impossible_date. Print Assumptions C82_two_digit_version_refuted.
Print Assumptions C65_complete. Print Assumptions C65_no_duplicates. Print Assumptions C65_exact. Print Assumptions C65_prefix_refuted.
Print Assumptions C64_one_each. Print Assumptions C64_dry_run. Print Assumptions C64_order. Print Assumptions C64_nothing_to_run. Print Assumptions C64_power_spectra.
Print Assumptions C64_external_directory_refuted. Print Assumptions C64_equal_identifiers. Print Assumptions C64_bad_name.
