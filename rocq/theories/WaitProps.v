(** Waiting for jobs (C62), running commands (C63), the stages of a run (C66). *)
From Verif Require Import Base SortLib StrLib NameModel NameLemmas IniModel BatchModel.
Open Scope list_scope.

(** ** Listings as bjobs prints them *)
(** A job as listed, the rest of its line after the state, the texts between. *)
Record lrow := { l_row : jrow; l_w1 : string; l_w2 : string; l_tail : string }.
Definition row_text (r : lrow) : string :=
  (j_id (l_row r) ++ l_w1 r ++ j_user (l_row r) ++ l_w2 r ++ j_stat (l_row r) ++ l_tail r)%string.
Fixpoint rows_text (l : list lrow) : string := match l with [] => ""%string | r :: l' => (row_text r ++ rows_text l')%string end.
Definition word (f : ascii -> bool) (s : string) : Prop := s <> ""%string /\ all_chars f s = true.
(** No digit, then blanks, then lower case letters, then blanks, then an upper
    case letter. *)
Definition quiet (t : string) : Prop := forall a d w l v c b, t = (a ++ String d (w ++ l ++ v ++ String c b))%string ->
  is_digit d = true -> word is_space w -> word is_lower l -> word is_space v -> is_upper c = false.
Definition closed (t : string) : Prop := exists u, t = (u ++ String "010" "")%string.
(** What may stand before and between the rows: whole lines without such a place. *)
Definition filler (t : string) : Prop := quiet t /\ closed t.
Definition good_row (r : lrow) : Prop :=
  word is_digit (j_id (l_row r)) /\ word is_space (l_w1 r) /\ word is_lower (j_user (l_row r)) /\ word is_space (l_w2 r) /\
  word is_upper (j_stat (l_row r)) /\ filler (l_tail r) /\ (forall c t, l_tail r = String c t -> is_upper c = false).
Definition good_header (h : string) : Prop := h = ""%string \/ filler h.

Lemma quiet_tail a t : quiet (String a t) -> quiet t.
Proof. intros Q p d w l v c b E. subst t. apply (Q (String a p) d w l v c b). reflexivity. Qed.
Lemma closed_tail a t : closed (String a t) -> t = ""%string \/ closed t.
Proof. intros ([|x u] & E); injection E as -> E; [left; exact E|]. right. exists u. exact E. Qed.

Lemma span_spec f s u v : span f s = (u, v) -> s = (u ++ v)%string /\ all_chars f u = true /\ match v with String c _ => f c = false | _ => True end.
Proof.
  revert u v. induction s as [|a s IH]; cbn; intros u v E; [injection E as <- <-; auto|].
  destruct (f a) eqn:A; [|injection E as <- <-; auto].
  destruct (span f s) as [u' v'] eqn:S. injection E as <- <-. destruct (IH _ _ eq_refl) as (-> & H & Hv).
  cbn. rewrite A. auto.
Qed.

Lemma space_not_digit a : is_space a = true -> is_digit a = false.
Proof. unfold is_space, is_break, is_digit. destruct (Nat.leb_spec 48 (nat_of_ascii a)); [|reflexivity]. rewrite !orb_true_iff, !Nat.eqb_eq. lia. Qed.
Lemma digit_not_space a : is_digit a = true -> is_space a = false.
Proof. destruct (is_space a) eqn:E; [|reflexivity]. rewrite (space_not_digit _ E). discriminate. Qed.
Lemma digit_not_lower a : is_digit a = true -> is_lower a = false.
Proof. unfold is_lower, is_digit. rewrite andb_true_iff, !Nat.leb_le. intros [? ?]. destruct (Nat.leb_spec 97 (nat_of_ascii a)); [lia|reflexivity]. Qed.
Lemma digit_not_upper a : is_digit a = true -> is_upper a = false.
Proof. unfold is_upper, is_digit. rewrite andb_true_iff, !Nat.leb_le. intros [? ?]. destruct (Nat.leb_spec 65 (nat_of_ascii a)); [lia|reflexivity]. Qed.
Lemma space_not_lower a : is_space a = true -> is_lower a = false.
Proof. unfold is_space, is_break, is_lower. rewrite !orb_true_iff, !Nat.eqb_eq. intros H. destruct (Nat.leb_spec 97 (nat_of_ascii a)); [lia|reflexivity]. Qed.
Lemma lower_not_space a : is_lower a = true -> is_space a = false.
Proof. destruct (is_space a) eqn:E; [|reflexivity]. rewrite (space_not_lower _ E). discriminate. Qed.
Lemma upper_not_space a : is_upper a = true -> is_space a = false.
Proof. unfold is_space, is_break, is_upper. rewrite andb_true_iff, !Nat.leb_le. intros [? ?]. rewrite !orb_false_iff, !Nat.eqb_neq. lia. Qed.
Lemma all_chars_app f a b : all_chars f (a ++ b) = all_chars f a && all_chars f b.
Proof. induction a as [|x a IH]; cbn; [reflexivity|]. rewrite IH. apply andb_assoc. Qed.
Lemma split_last f u : u <> ""%string -> all_chars f u = true -> exists v d, u = (v ++ String d "")%string /\ f d = true.
Proof.
  induction u as [|x u IH]; [congruence|]. intros _ H. cbn in H. apply andb_true_iff in H as [X H]. destruct u as [|y u].
  - exists ""%string, x. auto.
  - destruct IH as (v & d & E & D); [discriminate|exact H|]. exists (String x v), d. rewrite E. auto.
Qed.

(** Nothing matches inside a filler. *)
Definition starts_digit (s : string) : Prop := match s with EmptyString => True | String c _ => is_digit c = true end.
Definition stops (f : ascii -> bool) (s : string) : Prop := match s with EmptyString => True | String c _ => f c = false end.
Lemma span_ext f t rest : snd (span f t) <> ""%string \/ stops f rest ->
  span f (t ++ rest) = (fst (span f t), (snd (span f t) ++ rest)%string).
Proof.
  induction t as [|a t IH]; cbn.
  - intros [H|H]; [congruence|]. destruct rest as [|c r]; [reflexivity|]. cbn in *. rewrite H. reflexivity.
  - destruct (f a); [|reflexivity]. destruct (span f t) as [u v] eqn:S. cbn in *. intros H. rewrite (IH H). reflexivity.
Qed.
Lemma snd_span_closed f t : f "010"%char = false -> closed t -> closed (snd (span f t)).
Proof.
  intros N (u & ->). induction u as [|a u IH]; cbn; [rewrite N; exists ""%string; reflexivity|].
  destruct (f a); [destruct (span f (u ++ String "010" "")) as [x y]; exact IH|]. exists (String a u). reflexivity.
Qed.
Lemma closed_nonempty t : closed t -> t <> ""%string.
Proof. intros ([|a u] & ->); discriminate. Qed.
Lemma no_match t rest : quiet t -> closed t -> starts_digit rest -> match_row (t ++ rest) = None.
Proof.
  intros Q C R. unfold match_row.
  rewrite (span_ext is_digit) by (left; apply closed_nonempty, snd_span_closed; [reflexivity|exact C]).
  destruct (span is_digit t) as [d s1] eqn:S1. apply span_spec in S1 as (E1 & D & _). cbn [fst snd].
  rewrite (span_ext is_space) by (right; destruct rest; [exact I|apply digit_not_space; exact R]).
  destruct (span is_space s1) as [w s2] eqn:S2. apply span_spec in S2 as (E2 & W & _). cbn [fst snd].
  destruct (span is_lower (s2 ++ rest)) as [l3 s3'] eqn:S3.
  assert (X : l3 = ""%string \/ exists s3, s2 = (l3 ++ s3)%string /\ s3' = (s3 ++ rest)%string /\ all_chars is_lower l3 = true).
  { rewrite (span_ext is_lower) in S3 by (right; destruct rest; [exact I|apply digit_not_lower; exact R]).
    destruct (span is_lower s2) as [l s3] eqn:S4. apply span_spec in S4 as (E3 & L & _). cbn in S3. injection S3 as <- <-. right. exists s3. auto. }
  destruct X as [->|(s3 & E3 & -> & L)].
  { destruct (span is_space s3'), (span is_upper _). rewrite andb_false_r. reflexivity. }
  rewrite (span_ext is_space) by (right; destruct rest; [exact I|apply digit_not_space; exact R]).
  destruct (span is_space s3) as [w4 s4] eqn:S5. apply span_spec in S5 as (E4 & V & _). cbn [fst snd].
  destruct d as [|d0 d]; [destruct (span is_upper _); reflexivity|].
  destruct w as [|w0 w]; [destruct (span is_upper _); rewrite andb_false_r; reflexivity|].
  destruct l3 as [|l0 l3]; [destruct (span is_upper _); rewrite andb_false_r; reflexivity|].
  destruct w4 as [|v0 w4]; [destruct (span is_upper _); rewrite andb_false_r; reflexivity|].
  assert (X : stops is_upper (s4 ++ rest)).
  { destruct s4 as [|c b]; cbn.
    - destruct rest; [exact I|apply digit_not_upper; exact R].
    - destruct (@split_last is_digit (String d0 d)) as (dv & dd & Ed & DD); [discriminate|exact D|].
      apply (Q dv dd (String w0 w) (String l0 l3) (String v0 w4) c b); try (split; [discriminate|assumption]); [|exact DD].
      rewrite E1, E2, E3, E4, Ed, !sapp_assoc. reflexivity. }
  destruct (s4 ++ rest)%string as [|c b]; cbn [span].
  - rewrite andb_false_r. reflexivity.
  - cbn in X. rewrite X. rewrite andb_false_r. reflexivity.
Qed.
Lemma findall_filler t rest : t = ""%string \/ filler t -> starts_digit rest -> findall 0 (t ++ rest) = findall 0 rest.
Proof.
  induction t as [|a t IH]; intros G R; [reflexivity|].
  destruct G as [|[Q C]]; [discriminate|]. cbn [String.append findall].
  pose proof (no_match _ _ Q C R) as M. cbn [String.append] in M. rewrite M. apply IH; [|exact R].
  destruct (closed_tail _ _ C) as [->|C']; [left; reflexivity|right; split; [apply (quiet_tail _ _ Q)|exact C']].
Qed.
Lemma findall_skip a b : findall (String.length a) (a ++ b) = findall 0 b.
Proof. induction a as [|x a IH]; [reflexivity|exact IH]. Qed.
Lemma first_not f g s : word f s -> (forall a, f a = true -> g a = false) -> forall r, stops g (s ++ r).
Proof. intros [H A] X r. destruct s as [|c s]; [congruence|]. cbn in *. apply andb_true_iff in A as [A _]. apply X, A. Qed.
Lemma span_word f s r : all_chars f s = true -> stops f r -> span f (s ++ r) = (s, r).
Proof. intros A S. apply span_app; [exact A|]. destruct r; exact S. Qed.
Lemma match_good r rest : good_row r -> match_row (row_text r ++ rest) = Some (l_row r, (l_tail r ++ rest)%string).
Proof.
  intros ((D & D') & (W & W') & (U & U') & (V & V') & (T & T') & (Q & C) & N). unfold row_text, match_row.
  assert (Hup : forall x, stops is_upper (l_tail r ++ x)).
  { intros x. destruct (l_tail r) as [|c t] eqn:E; [destruct C as ([|] & C); discriminate|]. apply (N c t eq_refl). }
  rewrite !sapp_assoc.
  rewrite (span_word is_digit) by (first [assumption | apply (first_not is_space is_digit); [split; assumption|apply space_not_digit]]).
  rewrite (span_word is_space) by (first [assumption | apply (first_not is_lower is_space); [split; assumption|apply lower_not_space]]).
  rewrite (span_word is_lower) by (first [assumption | apply (first_not is_space is_lower); [split; assumption|apply space_not_lower]]).
  rewrite (span_word is_space) by (first [assumption | apply (first_not is_upper is_space); [split; assumption|apply upper_not_space]]).
  rewrite (span_word is_upper) by (first [assumption | apply Hup]).
  destruct (j_id (l_row r)) eqn:E1; [congruence|]. destruct (l_w1 r) eqn:E2; [congruence|].
  destruct (j_user (l_row r)) eqn:E3; [congruence|]. destruct (l_w2 r) eqn:E4; [congruence|].
  destruct (j_stat (l_row r)) eqn:E5; [congruence|]. cbn [nonempty andb].
  rewrite <- E1, <- E3, <- E5. destruct (l_row r); reflexivity.
Qed.
Lemma findall_row r rest : good_row r -> starts_digit rest -> findall 0 (row_text r ++ rest) = l_row r :: findall 0 rest.
Proof.
  intros G R. pose proof (match_good r rest G) as M.
  destruct G as ((D & D') & _ & _ & _ & _ & F & _).
  destruct (row_text r ++ rest)%string as [|a x] eqn:E.
  { unfold row_text in E. destruct (j_id (l_row r)); [congruence|discriminate]. }
  cbn [findall]. rewrite M. f_equal.
  assert (X : exists pre, x = (pre ++ (l_tail r ++ rest))%string).
  { unfold row_text in E. destruct (j_id (l_row r)) as [|b d]; [congruence|]. cbn in E. injection E as _ <-.
    exists (d ++ l_w1 r ++ j_user (l_row r) ++ l_w2 r ++ j_stat (l_row r))%string. rewrite !sapp_assoc. reflexivity. }
  destruct X as (pre & ->). rewrite slen_app. replace (_ + _ - _)%nat with (String.length pre) by lia.
  rewrite findall_skip. apply findall_filler; [right; exact F|exact R].
Qed.
Lemma rows_digit l : Forall good_row l -> starts_digit (rows_text l).
Proof.
  intros [|r l' G _]; [exact I|]. destruct G as ((D & D') & _). cbn. unfold row_text. destruct (j_id (l_row r)) as [|c d]; [congruence|].
  cbn in *. apply andb_true_iff in D' as [D' _]. exact D'.
Qed.
Lemma parse_listing h l : good_header h -> Forall good_row l -> parse_bjobs (h ++ rows_text l) = map l_row l.
Proof.
  intros H G. unfold parse_bjobs. rewrite findall_filler; [|exact H|apply rows_digit, G].
  induction G as [|r l Gr G IH]; [reflexivity|]. cbn. rewrite findall_row; [|exact Gr|apply rows_digit, G]. rewrite IH. reflexivity.
Qed.

(** ** C62 *)
(** A check: the true state of every job, what bjobs prints, and the seconds
    since the start. *)
Record check := { c_state : string -> string; c_header : string; c_rows : list lrow; c_elapsed : Z }.
Definition c_text (o : check) : string := (c_header o ++ rows_text (c_rows o))%string.
Definition obs_of (l : list check) : list (string * Z) := map (fun o => (c_text o, c_elapsed o)) l.
(** bjobs prints one row in its usual form for each of the jobs, with its true state. *)
Definition faithful (jobs : list string) (o : check) : Prop :=
  good_header (c_header o) /\ Forall good_row (c_rows o) /\
  (forall j, In j jobs <-> In j (map (fun r => j_id (l_row r)) (c_rows o))) /\
  (forall r, In r (c_rows o) -> j_stat (l_row r) = c_state o (j_id (l_row r))).
Definition all_done (jobs : list string) (o : check) : Prop := forall j, In j jobs -> c_state o j = "DONE"%string.
Definition one_failed (jobs : list string) (o : check) : Prop := exists j, In j jobs /\ c_state o j = "EXIT"%string.
(** Neither finished nor failed nor too late. *)
Definition waiting (jobs : list string) (limit : Z) (o : check) : Prop :=
  ~ all_done jobs o /\ ~ one_failed jobs o /\ (c_elapsed o <= limit)%Z.

Section C62.
  Variable jobs : list string.
  Hypothesis some_job : jobs <> [].
  Variable limit : Z.
  Lemma stats_done o : faithful jobs o -> (forallb (String.eqb "DONE") (map j_stat (parse_bjobs (c_text o))) = true <-> all_done jobs o).
  Proof.
    intros (H & G & I & S). unfold c_text. rewrite parse_listing by assumption. rewrite map_map, forallb_forall. unfold all_done. split.
    - intros X j Hj. apply I, in_map_iff in Hj as (r & <- & Hr). rewrite <- (S r Hr). symmetry. apply String.eqb_eq, X, in_map_iff. eauto.
    - intros X s Hs. apply in_map_iff in Hs as (r & <- & Hr). apply String.eqb_eq. rewrite (S r Hr). symmetry. apply X, I, in_map_iff. eauto.
  Qed.
  Lemma stats_exit o : faithful jobs o -> (existsb (String.eqb "EXIT") (map j_stat (parse_bjobs (c_text o))) = true <-> one_failed jobs o).
  Proof.
    intros (H & G & I & S). unfold c_text. rewrite parse_listing by assumption. rewrite map_map, existsb_exists. unfold one_failed. split.
    - intros (s & Hs & E). apply in_map_iff in Hs as (r & <- & Hr). apply String.eqb_eq in E.
      exists (j_id (l_row r)). split; [apply I, in_map_iff; eauto|]. rewrite <- (S r Hr). auto.
    - intros (j & Hj & E). apply I, in_map_iff in Hj as (r & <- & Hr). exists (j_stat (l_row r)). split; [apply in_map_iff; eauto|].
      apply String.eqb_eq. rewrite (S r Hr). auto.
  Qed.

  (** With usual listings the outcome is settled by the first check at which the
      jobs are all done, or one has failed, or the limit has passed. *)
  Theorem C62_listed obs : Forall (faithful jobs) obs ->
    (forall e, wait_for_jobs jobs limit (obs_of obs) = Some (Err e) <->
       e = EException /\ exists pre o post, obs = pre ++ o :: post /\ Forall (waiting jobs limit) pre /\ one_failed jobs o) /\
    (wait_for_jobs jobs limit (obs_of obs) = Some (Ok tt) <->
       exists pre o post, obs = pre ++ o :: post /\ Forall (waiting jobs limit) pre /\
         (all_done jobs o \/ (~ one_failed jobs o /\ (limit < c_elapsed o)%Z))) /\
    (wait_for_jobs jobs limit (obs_of obs) = None <-> Forall (waiting jobs limit) obs).
  Proof.
    intros Fa. unfold wait_for_jobs. destruct jobs as [|j0 js] eqn:J; [congruence|]. rewrite <- J in *. clear j0 js J.
    induction Fa as [|o obs Fo Fa IH]; cbn [obs_of map wait_loop].
    - split; [|split].
      + intros e. split; [discriminate|]. intros (_ & [|? ?] & ? & ? & X & _); discriminate X.
      + split; [discriminate|]. intros ([|? ?] & ? & ? & X & _); discriminate X.
      + split; [constructor|reflexivity].
    - assert (Ex : one_failed jobs o -> all_done jobs o -> False).
      { intros (j & Hj & E) D. rewrite (D j Hj) in E. discriminate. }
      pose proof (stats_done o Fo) as SD. pose proof (stats_exit o Fo) as SE.
      destruct (forallb _ _) eqn:FD; [|destruct (existsb _ _) eqn:FE].
      + assert (D : all_done jobs o) by (apply SD; reflexivity). split; [|split].
        * intros e. split; [discriminate|]. intros (_ & pre & o' & post & X & W & Y).
          destruct pre as [|p pre]; injection X as -> X; [destruct (Ex Y D)|]. inversion W; subst. destruct H1 as [H1 _]. contradiction.
        * split; [|reflexivity]. intros _. exists [], o, obs. split; [reflexivity|]. split; [constructor|left; exact D].
        * split; [discriminate|]. intros W. inversion W; subst. destruct H1 as [H1 _]. contradiction.
      + assert (E : one_failed jobs o) by (apply SE; reflexivity). split; [|split].
        * intros e. split.
          -- intros X. injection X as <-. split; [reflexivity|]. exists [], o, obs. auto.
          -- intros (-> & _). reflexivity.
        * split; [discriminate|]. intros (pre & o' & post & X & W & Y).
          destruct pre as [|p pre]; injection X as -> X; [destruct Y as [Y|[Y _]]; [destruct (Ex E Y)|contradiction]|].
          inversion W; subst. destruct H1 as (_ & H1 & _). contradiction.
        * split; [discriminate|]. intros W. inversion W; subst. destruct H1 as (_ & H1 & _). contradiction.
      + assert (ND : ~ all_done jobs o) by (intros X; apply SD in X; discriminate).
        assert (NE : ~ one_failed jobs o) by (intros X; apply SE in X; discriminate).
        destruct (Z.ltb_spec limit (c_elapsed o)) as [L|L].
        * split; [|split].
          -- intros e. split; [discriminate|]. intros (_ & pre & o' & post & X & W & Y).
             destruct pre as [|p pre]; injection X as -> X; [contradiction|]. inversion W; subst. destruct H1 as (_ & _ & H1). lia.
          -- split; [|reflexivity]. intros _. exists [], o, obs. auto.
          -- split; [discriminate|]. intros W. inversion W; subst. destruct H1 as (_ & _ & H1). lia.
        * assert (Wo : waiting jobs limit o) by (repeat split; assumption).
          destruct IH as (I1 & I2 & I3). fold (obs_of obs). split; [|split].
          -- intros e. rewrite I1. split.
             ++ intros (-> & pre & o' & post & -> & W & Y). split; [reflexivity|]. exists (o :: pre), o', post. auto.
             ++ intros (-> & pre & o' & post & X & W & Y). split; [reflexivity|].
                destruct pre as [|p pre]; injection X as -> X; [contradiction|]. inversion W; subst. exists pre, o', post. auto.
          -- rewrite I2. split.
             ++ intros (pre & o' & post & -> & W & Y). exists (o :: pre), o', post. auto.
             ++ intros (pre & o' & post & X & W & Y).
                destruct pre as [|p pre]; injection X as -> X; [destruct Y as [Y|[_ Y]]; [contradiction|lia]|]. inversion W; subst. exists pre, o', post. auto.
          -- rewrite I3. split; [intros X; constructor; assumption|]. intros X. inversion X; assumption.
  Qed.
  (** So, with usual listings and before the limit, waiting ends normally only
      when all jobs are done. *)
  Theorem C62_before_limit obs : Forall (faithful jobs) obs -> Forall (fun o => c_elapsed o <= limit)%Z obs ->
    wait_for_jobs jobs limit (obs_of obs) = Some (Ok tt) -> exists o, In o obs /\ all_done jobs o.
  Proof.
    intros Fa El W. apply (proj1 (proj2 (C62_listed obs Fa))) in W as (pre & o & post & -> & _ & D).
    exists o. split; [apply in_elt|]. destruct D as [D|[_ D]]; [exact D|].
    rewrite Forall_forall in El. specialize (El o (in_elt _ _ _)). lia.
  Qed.
  (** An output without any row counts as success. *)
  Theorem C62_empty_listing_refuted out elapsed obs : parse_bjobs out = [] ->
    wait_for_jobs jobs limit ((out, elapsed) :: obs) = Some (Ok tt).
  Proof. intros E. unfold wait_for_jobs. destruct jobs; [congruence|]. cbn. rewrite E. reflexivity. Qed.
End C62.

(** A running job that is not listed, a running job of a user whose name has a
    digit, a timeout: the caller continues as after success. *)
Definition line (id user stat : string) : string := (id ++ "   " ++ user ++ "   " ++ stat ++ "  medium     node   node   job-x Nov 16 05:45" ++ String "010" "")%string.
Definition header : string := ("JOBID   USER    STAT  QUEUE      FROM_HOST   EXEC_HOST   JOB_NAME   SUBMIT_TIME" ++ String "010" "")%string.
Theorem C62_not_all_done_refuted :
  wait_for_jobs ["1234"; "1235"]%string 10800 [((header ++ line "1234" "paganin" "DONE")%string, 35%Z)] = Some (Ok tt) /\
  wait_for_jobs ["1234"; "1235"]%string 10800 [((header ++ line "1234" "user1" "RUN" ++ line "1235" "user1" "EXIT")%string, 35%Z)] = Some (Ok tt) /\
  wait_for_jobs ["1234"; "1235"]%string 10800 [((header ++ line "1234" "paganin" "RUN" ++ line "1235" "paganin" "DONE")%string, 10801%Z)] = Some (Ok tt).
Proof. vm_compute. auto. Qed.
(** The rest of a line can be read as another job: here both jobs are done, but
    waiting goes on, or fails. *)
Theorem C62_spurious_row_refuted :
  let l n := ("1234   paganin   DONE  medium     node7   " ++ n ++ "  job-x Nov 16 05:45" ++ String "010" "")%string in
  map j_stat (parse_bjobs (header ++ l "farm"%string)) = ["DONE"]%string /\
  wait_for_jobs ["1234"]%string 10800 [((header ++ l "farm EXIT"%string)%string, 35%Z)] = Some (Err EException).
Proof. vm_compute. auto. Qed.
Theorem C62_no_job limit obs : wait_for_jobs [] limit obs = Some (Err EIndexError).
Proof. reflexivity. Qed.


(** A test for [quiet]. *)
Fixpoint quietb (s : string) : bool :=
  match s with
  | EmptyString => true
  | String a r =>
      negb (is_digit a && let (w, s2) := span is_space r in let (l, s3) := span is_lower s2 in let (v, s4) := span is_space s3 in
            nonempty w && nonempty l && nonempty v && match s4 with String c _ => is_upper c | _ => false end) && quietb r
  end.
Lemma quietb_quiet t : quietb t = true -> quiet t.
Proof.
  intros H a d w l v c b E D (W & W') (L & L') (V & V').
  revert t H E. induction a as [|x a IH]; intros t H E; subst t; cbn in H; apply andb_true_iff in H as [H H']; [|apply (IH _ H'); reflexivity].
  destruct (is_upper c) eqn:C; [exfalso|reflexivity].
  rewrite D in H. cbn [andb] in H.
  rewrite (span_word is_space) in H by (first [assumption | apply (first_not is_lower is_space); [split; assumption|apply lower_not_space]]).
  rewrite (span_word is_lower) in H by (first [assumption | apply (first_not is_space is_lower); [split; assumption|apply space_not_lower]]).
  rewrite (span_word is_space) in H by (first [assumption | cbn; apply upper_not_space, C]).
  destruct w; [congruence|]. destruct l; [congruence|]. destruct v; [congruence|]. cbn in H. rewrite C in H. discriminate.
Qed.
Definition w_tail : string := "  medium     node3   4*node3.x   ...job_12.sh Nov 16 05:45
"%string.
Definition w_row id stat : lrow := {| l_row := {| j_id := id; j_user := "paganin"; j_stat := stat |}; l_w1 := "   "; l_w2 := "  "; l_tail := w_tail |}.
Definition w_check a b n : check := {| c_state := fun j => if String.eqb j "1234" then a else b; c_header := header;
  c_rows := [w_row "1234" a; w_row "1235" b]; c_elapsed := n |}.
Lemma w_faithful a b n : word is_upper a -> word is_upper b -> faithful ["1234"; "1235"]%string (w_check a b n).
Proof.
  intros A B.
  assert (T : filler w_tail). { split; [apply quietb_quiet; reflexivity|]. eexists "  medium     node3   4*node3.x   ...job_12.sh Nov 16 05:45"%string. reflexivity. }
  assert (G : forall id st, word is_digit id -> word is_upper st -> good_row (w_row id st)).
  { intros id st H1 H2. split; [exact H1|]. split; [split; [discriminate|reflexivity]|]. split; [split; [discriminate|reflexivity]|].
    split; [split; [discriminate|reflexivity]|]. split; [exact H2|]. split; [exact T|]. intros c t E. cbn in E. injection E as <- _. reflexivity. }
  split; [right; split; [apply quietb_quiet; reflexivity|eexists; unfold header; reflexivity]|].
  split; [constructor; [apply G; [split; [discriminate|reflexivity]|exact A]|constructor; [apply G; [split; [discriminate|reflexivity]|exact B]|constructor]]|].
  split; [intros j; cbn; tauto|]. intros r [<-|[<-|[]]]; reflexivity.
Qed.
Example C62_instance :
  let obs := [w_check "PEND" "PEND" 35; w_check "DONE" "RUN" 65; w_check "DONE" "DONE" 95]%string in
  let bad := [w_check "PEND" "PEND" 35; w_check "EXIT" "RUN" 65; w_check "EXIT" "DONE" 95]%string in
  Forall (faithful ["1234"; "1235"]%string) obs /\ Forall (faithful ["1234"; "1235"]%string) bad /\
  wait_for_jobs ["1234"; "1235"]%string 10800 (obs_of obs) = Some (Ok tt) /\
  wait_for_jobs ["1234"; "1235"]%string 10800 (obs_of bad) = Some (Err EException).
Proof.
  cbv zeta. split; [|split; [|split; vm_compute; reflexivity]];
    (repeat (apply Forall_cons; [apply w_faithful; (split; [discriminate|reflexivity])|])); apply Forall_nil.
Qed.

(** ** C63 *)
(** The exit code does not matter. *)
Theorem C63_exact p : (exists e, execute_command p = Err e) <-> p_err p <> ""%string.
Proof. unfold execute_command. destruct (p_err p); cbn; split; try congruence; [intros (e & X); discriminate|eauto]. Qed.
(** Correct for commands that print to standard error exactly when they fail. *)
Theorem C63_honest_command p : (p_code p <> 0%Z <-> p_err p <> ""%string) ->
  ((exists e, execute_command p = Err e) <-> p_code p <> 0%Z).
Proof. intros H. rewrite C63_exact, H. reflexivity. Qed.
Theorem C63_silent_failure_refuted : exists p, p_code p = 1%Z /\ execute_command p = Ok tt.
Proof. exists {| p_code := 1; p_out := "killed"; p_err := "" |}. auto. Qed.
Theorem C63_warning_refuted : exists p, p_code p = 0%Z /\ execute_command p = Err EException.
Proof. exists {| p_code := 0; p_out := ""; p_err := "RuntimeWarning: divide by zero" |}. auto. Qed.
(** The scripts of a stage run in order up to and including the first one that
    raises; the stage succeeds if and only if none does. *)
Theorem C63_jobs_in_order shell scripts done r : execute_jobs shell scripts = (done, r) ->
  exists left, scripts = done ++ left /\
    (forall sc, In sc (removelast done) -> p_err (shell sc) = ""%string) /\
    (r = Ok tt <-> forall sc, In sc scripts -> p_err (shell sc) = ""%string) /\
    (r = Ok tt -> left = []) /\
    (r <> Ok tt -> done <> [] /\ p_err (shell (last done ""%string)) <> ""%string).
Proof.
  revert done r. induction scripts as [|sc l IH]; cbn; intros done r E.
  - injection E as <- <-. exists []. cbn. intuition congruence.
  - unfold execute_command in E. destruct (p_err (shell sc)) as [|c s] eqn:P; cbn in E.
    + destruct (execute_jobs shell l) as [d' r'] eqn:L. injection E as <- <-.
      destruct (IH _ _ eq_refl) as (left & E & A & B & C & D). exists left. split; [cbn; congruence|]. split; [|split; [|split; [exact C|]]].
      * intros x Hx. destruct d' as [|y d']; [destruct Hx|]. destruct Hx as [<-|Hx]; [exact P|apply A; exact Hx].
      * rewrite B. split; [intros H x [<-|Hx]; auto|intros H x Hx; apply H; right; exact Hx].
      * intros H. destruct (D H) as [D1 D2]. split; [discriminate|]. destruct d'; [congruence|exact D2].
    + injection E as <- <-. exists l. split; [reflexivity|]. cbn. split; [intros x []|].
      split; [split; [discriminate|]|split; [discriminate|]].
      * intros H. specialize (H sc (or_introl eq_refl)). congruence.
      * intros _. split; [discriminate|congruence].
Qed.
Example C63_instance : exists p q, (p_code p <> 0%Z <-> p_err p <> ""%string) /\ (p_code q <> 0%Z <-> p_err q <> ""%string) /\
  execute_command p = Ok tt /\ execute_command q = Err EException /\
  execute_jobs (fun sc => if String.eqb sc "b" then q else p) ["a"; "b"; "c"]%string = (["a"; "b"]%string, Err EException).
Proof.
  exists {| p_code := 0; p_out := "ok"; p_err := "" |}, {| p_code := 2; p_out := ""; p_err := "no such file" |}.
  split; [cbn; split; congruence|]. split; [cbn; split; [intros _; discriminate|intros _; discriminate]|]. auto.
Qed.

(** ** C66 *)
(** The parts a request asks for, in the documented order. *)
Definition requested (present : tasks) (e : event) : bool :=
  match e with Densities | Noise => present Angular | Task t => present t | Results => present Fisher end.
Definition order : list event := [Densities; Task PowerSpectrum; Task Angular; Noise; Task Derivative; Task Fisher; Results].
(** [done] is [plan] up to and including the first part that fails. *)
Definition upto_failure (outcome : event -> res unit) (plan done : list event) (r : res unit) : Prop :=
  match r with
  | Ok _ => done = plan /\ forall e, In e plan -> outcome e = Ok tt
  | Err x => exists pre e post, plan = pre ++ e :: post /\ done = pre ++ [e] /\ outcome e = Err x /\ forall e', In e' pre -> outcome e' = Ok tt
  end.
Fixpoint play (outcome : event -> res unit) (l : list event) : log :=
  match l with [] => nothing | e :: l' => seq_ (emit outcome e) (play outcome l') end.
Lemma play_app outcome a b : play outcome (a ++ b) = seq_ (play outcome a) (play outcome b).
Proof.
  induction a as [|e a IH]; cbn; [destruct (play outcome b); reflexivity|]. rewrite IH. unfold emit.
  destruct (outcome e) as [[]|x]; cbn; [|reflexivity]. destruct (play outcome a) as [l [[]|x]]; [destruct (play outcome b)|]; reflexivity.
Qed.
Lemma play_spec outcome l : upto_failure outcome l (fst (play outcome l)) (snd (play outcome l)).
Proof.
  induction l as [|e l IH]; cbn; [split; [reflexivity|intros e []]|]. unfold emit. destruct (outcome e) as [[]|x] eqn:E; cbn.
  - destruct (play outcome l) as [d r]. cbn in *. destruct r as [[]|x]; cbn in *.
    + destruct IH as [-> H]. split; [reflexivity|]. intros e' [<-|H']; auto.
    + destruct IH as (pre & e' & post & -> & -> & H1 & H2). exists (e :: pre), e', post. cbn. repeat split; auto. intros e'' [<-|H]; auto.
  - exists [], e, l. cbn. repeat split; auto. intros e' [].
Qed.
Lemma seq_nothing_l a : seq_ nothing a = a.
Proof. destruct a; reflexivity. Qed.
Lemma seq_nothing_r a : seq_ a nothing = a.
Proof. destruct a as [l [[]|x]]; cbn; [rewrite app_nil_r|]; reflexivity. Qed.
Lemma seq_assoc a b c : seq_ (seq_ a b) c = seq_ a (seq_ b c).
Proof. destruct a as [la [[]|xa]]; [|reflexivity]. destruct b as [lb [[]|xb]]; cbn; [|reflexivity]. destruct c. rewrite app_assoc. reflexivity. Qed.

Theorem C66_stages outcome present ex : ex <> ExNo ->
  let (done, r) := run_forecast outcome present ex in upto_failure outcome (filter (requested present) order) done r.
Proof.
  intros N. assert (E : run_forecast outcome present ex = play outcome (filter (requested present) order)).
  { unfold run_forecast, compute_densities, compute_noise, run_task, order. cbn [filter requested fold_right].
    destruct ex; [congruence| |]; cbn [executing andb];
      destruct (present PowerSpectrum), (present Angular), (present Derivative), (present Fisher); cbn [andb play];
      rewrite ?seq_nothing_l, ?seq_nothing_r, ?seq_assoc, ?seq_nothing_l, ?seq_nothing_r; reflexivity. }
  rewrite E. pose proof (play_spec outcome (filter (requested present) order)) as P. destruct (play outcome _). exact P.
Qed.
(** With execution "no" nothing runs, except the densities when the spectra are
    requested without the power spectrum. *)
Theorem C66_no_execution outcome present :
  run_forecast outcome present ExNo = if present Angular && negb (present PowerSpectrum) then ([Densities], outcome Densities) else ([], Ok tt).
Proof.
  unfold run_forecast, compute_densities, compute_noise, run_task, nothing, emit. cbn.
  destruct (present PowerSpectrum), (present Angular), (present Derivative), (present Fisher); cbn; try reflexivity; destruct (outcome Densities) as [[]|]; reflexivity.
Qed.
Theorem C66_no_execution_refuted : exists outcome present, fst (run_forecast outcome present ExNo) = [Densities].
Proof. exists (fun _ => Ok tt), (fun t => match t with Angular => true | _ => false end). reflexivity. Qed.
Example C66_instance :
  run_forecast (fun _ => Ok tt) (fun t => match t with PowerSpectrum => false | _ => true end) ExBatch =
    ([Densities; Task Angular; Noise; Task Derivative; Task Fisher; Results], Ok tt) /\
  run_forecast (fun e => match e with Task Derivative => Err EException | _ => Ok tt end) (fun _ => true) ExInteractive =
    ([Densities; Task PowerSpectrum; Task Angular; Noise; Task Derivative], Err EException).
Proof. auto. Qed.

Print Assumptions C62_listed. Print Assumptions C62_before_limit. Print Assumptions C62_empty_listing_refuted.
Print Assumptions C62_not_all_done_refuted. Print Assumptions C62_spurious_row_refuted. Print Assumptions C62_no_job.
Print Assumptions C63_exact. Print Assumptions C63_honest_command. Print Assumptions C63_silent_failure_refuted. Print Assumptions C63_warning_refuted. Print Assumptions C63_jobs_in_order.
Print Assumptions C66_stages. Print Assumptions C66_no_execution. Print Assumptions C66_no_execution_refuted.
