(** Property C116: the table of the resources used by the Fisher jobs. *)
From Coq Require Import QArith Lqa.
From Verif Require Import Base StrLib NameModel NameLemmas BatchModel TimeModel TimeProps ReportModel ReportProps UsageModel.
Close Scope Q_scope.
Open Scope string_scope.
Open Scope list_scope.

(** ** What the batch system writes *)
(** [p] does not occur in [a ++ s] before [s]. *)
Definition not_before (p a s : string) : Prop := forall x y r, a = (x ++ y)%string -> y <> "" -> (y ++ s)%string <> (p ++ r)%string.
Definition blank (w : string) : Prop := white w /\ w <> "".
Definition digits (s : string) : Prop := all_chars is_digit s = true.
Definition month_names : list string := ["Jan"; "Feb"; "Mar"; "Apr"; "May"; "Jun"; "Jul"; "Aug"; "Sep"; "Oct"; "Nov"; "Dec"].
Definition month_name (m : nat) : string := nth (m - 1) month_names "".
(** The text gives the time [t] after the first occurrence of [prefix]. *)
Definition dated (prefix : string) (t : moment) (text : string) : Prop :=
  exists a wd w1 d w2 w3 b,
    text = (a ++ prefix ++ " " ++ wd ++ " " ++ month_name (mo t) ++ w1 ++ d ++ w2 ++ pad2 (hr t) ++ ":" ++ pad2 (mi t) ++ ":" ++ pad2 (se t) ++ w3 ++ dec (yr t) ++ b)%string /\
    all_chars is_letter wd = true /\ wd <> "" /\ blank w1 /\ blank w2 /\ blank w3 /\ (d = dec (dy t) \/ d = pad2 (dy t)) /\
    not_before prefix a (prefix ++ " " ++ wd ++ " " ++ month_name (mo t) ++ w1 ++ d ++ w2 ++ pad2 (hr t) ++ ":" ++ pad2 (mi t) ++ ":" ++ pad2 (se t) ++ w3 ++ dec (yr t) ++ b).
(** A number with or without decimals, and its value. *)
Fixpoint fraction (s : string) : Q := match s with EmptyString => 0%Q | String a r => ((inject_Z (Z.of_nat (digit_val a)) + fraction r) / 10)%Q end.
Fixpoint whole (s : string) : Q :=
  match s with EmptyString => 0%Q | String a r => (inject_Z (Z.of_nat (digit_val a)) * inject_Z (10 ^ Z.of_nat (String.length r)) + whole r)%Q end.
Inductive decimal : string -> Q -> Prop :=
| dec_int a q : digits a -> a <> "" -> (q == whole a)%Q -> decimal a q
| dec_frac a b q : digits a -> digits b -> (a ++ b)%string <> "" -> (q == whole a + fraction b)%Q -> decimal (a ++ "." ++ b)%string q.
(** The text gives the number [q] after the first occurrence of [label]. *)
Definition shows (label : string) (q : Q) (text : string) : Prop :=
  exists a w1 w2 v b, text = (a ++ label ++ w1 ++ ":" ++ w2 ++ v ++ b)%string /\ white w1 /\ blank w2 /\ decimal v q /\
    match b with EmptyString => True | String c _ => is_num c = false end /\ not_before label a (label ++ w1 ++ ":" ++ w2 ++ v ++ b).

(** ** Lemmas *)
Lemma search_first {A} (f : string -> option A) a s x : f s = Some x -> (forall u y, a = (u ++ y)%string -> y <> "" -> f (y ++ s)%string = None) -> search f (a ++ s)%string = Some x.
Proof.
  intros E. induction a as [|c a IH]; intros H.
  - cbn [append]. destruct s; cbn [search]; rewrite E; reflexivity.
  - change (search f (String c a ++ s)%string) with (match f (String c a ++ s)%string with Some x => Some x | None => search f (a ++ s)%string end).
    rewrite (H "" (String c a)); [|reflexivity|discriminate]. apply IH. intros u y -> N. exact (H (String c u) y eq_refl N).
Qed.
Lemma search_none {A} (f : string -> option A) s : (forall u y, s = (u ++ y)%string -> f y = None) -> search f s = None.
Proof.
  induction s as [|c s IH]; intros H; cbn [search]; rewrite (H "" _ eq_refl); [reflexivity|]. apply IH. intros u y ->. exact (H (String c u) y eq_refl).
Qed.
Lemma strip_not p s : (forall r, s <> (p ++ r)%string) -> strip_prefix p s = None.
Proof. intros H. destruct (strip_prefix p s) as [r|] eqn:E; [|reflexivity]. apply strip_iff in E. elim (H r E). Qed.

Lemma blank_span w r : blank w -> match r with EmptyString => True | String c _ => is_white c = false end -> span is_white (w ++ r) = (w, r).
Proof. intros [W _] H. apply span_app; [apply white_all; exact W|exact H]. Qed.
Lemma blank_whites w r : blank w -> match r with EmptyString => True | String c _ => is_white c = false end -> whites (w ++ r)%string = Some r.
Proof. intros B H. unfold whites. rewrite blank_span by assumption. destruct B as [_ N]. destruct w; [congruence|reflexivity]. Qed.
Lemma digit_not_white c : is_digit c = true -> is_white c = false.
Proof. unfold is_digit, is_white. destruct (Nat.leb_spec 48 (nat_of_ascii c)); [|discriminate]. intros _. destruct (Nat.leb_spec (nat_of_ascii c) 13); [lia|]. destruct (Nat.leb_spec (nat_of_ascii c) 32); [lia|]. rewrite !andb_false_r. reflexivity. Qed.
Lemma letter_not_white c : is_letter c = true -> is_white c = false.
Proof.
  unfold is_letter, is_upper, is_lower, is_white. destruct (Nat.leb_spec 65 (nat_of_ascii c)); [|destruct (Nat.leb_spec 97 (nat_of_ascii c)); [lia|discriminate]]. intros _.
  destruct (Nat.leb_spec (nat_of_ascii c) 13); [lia|]. destruct (Nat.leb_spec (nat_of_ascii c) 32); [lia|]. rewrite !andb_false_r. reflexivity.
Qed.
Lemma white_not_digit w r : blank w -> match (w ++ r)%string with EmptyString => True | String c _ => is_digit c = false end.
Proof. intros [W N]. destruct w as [|c w]; [congruence|]. cbn [append]. destruct W as [W _]. apply is_white_iff in W. destruct (is_digit c) eqn:D; [|reflexivity]. apply digit_not_white in D. congruence. Qed.
Lemma digits2_pad n r : (n < 100)%nat -> digits2 (pad2 n ++ r) = Some (pad2 n, r).
Proof. intros H. destruct (div100 n H) as (A & B & _). destruct (digit_props _ A) as [D1 _], (digit_props _ B) as [D2 _]. unfold pad2. cbn [append digits2]. rewrite D1, D2. reflexivity. Qed.

Lemma pad_head n r (P : string -> Prop) : (n < 100)%nat -> (forall c s, is_digit c = true -> P (String c s)) -> P (pad2 n ++ r)%string.
Proof. intros H Q. destruct (div100 n H) as (A & _ & _). destruct (digit_props _ A) as [D _]. unfold pad2. cbn [append]. apply Q. exact D. Qed.
Lemma day_text d n : (1 <= n <= 31)%nat -> d = dec n \/ d = pad2 n -> digits d /\ d <> "" /\ zfill2 d = pad2 n.
Proof.
  intros H Hd.
  assert (C : forallb (fun n => all_chars is_digit (dec n) && negb (String.eqb (dec n) "") && String.eqb (zfill2 (dec n)) (pad2 n) && all_chars is_digit (pad2 n) && negb (String.eqb (pad2 n) "") && String.eqb (zfill2 (pad2 n)) (pad2 n)) (seq 1 31) = true) by (vm_compute; reflexivity).
  rewrite forallb_forall in C. specialize (C n). assert (I : In n (seq 1 31)) by (apply in_seq; lia). specialize (C I). rewrite !andb_true_iff, !negb_true_iff, !String.eqb_neq, !String.eqb_eq in C.
  destruct Hd as [-> | ->]; unfold digits; tauto.
Qed.
Lemma month_text m r : (1 <= m <= 12)%nat -> letters3 (month_name m ++ r)%string = Some (month_name m, r) /\ f_mon (month_name m ++ r)%string = [(m, r)].
Proof. intros H. do 13 (destruct m as [|m]; [try lia; split; reflexivity|]). lia. Qed.
Lemma not_white_letters wd s : all_chars is_letter wd = true -> span is_letter (wd ++ " " ++ s) = (wd, " " ++ s)%string.
Proof. intros H. apply span_app; [exact H|reflexivity]. Qed.

Definition tail_of (wd w1 d w2 w3 b : string) (t : moment) : string :=
  (" " ++ wd ++ " " ++ month_name (mo t) ++ w1 ++ d ++ w2 ++ pad2 (hr t) ++ ":" ++ pad2 (mi t) ++ ":" ++ pad2 (se t) ++ w3 ++ dec (yr t) ++ b)%string.
Lemma date_found prefix wd w1 d w2 w3 b t : common t -> all_chars is_letter wd = true -> wd <> "" -> blank w1 -> blank w2 -> blank w3 -> digits d -> d <> "" ->
  date_at prefix (prefix ++ tail_of wd w1 d w2 w3 b t) = Some (month_name (mo t), d, (pad2 (hr t) ++ ":" ++ pad2 (mi t) ++ ":" ++ pad2 (se t))%string, dec (yr t)).
Proof.
  intros [V Y] Wl Wn B1 B2 B3 Dd Nd. pose proof (bounds t V) as B. unfold date_at, tail_of.
  replace (prefix ++ " " ++ wd ++ " " ++ month_name (mo t) ++ w1 ++ d ++ w2 ++ pad2 (hr t) ++ ":" ++ pad2 (mi t) ++ ":" ++ pad2 (se t) ++ w3 ++ dec (yr t) ++ b)%string
    with ((prefix ++ " ") ++ wd ++ " " ++ month_name (mo t) ++ w1 ++ d ++ w2 ++ pad2 (hr t) ++ ":" ++ pad2 (mi t) ++ ":" ++ pad2 (se t) ++ w3 ++ dec (yr t) ++ b)%string by (rewrite sapp_assoc; reflexivity).
  rewrite strip_prefix_app. cbn [obind]. rewrite not_white_letters by exact Wl. destruct wd as [|c wd]; [congruence|]. cbn [nonempty negb].
  rewrite strip_prefix_app. cbn [obind]. rewrite (proj1 (month_text (mo t) _ ltac:(lia))). cbn [obind].
  rewrite blank_whites; [|exact B1|destruct d as [|e d]; [congruence|]; cbn [append]; apply digit_not_white; cbn in Dd; apply andb_true_iff in Dd; apply Dd].
  cbn [obind]. rewrite (span_app is_digit d _ Dd (white_not_digit w2 _ B2)). replace (nonempty d) with true by (destruct d; [congruence|reflexivity]). cbn [negb].
  rewrite blank_whites; [|exact B2|apply (pad_head (hr t) _ (fun s => match s with EmptyString => True | String c _ => is_white c = false end)); [lia|intros c' s' D; apply digit_not_white; exact D]].
  cbn [obind]. rewrite digits2_pad by lia. cbn [obind]. rewrite strip_prefix_app. cbn [obind]. rewrite digits2_pad by lia. cbn [obind]. rewrite strip_prefix_app. cbn [obind]. rewrite digits2_pad by lia. cbn [obind].
  rewrite (dec4 (yr t)) by lia. rewrite sapp_assoc. assert (H1 : (yr t / 100 < 100)%nat) by (apply Nat.div_lt_upper_bound; lia). assert (H2 : (yr t mod 100 < 100)%nat) by (apply Nat.mod_upper_bound; lia).
  rewrite blank_whites; [|exact B3|apply (pad_head (yr t / 100) _ (fun s => match s with EmptyString => True | String c _ => is_white c = false end)); [lia|intros c' s' D; apply digit_not_white; exact D]].
  cbn [obind]. rewrite digits2_pad by lia. cbn [obind]. rewrite digits2_pad by lia. reflexivity.
Qed.
Lemma lsf_read t : common t -> lsf_date (dec (yr t) ++ " " ++ month_name (mo t) ++ " " ++ pad2 (dy t) ++ " " ++ pad2 (hr t) ++ ":" ++ pad2 (mi t) ++ ":" ++ pad2 (se t)) = Ok (to_second t).
Proof.
  intros [V Y]. pose proof (bounds t V) as B. unfold lsf_date.
  assert (R : reads [f_year; after " " f_mon; after " " f_day; after " " f_hour; after ":" f_minute; after ":" f_second]
    (dec (yr t) ++ " " ++ month_name (mo t) ++ " " ++ pad2 (dy t) ++ " " ++ pad2 (hr t) ++ ":" ++ pad2 (mi t) ++ ":" ++ pad2 (se t)) [yr t; mo t; dy t; hr t; mi t; se t] "").
  { eapply reads_cons; [apply year_pad; lia|].
    eapply reads_cons; [rewrite after_lit; apply (proj2 (month_text (mo t) _ ltac:(lia)))|].
    eapply reads_cons; [rewrite after_lit; unfold f_day; rewrite two_pad2 by lia; reflexivity|].
    destruct (padded_field 0 23 0 (hr t) (":" ++ pad2 (mi t) ++ ":" ++ pad2 (se t)) ltac:(lia) ltac:(lia)) as [k3 E3].
    eapply reads_cons; [rewrite after_lit; exact E3|].
    destruct (padded_field 0 59 0 (mi t) (":" ++ pad2 (se t)) ltac:(lia) ltac:(lia)) as [k4 E4].
    eapply reads_cons; [rewrite after_lit; exact E4|].
    destruct (padded_field 0 61 0 (se t) "" ltac:(lia) ltac:(lia)) as [k5 E5].
    eapply reads_cons; [rewrite after_lit; rewrite sapp_nil_r in E5; exact E5|]. eexists. reflexivity. }
  destruct R as [k ->]. change (mkMoment (yr t) (mo t) (dy t) (hr t) (mi t) (se t) 0%Z) with (to_second t). rewrite (to_second_valid t V). reflexivity.
Qed.
Lemma date_at_prefix prefix s : (forall r, s <> (prefix ++ r)%string) -> date_at prefix s = None.
Proof.
  intros H. unfold date_at. rewrite strip_not; [reflexivity|]. intros r E. apply (H (" " ++ r)%string). rewrite E, sapp_assoc. reflexivity.
Qed.
(** A time is read back to the second, whatever the text around it. *)
Theorem C116_time prefix t text : common t -> dated prefix t text -> extract_date text prefix = Ok (to_second t).
Proof.
  intros C (a & wd & w1 & d & w2 & w3 & b & -> & Wl & Wn & B1 & B2 & B3 & Hd & NB). unfold extract_date.
  destruct (day_text d (dy t) ltac:(pose proof (bounds t (proj1 C)); lia) Hd) as (Dd & Nd & Z2).
  pose proof (date_found prefix wd w1 d w2 w3 b t C Wl Wn B1 B2 B3 Dd Nd) as Fd. unfold tail_of in Fd.
  rewrite (search_first _ a _ _ Fd).
  - cbn [groups rbind]. rewrite Z2. apply lsf_read. exact C.
  - intros u y -> N. apply date_at_prefix. intros r. apply (NB u y r eq_refl N).
Qed.

Lemma figure_at_prefix label s : (forall r, s <> (label ++ r)%string) -> figure_at label s = None.
Proof. intros H. unfold figure_at. rewrite strip_not; [reflexivity|exact H]. Qed.
Lemma decimal_num v q : decimal v q -> all_chars is_num v = true /\ v <> "".
Proof.
  assert (D : forall a, digits a -> all_chars is_num a = true). { intros a. unfold digits. induction a as [|c a IH]; cbn; [reflexivity|]. rewrite !andb_true_iff. unfold is_num at 1. intros [-> H]. auto. }
  assert (Ap : forall a b, all_chars is_num a = true -> all_chars is_num b = true -> all_chars is_num (a ++ b)%string = true). { intros a b. induction a as [|c a IH]; cbn; [auto|]. rewrite !andb_true_iff. intuition. }
  intros [a q' Da Na _|a b q' Da Db N _]; [auto|]. split; [|destruct a; discriminate]. apply Ap; [auto|]. cbn [append all_chars]. rewrite (D b Db). reflexivity.
Qed.
Lemma figure_found label w1 w2 v b q : white w1 -> blank w2 -> decimal v q -> match b with EmptyString => True | String c _ => is_num c = false end ->
  figure_at label (label ++ w1 ++ ":" ++ w2 ++ v ++ b) = Some v.
Proof.
  intros W1 B2 Dv Hb. destruct (decimal_num _ _ Dv) as [Av Nv]. unfold figure_at. rewrite strip_prefix_app. rewrite (span_app is_white w1); [|apply white_all; exact W1|reflexivity]. cbn [append].
  rewrite (blank_span w2); [|exact B2|].
  - rewrite (span_app is_num v b Av Hb). destruct B2 as [_ N2]. destruct w2; [congruence|]. destruct v; [congruence|]. reflexivity.
  - destruct v as [|c v]; [congruence|]. cbn [append]. cbn in Av. apply andb_true_iff in Av. destruct Av as [Av _]. unfold is_num in Av. apply orb_true_iff in Av. destruct Av as [Av|Av]; [apply digit_not_white; exact Av|].
    apply Ascii.eqb_eq in Av. subst c. reflexivity.
Qed.
Lemma digits_no_point a : digits a -> StrLib.has "." a = false.
Proof. unfold digits. induction a as [|c a IH]; cbn; [reflexivity|]. rewrite andb_true_iff. intros [D H]. rewrite (IH H), orb_false_r. destruct (Ascii.eqb_spec c "."); [subst c; discriminate D|reflexivity]. Qed.
Lemma znum_app n a b : znum n (a ++ b) = znum (znum n a) b.
Proof. revert n. induction a as [|c a IH]; intros n; cbn; [reflexivity|apply IH]. Qed.
Lemma znum_whole n a : (inject_Z (znum n a) == inject_Z n * inject_Z (10 ^ Z.of_nat (String.length a)) + whole a)%Q.
Proof.
  revert n. induction a as [|c a IH]; intros n.
  - cbn [znum whole String.length]. change (10 ^ Z.of_nat 0)%Z with 1%Z. change (inject_Z 1) with 1%Q. ring.
  - cbn [znum whole String.length]. rewrite IH. rewrite Nat2Z.inj_succ, Z.pow_succ_r by lia. rewrite inject_Z_plus, !inject_Z_mult. ring.
Qed.
Lemma pow_pos n : (0 < 10 ^ Z.of_nat n)%Z.
Proof. apply Z.pow_pos_nonneg; lia. Qed.
Lemma fraction_whole b : (fraction b * inject_Z (10 ^ Z.of_nat (String.length b)) == whole b)%Q.
Proof.
  induction b as [|c b IH]; [reflexivity|]. cbn [fraction whole String.length]. rewrite Nat2Z.inj_succ, Z.pow_succ_r by lia. rewrite inject_Z_mult, <- IH. change (inject_Z 10) with 10%Q. field.
Qed.
(** The value of a figure. *)
Theorem C116_figure v q : decimal v q -> exists x, to_float v = Ok x /\ (x == q)%Q.
Proof.
  intros [a q' Da Na E|a b q' Da Db N E].
  - unfold to_float. rewrite split_none by (apply digits_no_point; exact Da). eexists. split; [reflexivity|]. rewrite E, znum_whole. change (inject_Z 0) with 0%Q. ring.
  - unfold to_float. change ("." ++ b)%string with (String "." b). rewrite split_app by (apply digits_no_point; exact Da). rewrite split_none by (apply digits_no_point; exact Db).
    replace (nonempty a || nonempty b) with true by (destruct a; [destruct b; [elim N; reflexivity|reflexivity]|reflexivity]). eexists. split; [reflexivity|].
    pose proof (pow_pos (String.length b)) as P. rewrite E, znum_app.
    setoid_replace (Qmake (znum (znum 0 a) b) (Z.to_pos (10 ^ Z.of_nat (String.length b)))) with (inject_Z (znum (znum 0 a) b) / inject_Z (10 ^ Z.of_nat (String.length b)))%Q.
    + rewrite znum_whole, <- fraction_whole, znum_whole. change (inject_Z 0) with 0%Q. field. intros H. unfold inject_Z, Qeq in H. cbn in H. lia.
    + rewrite Qmake_Qdiv. rewrite Z2Pos.id by exact P. reflexivity.
Qed.
Lemma figure_read label q text : shows label q text -> exists v x, search (figure_at label) text = Some v /\ to_float v = Ok x /\ (x == q)%Q.
Proof.
  intros (a & w1 & w2 & v & b & -> & W1 & B2 & Dv & Hb & NB). destruct (C116_figure v q Dv) as (x & E & Q). exists v, x. split; [|auto].
  apply search_first; [apply (figure_found label w1 w2 v b q); assumption|]. intros u y -> N. apply figure_at_prefix. intros r. apply (NB u y r eq_refl N).
Qed.

(** ** The names of the log files *)
Lemma longest_app a s x : longest s = Some x -> longest (a ++ s)%string = Some (a ++ x)%string.
Proof. intros E. induction a as [|c a IH]; [exact E|]. cbn [append longest]. rewrite IH. reflexivity. Qed.
Lemma mark_iff s : year_mark s = true <-> exists r, s = ("_2020" ++ r)%string \/ s = ("_2021" ++ r)%string.
Proof.
  unfold year_mark. cbn [strip_any fold_right]. split.
  - destruct (strip_prefix "_2020" s) as [r|] eqn:E; [intros _; apply strip_iff in E; eauto|]. destruct (strip_prefix "_2021" s) as [r|] eqn:E2; [intros _; apply strip_iff in E2; eauto|discriminate].
  - intros (r & [-> | ->]); reflexivity.
Qed.
Lemma longest_none s : (forall u y, s = (u ++ y)%string -> year_mark y = false) -> longest s = None.
Proof.
  induction s as [|c s IH]; intros H; [reflexivity|]. cbn [longest]. rewrite IH by (intros u y ->; exact (H (String c u) y eq_refl)). pose proof (H "" _ eq_refl) as H0. rewrite H0. reflexivity.
Qed.
Lemma no_mark s : StrLib.has "_" s = false -> longest s = None.
Proof.
  intros H. apply longest_none. intros u y ->. rewrite has_app in H. apply orb_false_iff in H. destruct H as [_ H].
  destruct (year_mark y) eqn:M; [|reflexivity]. apply mark_iff in M. destruct M as (r & [-> | ->]); discriminate H.
Qed.
Lemma has_pad n c : is_digit c = false -> (n < 100)%nat -> StrLib.has c (pad2 n) = false.
Proof.
  intros C H. destruct (div100 n H) as (A & B & _). destruct (digit_props _ A) as [D1 _], (digit_props _ B) as [D2 _]. unfold pad2. cbn [StrLib.has].
  destruct (Ascii.eqb_spec (digit (n / 10)) c); [congruence|]. destruct (Ascii.eqb_spec (digit (n mod 10)) c); [congruence|]. reflexivity.
Qed.
Lemma has_date t : common t -> StrLib.has "_" (datetime_str_format t "-") = false.
Proof.
  intros [V Y]. pose proof (bounds t V) as B. assert (H1 : (yr t / 100 < 100)%nat) by (apply Nat.div_lt_upper_bound; lia). assert (H2 : (yr t mod 100 < 100)%nat) by (apply Nat.mod_upper_bound; lia).
  unfold datetime_str_format. rewrite (dec4 (yr t)) by lia. rewrite !has_app, !has_pad by (reflexivity || lia). reflexivity.
Qed.
Lemma stem_out n : stem (n ++ ".out")%string = n.
Proof.
  unfold stem. rewrite slen_app. cbn [String.length]. rewrite Nat.add_sub. induction n as [|c n IH]; [reflexivity|]. cbn [append String.length substring]. f_equal. exact IH.
Qed.
Definition log_stem (start : string) (now : moment) : string := ("out_" ++ start ++ "_" ++ datetime_str_format now "-")%string.
Lemma log_stem_name start now : fst (log_names start now) = (log_stem start now ++ ".out")%string.
Proof. unfold log_names, log_stem. cbn [fst]. rewrite !sapp_assoc. reflexivity. Qed.
(** In 2020 and 2021 the name of a job is read from the name of its log file. *)
Theorem C116_name start now : common now -> (yr now = 2020 \/ yr now = 2021)%nat -> out_name (stem (fst (log_names start now))) = Some start.
Proof.
  intros C Y. rewrite log_stem_name, stem_out. unfold log_stem, out_name. rewrite strip_prefix_app. rewrite <- (sapp_nil_r start) at 2. apply longest_app.
  change ("_" ++ datetime_str_format now "-")%string with (String "_" (datetime_str_format now "-")). cbn [longest]. rewrite (no_mark _ (has_date now C)).
  replace (year_mark (String "_" (datetime_str_format now "-"))) with true; [reflexivity|]. symmetry. apply mark_iff. unfold datetime_str_format.
  pose proof (proj1 C) as V. rewrite dec4 by (apply bounds in V; destruct C; lia).
  destruct Y as [-> | ->]; eexists; [left|right]; reflexivity.
Qed.
(** The text contains no mark of 2020 or 2021. *)
Definition unmarked (s : string) : Prop := forall a b, s <> (a ++ "_2020" ++ b)%string /\ s <> (a ++ "_2021" ++ b)%string.
Lemma straddle y d r c : unmarked y -> (y ++ String "_" d)%string = ("_202" ++ String c r)%string -> c = "0"%char \/ c = "1"%char -> y = "".
Proof.
  intros U E C. destruct y as [|y0 [|y1 [|y2 [|y3 [|y4 y]]]]]; [reflexivity| | | | |]; cbn in E; try discriminate E.
  - injection E. intros; subst. destruct C; discriminate.
  - injection E. intros; subst. exfalso. destruct (U "" y) as [U0 U1]. destruct C as [-> | ->]; [apply U0|apply U1]; reflexivity.
Qed.
Lemma cut_cases a b u y : (a ++ b)%string = (u ++ y)%string -> (exists z, a = (u ++ z)%string /\ y = (z ++ b)%string) \/ (exists v, b = (v ++ y)%string /\ v <> "").
Proof.
  revert a. induction u as [|c u IH]; intros a E; [left; exists a; split; [reflexivity|symmetry; exact E]|].
  destruct a as [|e a]; [right; exists (String c u); split; [exact E|discriminate]|]. cbn in E. injection E as -> E. destruct (IH a E) as [(z & -> & ->)|R]; [left; exists z; split; reflexivity|right; exact R].
Qed.
Theorem C116_later_name start now : common now -> (2022 <= yr now)%nat -> unmarked start -> out_name (stem (fst (log_names start now))) = None.
Proof.
  intros C Y U. rewrite log_stem_name, stem_out. unfold log_stem, out_name. rewrite strip_prefix_app. apply longest_none. intros u y E.
  destruct (year_mark y) eqn:M; [|reflexivity]. exfalso. apply mark_iff in M.
  assert (Sp : (exists z, start = (u ++ z)%string /\ y = (z ++ String "_" (datetime_str_format now "-"))%string) \/ (exists v, String "_" (datetime_str_format now "-") = (v ++ y)%string /\ v <> "")).
  { exact (cut_cases start _ u y E). }
  destruct Sp as [(z & -> & ->)|(v & Ev & Nv)].
  - assert (Uz : unmarked z) by (intros a b; destruct (U (u ++ a)%string b) as [U0 U1]; split; intros ->; [apply U0|apply U1]; rewrite sapp_assoc; reflexivity).
    assert (Z : z = "") by (destruct M as (r & [M|M]); refine (straddle z _ r _ Uz M _); auto). subst z.
    cbn [append] in M. pose proof (proj1 C) as V. unfold datetime_str_format in M. apply bounds in V. rewrite dec4 in M by lia.
    assert (H1 : (yr now / 100 < 100)%nat) by (apply Nat.div_lt_upper_bound; lia). assert (H2 : (yr now mod 100 < 100)%nat) by (apply Nat.mod_upper_bound; lia).
    destruct (div100 _ H1) as (A1 & A2 & A3), (div100 _ H2) as (B1 & B2 & B3). pose proof (Nat.div_mod (yr now) 100 ltac:(lia)) as DM.
    destruct (digit_props _ A1) as [_ V1], (digit_props _ A2) as [_ V2], (digit_props _ B1) as [_ V3], (digit_props _ B2) as [_ V4].
    unfold pad2 in M. cbn [append] in M.
    remember (yr now / 100 / 10)%nat as ya. remember ((yr now / 100) mod 10)%nat as yb. remember ((yr now mod 100) / 10)%nat as yc. remember ((yr now mod 100) mod 10)%nat as yd.
    assert (X : exists k, (k = 0 \/ k = 1)%nat /\ (ya = 2 /\ yb = 0 /\ yc = 2 /\ yd = k)%nat).
    { destruct M as (r & [M|M]); injection M as M1 M2 M3 M4 _; rewrite M1 in V1; rewrite M2 in V2; rewrite M3 in V3; rewrite M4 in V4; cbn in V1, V2, V3, V4; [exists 0%nat|exists 1%nat]; (split; [lia|]); repeat split; lia. }
    destruct X as (k & K & X1 & X2 & X3 & X4). lia.
  - destruct v as [|c v]; [congruence|]. cbn [append] in Ev. injection Ev as _ Ev. pose proof (has_date now C) as Hd. rewrite Ev, has_app in Hd. apply orb_false_iff in Hd. destruct Hd as [_ Hd].
    destruct M as (r & [-> | ->]); discriminate Hd.
Qed.

Lemma F2_cons {A B} (R : A -> B -> Prop) x y l m : Forall2 R (x :: l) (y :: m) -> R x y /\ Forall2 R l m.
Proof. intros H. inversion H. auto. Qed.

(** ** Rows and the table *)
Definition gives (f : jfile) (t0 t1 : moment) (figs : list (string * Q)) : Prop :=
  common t0 /\ common t1 /\ dated "Started at" t0 (ftext f) /\ dated "Results reported on" t1 (ftext f) /\
  map fst figs = ["cpu_time_s"; "max_mem_MB"; "avg_mem_MB"; "req_mem_MB"; "delta_mem_MB"] /\
  Forall2 (fun l q => shows l q (ftext f)) ["CPU time"; "Max Memory"; "Average Memory"; "Total Requested Memory"; "Delta Memory"] (map snd figs).
Definition same_figures (a b : list (string * Q)) : Prop := Forall2 (fun x y => fst x = fst y /\ (snd x == snd y)%Q) a b.
(** The row of a job that took less than a day and whose log was named in 2020 or
    2021: its name, times, duration and figures. *)
Theorem C116_row start now f t0 t1 figs : common now -> (yr now = 2020 \/ yr now = 2021)%nat -> fname f = fst (log_names start now) -> gives f t0 t1 figs ->
  exists u, usage_row f = Ok u /\ u_fisher u = start /\ u_start u = to_second t0 /\ u_end u = to_second t1 /\ same_figures (u_figures u) figs /\
    (let d := length_of (to_second t0) (to_second t1) in
     ((0 <= d < a_day)%Z -> (u_secs u * 1000000 = d)%Z) /\ ((a_day <= d)%Z -> (u_secs u * 1000000 < d)%Z) /\ u_text u = string_time_format (u_secs u)).
Proof.
  intros C Y En (C0 & C1 & D0 & D1 & Ef & Sh). unfold usage_row. rewrite En, (C116_name start now C Y). cbn [groups rbind].
  rewrite (C116_time _ t0 _ C0 D0), (C116_time _ t1 _ C1 D1). cbn [rbind].
  destruct figs as [|[k1 q1] [|[k2 q2] [|[k3 q3] [|[k4 q4] [|[k5 q5] [|]]]]]]; try discriminate Ef. cbn [map fst snd] in Ef, Sh. injection Ef as -> -> -> -> ->.
  apply F2_cons in Sh as [S1 Sh]. apply F2_cons in Sh as [S2 Sh]. apply F2_cons in Sh as [S3 Sh]. apply F2_cons in Sh as [S4 Sh]. apply F2_cons in Sh as [S5 _].
  apply figure_read in S1 as (v1 & x1 & E1 & F1 & Q1). apply figure_read in S2 as (v2 & x2 & E2 & F2 & Q2). apply figure_read in S3 as (v3 & x3 & E3 & F3 & Q3). apply figure_read in S4 as (v4 & x4 & E4 & F4 & Q4). apply figure_read in S5 as (v5 & x5 & E5 & F5 & Q5).
  unfold figures. cbn [rmapM fst snd]. rewrite E1, E2, E3, E4, E5. cbn [groups rbind]. rewrite F1, F2, F3, F4, F5. cbn [rbind].
  eexists. split; [reflexivity|]. cbn [u_fisher u_start u_end u_secs u_figures u_text]. split; [reflexivity|]. split; [reflexivity|]. split; [reflexivity|]. split; [repeat constructor; assumption|].
  assert (M : exists k, length_of (to_second t0) (to_second t1) = (1000000 * k)%Z /\ seconds_attr (to_second t0) (to_second t1) = (k mod 86400)%Z).
  { exists (secs t1 - secs t0)%Z. unfold seconds_attr, length_of. assert (Ms : forall t, micros (to_second t) = (secs t * 1000000)%Z) by (intros t; unfold micros, secs, to_second, day_number; cbn [yr mo dy hr mi se us]; ring).
    rewrite !Ms. split; [ring|]. replace (secs t1 * 1000000 - secs t0 * 1000000)%Z with ((secs t1 - secs t0) * 1000000)%Z by ring. rewrite Z.div_mul by lia. reflexivity. }
  destruct M as (k & L & Sc). rewrite L, Sc. unfold a_day. split; [|split; [|reflexivity]].
  - intros H. rewrite Z.mod_small by lia. ring.
  - intros H. pose proof (Z.mod_pos_bound k 86400 ltac:(lia)). lia.
Qed.

(** The table has a row for every log file, in the order of the directory, and there
    is one only if there is a log file and every log file can be read. *)
Definition a_log (f : jfile) : bool := fits "" ".out" (fname f).
Lemma rmapM_iff {A B} (g : A -> res B) l r : rmapM g l = Ok r <-> Forall2 (fun x y => g x = Ok y) l r.
Proof.
  revert r. induction l as [|x l IH]; intros r; cbn [rmapM].
  - split; [intros [= <-]; constructor|intros H; inversion H; reflexivity].
  - destruct (g x) as [y|e] eqn:E; cbn [rbind]; [|split; [discriminate|intros H; inversion H; congruence]].
    destruct (rmapM g l) as [ys|e] eqn:R; cbn [rbind].
    + split; [intros [= <-]; constructor; [exact E|apply IH; reflexivity]|]. intros H. inversion H as [|? y' ? l' H1 H2]; subst. assert (y' = y) by congruence. apply IH in H2. congruence.
    + split; [discriminate|]. intros H. inversion H as [|? y' ? l' H1 H2]; subst. apply IH in H2. discriminate.
Qed.
Theorem C116_table dir rows : usage_file dir = Some rows <-> rows <> [] /\ Forall2 (fun f u => usage_row f = Ok u) (filter a_log dir) rows.
Proof.
  unfold usage_file, usage_table. rewrite <- rmapM_iff. unfold a_log. destruct (rmapM usage_row (filter (fun f => fits "" ".out" (fname f)) dir)) as [rs|e]; cbn [rbind].
  - destruct rs as [|r rs]; split; [discriminate|intros [N [= <-]]; congruence|intros [= <-]; split; [discriminate|reflexivity]|intros [_ [= <-]]; reflexivity].
  - split; [discriminate|intros [_ H]; discriminate].
Qed.
(** A log file that cannot be read leaves no table at all. *)
Lemma no_table dir f : In f dir -> a_log f = true -> (forall u, usage_row f <> Ok u) -> usage_file dir = None.
Proof.
  intros I L H. destruct (usage_file dir) as [rows|] eqn:E; [|reflexivity]. apply C116_table in E. destruct E as [_ E]. exfalso.
  assert (J : In f (filter a_log dir)) by (apply filter_In; auto). revert J. induction E as [|x u l us X _ IH]; [intros []|]. intros [->|J]; [exact (H u X)|exact (IH J)].
Qed.
(** No table is ever written for jobs submitted from 2022 on. *)
Theorem C116_later_refuted dir f start now : In f dir -> common now -> (2022 <= yr now)%nat -> unmarked start -> fname f = fst (log_names start now) ->
  usage_file dir = None /\ usage_row f = Err EAttributeError.
Proof.
  intros I C Y U En. assert (R : usage_row f = Err EAttributeError) by (unfold usage_row; rewrite En, (C116_later_name start now C Y U); reflexivity). split; [|exact R].
  apply (no_table dir f I); [|intros u; rewrite R; discriminate]. unfold a_log. apply fits_iff. rewrite En, log_stem_name. exists (log_stem start now). reflexivity.
Qed.
(** One job whose log lacks one of the figures, and the others have no table. *)
Theorem C116_missing_refuted dir f k label : In f dir -> a_log f = true -> In (k, label) figures -> (forall a b, ftext f <> (a ++ label ++ b)%string) -> usage_file dir = None.
Proof.
  intros I L K N. apply (no_table dir f I L). intros u H. unfold usage_row in H.
  destruct (groups (out_name (stem (fname f)))); [|discriminate]. cbn [rbind] in H. destruct (extract_date (ftext f) "Started at"); [|discriminate]. cbn [rbind] in H.
  destruct (extract_date (ftext f) "Results reported on"); [|discriminate]. cbn [rbind] in H.
  destruct (rmapM _ figures) as [figs|] eqn:R; [|discriminate]. apply rmapM_iff in R. clear H. revert K. induction R as [|x y l m X _ IH]; [intros []|]. intros [->|J]; [|exact (IH J)].
  cbn [fst snd] in X. rewrite (search_none (figure_at label)) in X; [discriminate|]. intros pre post E. apply figure_at_prefix. intros tl ->. exact (N pre tl E).
Qed.
(** Without log files there is no table. *)
Theorem C116_empty dir : (forall f, In f dir -> a_log f = false) -> usage_table dir = Err EKeyError.
Proof.
  intros H. unfold usage_table. replace (filter (fun f => fits "" ".out" (fname f)) dir) with (@nil jfile); [reflexivity|].
  induction dir as [|f dir IH]; [reflexivity|]. cbn [filter]. pose proof (H f (or_introl eq_refl)) as Hf. unfold a_log in Hf. rewrite Hf. apply IH. intros g G. apply H. right. exact G.
Qed.

(** ** A log *)
Definition ex_t0 := mkMoment 2021 3 7 23 5 59 0%Z.
Definition ex_t1 := mkMoment 2021 3 8 1 0 0 0%Z.
Definition ex_log : string := "Started at Sun Mar  7 23:05:59 2021
Results reported on Mon Mar 8 01:00:00 2021
    CPU time :                                   12.25 sec.
    Max Memory :                                 1024 MB
    Average Memory :                             900.50 MB
    Total Requested Memory :                     2048.00 MB
    Delta Memory :                               1024.00 MB
".
Definition ex_file := mkFile (fst (log_names "WL+GCph" ex_t0)) ex_log 400.
Definition ex_figs : list (string * Q) := [("cpu_time_s", 49 # 4); ("max_mem_MB", 1024); ("avg_mem_MB", 1801 # 2); ("req_mem_MB", 2048); ("delta_mem_MB", 1024)]%Q.
Fixpoint clear_before (p a s : string) : bool := match a with EmptyString => true | String _ r => negb (starts p (a ++ s)) && clear_before p r s end.
Lemma clear_before_ok p a s : clear_before p a s = true -> not_before p a s.
Proof.
  intros H x y r -> N E. induction x as [|c x IH]; cbn [append clear_before] in H.
  - destruct y as [|c y]; [congruence|]. cbn [clear_before] in H. apply andb_true_iff in H. destruct H as [H _]. rewrite E in H. unfold starts in H. rewrite strip_prefix_app in H. discriminate.
  - apply andb_true_iff in H. apply IH. apply H.
Qed.
Example C116_instance : exists u, usage_file [ex_file] = Some [u] /\ u_fisher u = "WL+GCph" /\ u_secs u = 6841%Z /\ u_text u = "1h 54m 1s 0ms" /\ u_start u = ex_t0 /\ u_end u = ex_t1 /\
  map (fun kq => QArith_base.Qeq_bool (snd kq) (match dget String.eqb ex_figs (fst kq) with Some q => q | None => 0%Q end)) (u_figures u) = [true; true; true; true; true].
Proof. eexists. split; [vm_compute; reflexivity|]. vm_compute. repeat split. Qed.
Ltac a_date a wd w1 d w2 w3 := exists a, wd, w1, d, w2, w3; eexists; split; [vm_compute; reflexivity|]; split; [reflexivity|]; split; [discriminate|];
  do 3 (split; [split; [cbn; tauto|discriminate]|]); split; [left; reflexivity|apply clear_before_ok; vm_compute; reflexivity].
Ltac a_figure n k v := exists (substring 0 n ex_log), " ", (substring 0 k "                                         "), v; eexists; split; [vm_compute; reflexivity|]; split; [cbn; tauto|];
  split; [split; [cbn; tauto|discriminate]|]; split; [|split; [reflexivity|apply clear_before_ok; vm_compute; reflexivity]].
Example C116_gives_instance : gives ex_file ex_t0 ex_t1 ex_figs.
Proof.
  split; [split; [reflexivity|unfold ex_t0; cbn [yr]; lia]|]. split; [split; [reflexivity|unfold ex_t1; cbn [yr]; lia]|]. split; [|split; [|split; [reflexivity|]]].
  - a_date "" "Sun" "  " "7" " " " ".
  - a_date (substring 0 36 ex_log) "Mon" " " "8" " " " ".
  - repeat (apply Forall2_cons); [| | | | |apply Forall2_nil].
    + a_figure 84 35 "12.25". apply (dec_frac "12" "25"); [reflexivity|reflexivity|discriminate|reflexivity].
    + a_figure 144 33 "1024". apply dec_int; [reflexivity|discriminate|reflexivity].
    + a_figure 201 29 "900.50". apply (dec_frac "900" "50"); [reflexivity|reflexivity|discriminate|reflexivity].
    + a_figure 260 21 "2048.00". apply (dec_frac "2048" "00"); [reflexivity|reflexivity|discriminate|reflexivity].
    + a_figure 320 31 "1024.00". apply (dec_frac "1024" "00"); [reflexivity|reflexivity|discriminate|reflexivity].
Qed.
(** The same job in 2026: no table. *)
Example C116_later_instance : unmarked "WL+GCph" /\ common (mkMoment 2026 3 7 23 5 59 0%Z) /\ usage_file [mkFile (fst (log_names "WL+GCph" (mkMoment 2026 3 7 23 5 59 0%Z))) ex_log 400] = None.
Proof.
  split; [|split; [split; [reflexivity|cbn [yr]; lia]|vm_compute; reflexivity]].
  intros a b. split; intros E; (assert (H : StrLib.has "_" "WL+GCph" = false) by reflexivity); rewrite E, !has_app in H; cbn in H; rewrite ?orb_true_r in H; discriminate.
Qed.

(** ** What is not matched *)
(** A figure is read only after a colon and white space, and has a character. *)
Theorem C116_figure_form label s v : figure_at label s = Some v ->
  exists w1 w2 r, s = (label ++ w1 ++ ":" ++ w2 ++ v ++ r)%string /\ white w1 /\ blank w2 /\ v <> "" /\
    forall a, In a (list_ascii_of_string v) -> is_digit a = true \/ a = "."%char.
Proof.
  unfold figure_at. destruct (strip_prefix label s) as [r|] eqn:E; [|discriminate]. apply strip_prefix_some in E. subst s.
  pose proof (span_split is_white r) as S1. destruct (span is_white r) as [w1 r1]. destruct S1 as [-> W1].
  destruct r1 as [|c r1]; [discriminate|]. intros H.
  assert (c = ":"%char) as ->. { destruct c as [b0 b1 b2 b3 b4 b5 b6 b7]. destruct b0, b1, b2, b3, b4, b5, b6, b7; try discriminate; reflexivity. }
  pose proof (span_split is_white r1) as S2. destruct (span is_white r1) as [w2 r2]. destruct S2 as [-> W2].
  pose proof (span_split is_num r2) as S3. destruct (span is_num r2) as [v' r3]. destruct S3 as [-> V].
  destruct w2 as [|c2 w2]; [discriminate|]. destruct v' as [|c3 v']; [discriminate|]. cbn [nonempty andb] in H. injection H as <-.
  exists w1, (String c2 w2), r3. split; [reflexivity|]. split; [apply white_all; exact W1|]. split; [split; [apply white_all; exact W2|discriminate]|]. split; [discriminate|].
  intros a Ha. remember (String c3 v') as u eqn:Eu. clear Eu. induction u as [|c u IH]; [destruct Ha|]. cbn [all_chars] in V. apply andb_true_iff in V. destruct V as [V1 V2].
  destruct Ha as [->|Ha]; [|apply IH; assumption]. unfold is_num in V1. apply orb_true_iff in V1. destruct V1 as [V1|V1]; [left; exact V1|right; apply Ascii.eqb_eq; exact V1].
Qed.
Lemma split_length c y : forall x, length (split_char c (x ++ String c y)) = (length (split_char c x) + length (split_char c y))%nat.
Proof.
  induction x as [|a x IH]; cbn [append split_char].
  - rewrite Ascii.eqb_refl. reflexivity.
  - destruct (Ascii.eqb a c); [cbn [length]; rewrite IH; reflexivity|]. pose proof (split_nonempty c x) as N. pose proof (split_nonempty c (x ++ String c y)) as N'.
    destruct (split_char c (x ++ String c y)); [congruence|]. destruct (split_char c x); [congruence|]. exact IH.
Qed.
(** A point alone, or two points, are no number. *)
Theorem C116_point : to_float "." = Err EValueError /\ forall a b c, to_float (a ++ "." ++ b ++ "." ++ c)%string = Err EValueError.
Proof.
  split; [reflexivity|]. intros a b c. unfold to_float. replace (a ++ "." ++ b ++ "." ++ c)%string with (a ++ String "." (b ++ String "." c))%string by reflexivity.
  assert (L : (3 <= length (split_char "." (a ++ String "." (b ++ String "." c))))%nat).
  { rewrite !split_length. pose proof (split_nonempty "." a) as A. pose proof (split_nonempty "." b) as B. pose proof (split_nonempty "." c) as C.
    destruct (split_char "." a); [congruence|]. destruct (split_char "." b); [congruence|]. destruct (split_char "." c); [congruence|]. cbn [length]. lia. }
  destruct (split_char "." (a ++ String "." (b ++ String "." c))) as [|x [|y [|z l]]]; cbn [length] in L; try lia. reflexivity.
Qed.
(** A date is read only with a weekday, a month of three letters and figures in
    the places of the time and the year. *)
Lemma letters3_form s m r : letters3 s = Some (m, r) -> s = (m ++ r)%string /\ String.length m = 3%nat /\ all_chars is_letter m = true.
Proof.
  unfold letters3. destruct s as [|a [|b [|c s]]]; try discriminate. destruct (is_letter a && is_letter b && is_letter c) eqn:E; [|discriminate]. intros H. injection H as <- <-.
  apply andb_true_iff in E. destruct E as [E C]. apply andb_true_iff in E. destruct E as [A B]. split; [reflexivity|]. split; [reflexivity|]. cbn [all_chars]. rewrite A, B, C. reflexivity.
Qed.
Lemma digits2_form s m r : digits2 s = Some (m, r) -> s = (m ++ r)%string /\ String.length m = 2%nat /\ digits m.
Proof.
  unfold digits2, digits. destruct s as [|a [|b s]]; try discriminate. destruct (is_digit a && is_digit b) eqn:E; [|discriminate]. intros H. injection H as <- <-.
  split; [reflexivity|]. split; [reflexivity|]. cbn [all_chars]. rewrite andb_true_r. exact E.
Qed.
Lemma whites_form s r : whites s = Some r -> exists w, s = (w ++ r)%string /\ blank w.
Proof.
  unfold whites. pose proof (span_split is_white s) as S. destruct (span is_white s) as [w r']. destruct S as [-> W]. destruct w as [|c w]; [discriminate|]. intros H. injection H as <-.
  exists (String c w). split; [reflexivity|]. split; [apply white_all; exact W|discriminate].
Qed.
Theorem C116_date_form prefix s month day time year : date_at prefix s = Some (month, day, time, year) ->
  exists wd w1 w2 w3 h m e r, s = (prefix ++ " " ++ wd ++ " " ++ month ++ w1 ++ day ++ w2 ++ time ++ w3 ++ year ++ r)%string /\
    all_chars is_letter wd = true /\ wd <> "" /\ all_chars is_letter month = true /\ String.length month = 3%nat /\ digits day /\ day <> "" /\
    blank w1 /\ blank w2 /\ blank w3 /\ time = (h ++ ":" ++ m ++ ":" ++ e)%string /\
    (forall x, In x [h; m; e] -> digits x /\ String.length x = 2%nat) /\ digits year /\ String.length year = 4%nat.
Proof.
  unfold date_at. destruct (strip_prefix (prefix ++ " ") s) as [s1|] eqn:E1; [|discriminate]. cbn [obind]. apply strip_prefix_some in E1. subst s.
  pose proof (span_split is_letter s1) as S. destruct (span is_letter s1) as [wd s2]. destruct S as [-> Wd]. destruct (nonempty wd) eqn:Nw; [|discriminate]. cbn [negb].
  destruct (strip_prefix " " s2) as [s3|] eqn:E3; [|discriminate]. cbn [obind]. apply strip_prefix_some in E3. subst s2.
  destruct (letters3 s3) as [[mo0 s4]|] eqn:E4; [|discriminate]. cbn [obind]. apply letters3_form in E4. destruct E4 as (-> & M1 & M2).
  destruct (whites s4) as [s5|] eqn:E5; [|discriminate]. cbn [obind]. apply whites_form in E5. destruct E5 as (w1 & -> & W1).
  pose proof (span_split is_digit s5) as S. destruct (span is_digit s5) as [d s6]. destruct S as [-> D]. destruct (nonempty d) eqn:Nd; [|discriminate]. cbn [negb].
  destruct (whites s6) as [s7|] eqn:E7; [|discriminate]. cbn [obind]. apply whites_form in E7. destruct E7 as (w2 & -> & W2).
  destruct (digits2 s7) as [[h s8]|] eqn:E8; [|discriminate]. cbn [obind]. apply digits2_form in E8. destruct E8 as (-> & H1 & H2).
  destruct (strip_prefix ":" s8) as [s9|] eqn:E9; [|discriminate]. cbn [obind]. apply strip_prefix_some in E9. subst s8.
  destruct (digits2 s9) as [[m s10]|] eqn:E10; [|discriminate]. cbn [obind]. apply digits2_form in E10. destruct E10 as (-> & I1 & I2).
  destruct (strip_prefix ":" s10) as [s11|] eqn:E11; [|discriminate]. cbn [obind]. apply strip_prefix_some in E11. subst s10.
  destruct (digits2 s11) as [[e s12]|] eqn:E12; [|discriminate]. cbn [obind]. apply digits2_form in E12. destruct E12 as (-> & J1 & J2).
  destruct (whites s12) as [s13|] eqn:E13; [|discriminate]. cbn [obind]. apply whites_form in E13. destruct E13 as (w3 & -> & W3).
  destruct (digits2 s13) as [[y1 s14]|] eqn:E14; [|discriminate]. cbn [obind]. apply digits2_form in E14. destruct E14 as (-> & Y1 & Y1').
  destruct (digits2 s14) as [[y2 s15]|] eqn:E15; [|discriminate]. cbn [obind]. apply digits2_form in E15. destruct E15 as (-> & Y2 & Y2').
  intros H. injection H as <- <- <- <-. exists wd, w1, w2, w3, h, m, e, s15.
  split; [rewrite !sapp_assoc; repeat (f_equal; try (cbn [append]; rewrite ?sapp_assoc; cbn [append])); reflexivity|]. split; [exact Wd|]. split; [intros ->; discriminate|]. split; [exact M2|]. split; [exact M1|]. split; [exact D|]. split; [intros ->; discriminate|].
  do 3 (split; [assumption|]). split; [reflexivity|]. split; [intros x [<-|[<-|[<-|[]]]]; split; assumption|].
  clear -Y1 Y1' Y2 Y2'. unfold digits in *. destruct y1 as [|a [|b [|]]]; try discriminate. cbn [append all_chars String.length] in *. apply andb_true_iff in Y1'. destruct Y1' as [A B]. apply andb_true_iff in B. destruct B as [B _]. rewrite A, B, Y2'. split; [reflexivity|lia].
Qed.
(** A time whose seconds are more than 61 is no date: the first figure would be
    read as the seconds, and the other is left. *)
Theorem C116_seconds t n : common t -> (62 <= n < 100)%nat ->
  lsf_date (dec (yr t) ++ " " ++ month_name (mo t) ++ " " ++ pad2 (dy t) ++ " " ++ pad2 (hr t) ++ ":" ++ pad2 (mi t) ++ ":" ++ pad2 n) = Err EValueError.
Proof.
  intros [V Y] N. pose proof (bounds t V) as B. unfold lsf_date. destruct (div100 n ltac:(lia)) as (Da & Db & Dn). destruct (digit_props _ Da) as [D1 V1], (digit_props _ Db) as [D2 V2].
  assert (R : reads [f_year; after " " f_mon; after " " f_day; after " " f_hour; after ":" f_minute; after ":" f_second]
    (dec (yr t) ++ " " ++ month_name (mo t) ++ " " ++ pad2 (dy t) ++ " " ++ pad2 (hr t) ++ ":" ++ pad2 (mi t) ++ ":" ++ pad2 n) [yr t; mo t; dy t; hr t; mi t; n / 10]%nat (String (digit (n mod 10)) "")).
  { eapply reads_cons; [apply year_pad; lia|].
    eapply reads_cons; [rewrite after_lit; apply (proj2 (month_text (mo t) _ ltac:(lia)))|].
    eapply reads_cons; [rewrite after_lit; unfold f_day; rewrite two_pad2 by lia; reflexivity|].
    destruct (padded_field 0 23 0 (hr t) (":" ++ pad2 (mi t) ++ ":" ++ pad2 n) ltac:(lia) ltac:(lia)) as [k3 E3].
    eapply reads_cons; [rewrite after_lit; exact E3|].
    destruct (padded_field 0 59 0 (mi t) (":" ++ pad2 n) ltac:(lia) ltac:(lia)) as [k4 E4].
    eapply reads_cons; [rewrite after_lit; exact E4|].
    eapply reads_cons; [rewrite after_lit; unfold f_second; cbn [pad2 two one]; rewrite D1, D2, V1, V2, <- Dn; replace (n <=? 61)%nat with false by (symmetry; apply Nat.leb_gt; lia); reflexivity|]. eexists. reflexivity. }
  destruct R as [k ->]. reflexivity.
Qed.
Example C116_form_instance : figure_at "CPU time" "CPU time :  12.5 sec." = Some "12.5" /\ figure_at "CPU time" "CPU time :12.5" = None /\ figure_at "CPU time" "CPU time : sec." = None /\
  date_at "Started at" "Started at Sun Mar  7 23:05:59 2021" = Some ("Mar", "7", "23:05:59", "2021") /\ date_at "Started at" "Started at  Mar  7 23:05:59 2021" = None /\ date_at "Started at" "Started at Sun M03  7 23:05:59 2021" = None.
Proof. repeat split; vm_compute; reflexivity. Qed.

Print Assumptions C116_time.
Print Assumptions C116_figure.
Print Assumptions C116_name.
Print Assumptions C116_later_name.
Print Assumptions C116_row.
Print Assumptions C116_table.
Print Assumptions C116_later_refuted.
Print Assumptions C116_missing_refuted.
Print Assumptions C116_empty.
Print Assumptions C116_figure_form.
Print Assumptions C116_point.
Print Assumptions C116_date_form.
Print Assumptions C116_seconds.
