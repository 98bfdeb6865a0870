(** Properties of times and durations as texts (C113). *)
From Coq Require Import QArith Qround Lqa.
From Verif Require Import Base StrLib SortLib NameModel NameLemmas WsModel WsLemmas TimeModel.
Close Scope Q_scope.
Open Scope string_scope.
Open Scope list_scope.

Ltac dm := zify; Z.to_euclidean_division_equations; lia.
Lemma step4 y n : (0 < n)%nat -> (S y / n = y / n + if (S y mod n =? 0)%nat then 1 else 0)%nat.
Proof.
  intros P. assert (N : n <> 0%nat) by lia. pose proof (Nat.div_mod y n N). pose proof (Nat.mod_upper_bound y n N). pose proof (Nat.div_mod (S y) n N). pose proof (Nat.mod_upper_bound (S y) n N).
  destruct (Nat.eqb_spec (S y mod n) 0); nia.
Qed.
Lemma mod_chain y : ((y mod 400 =? 0)%nat = true -> (y mod 100 =? 0)%nat = true) /\ ((y mod 100 =? 0)%nat = true -> (y mod 4 =? 0)%nat = true).
Proof.
  rewrite !Nat.eqb_eq. split; intros H.
  - apply Nat.mod_divides in H; [|discriminate]. destruct H as [k ->]. replace (400 * k)%nat with (4 * k * 100)%nat by lia. apply Nat.mod_mul. discriminate.
  - apply Nat.mod_divides in H; [|discriminate]. destruct H as [k ->]. replace (100 * k)%nat with (25 * k * 4)%nat by lia. apply Nat.mod_mul. discriminate.
Qed.
Definition year_start (y : nat) : nat := (365 * y + y / 4 - y / 100 + y / 400)%nat.
Lemma year_step y : year_start (S y) = (year_start y + 365 + if leap (S y) then 1 else 0)%nat.
Proof.
  unfold year_start, leap. rewrite (step4 y 4), (step4 y 100), (step4 y 400) by lia. destruct (mod_chain (S y)) as [A B].
  assert (G : (y / 100 <= y / 4)%nat) by (apply Nat.div_le_compat_l; lia).
  destruct (S y mod 4 =? 0)%nat, (S y mod 100 =? 0)%nat, (S y mod 400 =? 0)%nat; cbn [negb andb orb]; try (discriminate (A eq_refl)); try (discriminate (B eq_refl)); lia.
Qed.
Lemma year_le y y' : (y <= y')%nat -> (year_start y <= year_start y')%nat.
Proof. induction 1 as [|m _ IH]; [lia|]. rewrite year_step. lia. Qed.
Lemma days_before_le y m : (1 <= m)%nat -> (m <= 12)%nat -> (days_before_month y m + days_in y m <= 365 + if leap y then 1 else 0)%nat.
Proof. intros A B. unfold days_before_month, days_in. do 13 (destruct m as [|m]; [try lia; cbn; destruct (leap y); lia|]). lia. Qed.
Lemma days_before_lt y m m' : (m < m')%nat -> (1 <= m)%nat -> (days_before_month y m + days_in y m <= days_before_month y m')%nat.
Proof.
  intros L P. unfold days_before_month. replace (m' - 1)%nat with ((m - 1) + S (m' - 1 - m))%nat by lia. rewrite seq_app, map_app, list_sum_app. replace (1 + (m - 1))%nat with m by lia. cbn [seq map]. match goal with |- context [list_sum (?a :: ?l)] => change (list_sum (a :: l)) with (a + list_sum l)%nat end. lia.
Qed.
Lemma valid_iff t : valid t = true <-> (1 <= Z.of_nat (yr t) /\ Z.of_nat (yr t) <= 9999 /\ 1 <= Z.of_nat (mo t) /\ Z.of_nat (mo t) <= 12 /\ 1 <= Z.of_nat (dy t) /\ Z.of_nat (dy t) <= Z.of_nat (days_in (yr t) (mo t)) /\ Z.of_nat (hr t) <= 23 /\ Z.of_nat (mi t) <= 59 /\ Z.of_nat (se t) <= 59 /\ 0 <= us t /\ us t < 1000000)%Z.
Proof. unfold valid. rewrite !andb_true_iff, !Nat.leb_le, !Z.leb_le, Z.ltb_lt. lia. Qed.

(** Lexicographic comparison of lists of numbers. *)
Fixpoint lex (a b : list nat) : comparison :=
  match a, b with
  | [], [] => Eq | [], _ => Lt | _, [] => Gt
  | x :: a, y :: b => match Nat.compare x y with Eq => lex a b | c => c end
  end.
Definition parts (t : moment) : list nat := [yr t; mo t; dy t; hr t; mi t; se t].
Lemma day_lt a b : valid a = true -> valid b = true -> (yr a < yr b \/ yr a = yr b /\ mo a < mo b \/ yr a = yr b /\ mo a = mo b /\ dy a < dy b)%nat -> (day_number a < day_number b)%nat.
Proof.
  rewrite !valid_iff. intros Ha Hb H. unfold day_number. fold (year_start (yr a - 1)). fold (year_start (yr b - 1)). destruct H as [H|[[E H]|[E [E2 H]]]].
  - pose proof (year_le (S (yr a - 1)) (yr b - 1) ltac:(lia)) as L. rewrite year_step in L. replace (S (yr a - 1)) with (yr a) in L by lia. pose proof (days_before_le (yr a) (mo a) ltac:(lia) ltac:(lia)). lia.
  - rewrite E in *. pose proof (days_before_lt (yr b) (mo a) (mo b) H ltac:(lia)). lia.
  - rewrite E, E2. lia.
Qed.
Definition secs (t : moment) : Z := (((Z.of_nat (day_number t) * 24 + Z.of_nat (hr t)) * 60 + Z.of_nat (mi t)) * 60 + Z.of_nat (se t))%Z.
Lemma micros_secs t : valid t = true -> (micros t / 1000000 = secs t)%Z.
Proof. rewrite valid_iff. intros H. unfold micros. fold (secs t). rewrite Z.div_add_l by lia. rewrite Z.div_small by lia. lia. Qed.
Lemma lex_secs a b : valid a = true -> valid b = true -> lex (parts a) (parts b) = Z.compare (secs a) (secs b).
Proof.
  intros Ha Hb. pose proof (proj1 (valid_iff a) Ha) as Va. pose proof (proj1 (valid_iff b) Hb) as Vb. symmetry. unfold parts. cbn [lex].
  assert (Lt1 : (yr a < yr b \/ yr a = yr b /\ mo a < mo b \/ yr a = yr b /\ mo a = mo b /\ dy a < dy b)%nat -> Z.compare (secs a) (secs b) = Lt).
  { intros H. apply (day_lt a b Ha Hb) in H. apply Z.compare_lt_iff. unfold secs. lia. }
  assert (Gt1 : (yr b < yr a \/ yr b = yr a /\ mo b < mo a \/ yr b = yr a /\ mo b = mo a /\ dy b < dy a)%nat -> Z.compare (secs a) (secs b) = Gt).
  { intros H. apply (day_lt b a Hb Ha) in H. apply Z.compare_gt_iff. unfold secs. lia. }
  destruct (Nat.compare_spec (yr a) (yr b)) as [E1|L|L]; [|apply Lt1; auto|apply Gt1; auto].
  destruct (Nat.compare_spec (mo a) (mo b)) as [E2|L|L]; [|apply Lt1; auto|apply Gt1; auto].
  destruct (Nat.compare_spec (dy a) (dy b)) as [E3|L|L]; [|apply Lt1; auto 6|apply Gt1; auto 6].
  assert (D : day_number a = day_number b) by (unfold day_number; rewrite E1, E2, E3; reflexivity). unfold secs. rewrite D.
  destruct (Nat.compare_spec (hr a) (hr b)) as [E4|L|L]; [rewrite E4|apply Z.compare_lt_iff; lia|apply Z.compare_gt_iff; lia].
  destruct (Nat.compare_spec (mi a) (mi b)) as [E5|L|L]; [rewrite E5|apply Z.compare_lt_iff; lia|apply Z.compare_gt_iff; lia].
  destruct (Nat.compare_spec (se a) (se b)) as [E6|L|L]; [rewrite E6; apply Z.compare_refl|apply Z.compare_lt_iff; lia|apply Z.compare_gt_iff; lia].
Qed.

(** Texts of numbers of fixed width. *)
Lemma div100 n : (n < 100 -> n / 10 < 10 /\ n mod 10 < 10 /\ n = 10 * (n / 10) + n mod 10)%nat.
Proof. intros H. split; [apply Nat.div_lt_upper_bound; lia|]. split; [apply Nat.mod_upper_bound; lia|apply Nat.div_mod; lia]. Qed.
Lemma two_pad2 lo hi n r : (n < 100 -> lo <= n <= hi -> two lo hi (pad2 n ++ r)%string = [(n, r)])%nat.
Proof.
  intros H B. destruct (div100 n H) as [A [C E]]. destruct (digit_props _ A) as [D1 V1], (digit_props _ C) as [D2 V2]. cbn [pad2 append two]. rewrite D1, D2, V1, V2, <- E.
  replace (lo <=? n)%nat with true by (symmetry; apply Nat.leb_le; lia). replace (n <=? hi)%nat with true by (symmetry; apply Nat.leb_le; lia). reflexivity.
Qed.
Lemma dec4 y : (1000 <= y -> y < 10 * 1000 -> dec y = pad2 (y / 100) ++ pad2 (y mod 100))%nat%string.
Proof.
  intros A B. assert (E : forall f n, (10 <= n)%nat -> dec_fuel (S f) n = (dec_fuel f (n / 10) ++ String (digit (n mod 10)) "")%string).
  { intros f n H. cbn [dec_fuel]. replace (n <? 10)%nat with false by (symmetry; apply Nat.ltb_ge; exact H). reflexivity. }
  assert (L : forall f n, (n < 10)%nat -> dec_fuel (S f) n = String (digit n) "").
  { intros f n H. cbn [dec_fuel]. replace (n <? 10)%nat with true by (symmetry; apply Nat.ltb_lt; exact H). reflexivity. }
  unfold dec. destruct y as [|[|[|y]]]; try lia. remember (S (S (S y))) as n eqn:En.
  rewrite E by lia. rewrite En at 1. rewrite E by (apply Nat.div_le_lower_bound; lia). rewrite E by (rewrite !Nat.div_div by lia; apply Nat.div_le_lower_bound; lia).
  rewrite L by (rewrite !Nat.div_div by lia; apply Nat.div_lt_upper_bound; lia). unfold pad2. cbn [append]. rewrite !Nat.div_div by lia.
  assert (M : (n mod 100 = n mod 10 + 10 * ((n / 10) mod 10))%nat) by (change 100%nat with (10 * 10)%nat; apply Nat.mod_mul_r; lia).
  assert (F1 : ((n / 10) mod 10 = n mod 100 / 10)%nat).
  { rewrite M. rewrite (Nat.mul_comm 10), Nat.div_add by lia. rewrite (Nat.div_small (n mod 10)) by (apply Nat.mod_upper_bound; lia). lia. }
  assert (F2 : (n mod 10 = (n mod 100) mod 10)%nat).
  { rewrite M. rewrite (Nat.mul_comm 10), Nat.mod_add by lia. rewrite Nat.mod_mod by lia. reflexivity. }
  rewrite <- F1, <- F2. reflexivity.
Qed.

Lemma year_pad y r : (1000 <= y -> y < 10 * 1000 -> f_year (dec y ++ r)%string = [(y, r)])%nat.
Proof.
  intros A B. rewrite (dec4 y A B). assert (H1 : (y / 100 < 100)%nat) by (apply Nat.div_lt_upper_bound; lia). assert (H2 : (y mod 100 < 100)%nat) by (apply Nat.mod_upper_bound; lia).
  destruct (div100 _ H1) as [a1 [a2 e1]], (div100 _ H2) as [b1 [b2 e2]]. cbn [pad2 append f_year].
  destruct (digit_props _ a1) as [D1 V1], (digit_props _ a2) as [D2 V2], (digit_props _ b1) as [D3 V3], (digit_props _ b2) as [D4 V4]. rewrite D1, D2, D3, D4, V1, V2, V3, V4. cbn [andb].
  pose proof (Nat.div_mod y 100 ltac:(lia)). do 2 f_equal. lia.
Qed.
Lemma after_lit sep f s : after sep f (sep ++ s)%string = f s.
Proof. unfold after. replace (strip_prefix sep (sep ++ s)%string) with (Some s); [reflexivity|]. induction sep as [|c sep IH]; [reflexivity|]. cbn. rewrite Ascii.eqb_refl. exact IH. Qed.
Definition reads (l : list field) (s : string) (w : list nat) (q : string) : Prop := exists k, fields l s = (w, q) :: k.
Lemma reads_cons f l s v r rest w q : f s = (v, r) :: rest -> reads l r w q -> reads (f :: l) s (v :: w) q.
Proof. intros E [k F]. unfold reads. cbn [fields]. rewrite E. cbn [flat_map fst snd]. rewrite F. cbn [map fst snd app]. eexists. reflexivity. Qed.
Lemma padded_field lo hi k n r : (n < 100 -> lo <= n <= hi -> exists rest, two lo hi (pad2 n ++ r)%string ++ one k (pad2 n ++ r)%string = (n, r) :: rest)%nat.
Proof. intros A B. rewrite two_pad2 by assumption. eexists. reflexivity. Qed.
(** Years of four digits, as all times of today. *)
Definition common (t : moment) : Prop := valid t = true /\ (1000 <= yr t)%nat.
Definition to_second (t : moment) : moment := mkMoment (yr t) (mo t) (dy t) (hr t) (mi t) (se t) 0%Z.
Lemma days_in_le y m : (days_in y m <= 31)%nat.
Proof. unfold days_in. destruct (leap y); do 12 (destruct m as [|m]; [cbn; lia|]); lia. Qed.
Lemma bounds t : valid t = true -> (mo t <= 12 /\ 1 <= mo t /\ dy t <= 31 /\ 1 <= dy t /\ hr t <= 23 /\ mi t <= 59 /\ se t <= 59 /\ yr t < 10 * 1000)%nat.
Proof. rewrite valid_iff. intros H. pose proof (days_in_le (yr t) (mo t)). lia. Qed.
Lemma to_second_valid t : valid t = true -> valid (to_second t) = true.
Proof. rewrite !valid_iff. cbn [yr mo dy hr mi se us to_second]. intros H. lia. Qed.

(** A time written and read again with the same separator is the same to the second. *)
Theorem C113_round_trip t sep : common t -> date_from_str (datetime_str_format t sep) sep = Ok (to_second t).
Proof.
  intros [V Y]. pose proof (bounds t V) as B. unfold date_from_str.
  assert (R : reads [f_year; after "-" f_month; after "-" f_day; after "T" f_hour; after sep f_minute; after sep f_second] (datetime_str_format t sep) [yr t; mo t; dy t; hr t; mi t; se t] "").
  { unfold datetime_str_format. eapply reads_cons; [apply year_pad; lia|].
    destruct (padded_field 1 12 1 (mo t) ("-" ++ pad2 (dy t) ++ "T" ++ pad2 (hr t) ++ sep ++ pad2 (mi t) ++ sep ++ pad2 (se t)) ltac:(lia) ltac:(lia)) as [k1 E1].
    eapply reads_cons; [rewrite after_lit; exact E1|].
    eapply reads_cons; [rewrite after_lit; unfold f_day; rewrite two_pad2 by lia; reflexivity|].
    destruct (padded_field 0 23 0 (hr t) (sep ++ pad2 (mi t) ++ sep ++ pad2 (se t)) ltac:(lia) ltac:(lia)) as [k3 E3].
    eapply reads_cons; [rewrite after_lit; exact E3|].
    destruct (padded_field 0 59 0 (mi t) (sep ++ pad2 (se t)) ltac:(lia) ltac:(lia)) as [k4 E4].
    eapply reads_cons; [rewrite after_lit; exact E4|].
    destruct (padded_field 0 61 0 (se t) "" ltac:(lia) ltac:(lia)) as [k5 E5].
    eapply reads_cons; [rewrite after_lit; rewrite sapp_nil_r in E5; exact E5|]. eexists. reflexivity. }
  destruct R as [k ->]. change (mkMoment (yr t) (mo t) (dy t) (hr t) (mi t) (se t) 0%Z) with (to_second t). rewrite (to_second_valid t V). reflexivity.
Qed.
(** Different times, to the second, have different texts. *)
Theorem C113_injective a b sep : common a -> common b -> datetime_str_format a sep = datetime_str_format b sep -> to_second a = to_second b.
Proof. intros A B E. pose proof (C113_round_trip a sep A) as RA. rewrite E, (C113_round_trip b sep B) in RA. congruence. Qed.
(** What can be read is a time without microseconds, and nothing else is an error than
    ValueError. *)
Theorem C113_read s sep : match date_from_str s sep with Ok t => valid t = true /\ us t = 0%Z | Err e => e = EValueError end.
Proof.
  unfold date_from_str. destruct (fields _ s) as [|[w q] k]; [reflexivity|]. destruct w as [|y [|m [|d [|h [|i [|x [|z w]]]]]]]; try reflexivity. destruct q; [|reflexivity].
  destruct (valid (mkMoment y m d h i x 0%Z)) eqn:V; [split; [exact V|reflexivity]|reflexivity].
Qed.

(** The order of the texts is the order in time. *)
Lemma digit_cmp a b : (a < 10 -> b < 10 -> Ascii.compare (digit a) (digit b) = Nat.compare a b)%nat.
Proof. intros A B. do 10 (destruct a as [|a]; [do 10 (destruct b as [|b]; [reflexivity|]); lia|]). lia. Qed.
Lemma split_cmp n a b : (0 < n)%nat -> Nat.compare a b = match Nat.compare (a / n) (b / n) with Eq => Nat.compare (a mod n) (b mod n) | c => c end.
Proof.
  intros P. assert (N : n <> 0%nat) by lia. pose proof (Nat.div_mod a n N). pose proof (Nat.mod_upper_bound a n N). pose proof (Nat.div_mod b n N). pose proof (Nat.mod_upper_bound b n N).
  destruct (Nat.compare_spec (a / n) (b / n)) as [E|L|L].
  - destruct (Nat.compare_spec (a mod n) (b mod n)); [apply Nat.compare_eq_iff|apply Nat.compare_lt_iff|apply Nat.compare_gt_iff]; nia.
  - apply Nat.compare_lt_iff. nia.
  - apply Nat.compare_gt_iff. nia.
Qed.
Lemma cmp_pad2 a b x y : (a < 100)%nat -> (b < 100)%nat -> String.compare (pad2 a ++ x) (pad2 b ++ y) = match Nat.compare a b with Eq => String.compare x y | c => c end.
Proof.
  intros A B. destruct (div100 a A) as [a1 [a2 _]], (div100 b B) as [b1 [b2 _]]. rewrite (split_cmp 10 a b) by lia. cbn [pad2 append String.compare]. rewrite !digit_cmp by assumption.
  destruct (Nat.compare (a / 10) (b / 10)); [|reflexivity|reflexivity]. destruct (Nat.compare (a mod 10) (b mod 10)); reflexivity.
Qed.
Lemma cmp_same s x y : String.compare (s ++ x) (s ++ y) = String.compare x y.
Proof. induction s as [|c s IH]; [reflexivity|]. cbn [append String.compare]. unfold Ascii.compare. rewrite N.compare_refl. exact IH. Qed.
Theorem C113_order a b sep : common a -> common b -> String.compare (datetime_str_format a sep) (datetime_str_format b sep) = Z.compare (micros a / 1000000) (micros b / 1000000).
Proof.
  intros [Va Ya] [Vb Yb]. rewrite (micros_secs a Va), (micros_secs b Vb), <- (lex_secs a b Va Vb). pose proof (bounds a Va) as Ba. pose proof (bounds b Vb) as Bb.
  unfold datetime_str_format. rewrite !dec4 by lia. rewrite !sapp_assoc.
  assert (H1 : forall t, valid t = true -> (yr t / 100 < 100)%nat) by (intros t Vt; pose proof (bounds t Vt); apply Nat.div_lt_upper_bound; lia).
  rewrite (cmp_pad2 _ _ _ _ (H1 a Va) (H1 b Vb)). rewrite (cmp_pad2 (yr a mod 100)) by (apply Nat.mod_upper_bound; lia). rewrite cmp_same.
  rewrite (cmp_pad2 (mo a)) by lia. rewrite cmp_same. rewrite (cmp_pad2 (dy a)) by lia. rewrite cmp_same. rewrite (cmp_pad2 (hr a)) by lia. rewrite cmp_same. rewrite (cmp_pad2 (mi a)) by lia. rewrite cmp_same.
  rewrite <- (sapp_nil_r (pad2 (se a))), <- (sapp_nil_r (pad2 (se b))). rewrite (cmp_pad2 (se a)) by lia. unfold parts. cbn [lex]. rewrite (split_cmp 100 (yr a)) by lia.
  destruct (Nat.compare (yr a / 100) (yr b / 100)); reflexivity.
Qed.

(** With another separator the text is refused. *)
Definition starts_other (sep sep' : string) : Prop := exists c r c' r', sep = String c r /\ sep' = String c' r' /\ c <> c' /\ is_digit c' = false.
Lemma skip_field lo hi k n r c sep g l (f := fun s => two lo hi s ++ one k s) : (n < 100)%nat -> (lo <= n <= hi)%nat -> is_digit c = false ->
  fields (f :: after (String c sep) g :: l) (pad2 n ++ r)%string = map (fun wr => (n :: fst wr, snd wr)) (fields (after (String c sep) g :: l) r).
Proof.
  intros A B D. unfold f. cbn [fields]. rewrite two_pad2 by assumption. cbn [app flat_map fst snd].
  destruct (div100 n A) as [a1 [a2 _]]. destruct (digit_props _ a1) as [D1 V1], (digit_props _ a2) as [D2 V2]. cbn [pad2 append one].
  destruct (is_digit (digit (n / 10)) && (k <=? digit_val (digit (n / 10)))%nat); cbn [flat_map snd fst]; [|apply app_nil_r].
  unfold after at 2. cbn [strip_prefix]. destruct (Ascii.eqb_spec c (digit (n mod 10))) as [E|_]; [congruence|]. cbn [flat_map map app]. rewrite !app_nil_r. reflexivity.
Qed.
Lemma no_fields sep f l s : strip_prefix sep s = None -> fields (after sep f :: l) s = [].
Proof. intros H. cbn [fields]. unfold after. rewrite H. reflexivity. Qed.
Theorem C113_other_separator t sep sep' : common t -> starts_other sep sep' -> date_from_str (datetime_str_format t sep) sep' = Err EValueError.
Proof.
  intros [V Y] (c & r & c' & r' & -> & -> & N & D). pose proof (bounds t V) as B. unfold date_from_str.
  match goal with |- context [fields ?l ?s] => assert (E : fields l s = []); [|rewrite E; reflexivity] end.
  unfold datetime_str_format.
  set (tail := (String c r ++ pad2 (mi t) ++ String c r ++ pad2 (se t))%string).
  assert (T : fields [after (String c' r') f_minute; after (String c' r') f_second] tail = []).
  { apply no_fields. unfold tail. cbn [append strip_prefix]. destruct (Ascii.eqb_spec c' c); [congruence|reflexivity]. }
  assert (H : fields [after "T" f_hour; after (String c' r') f_minute; after (String c' r') f_second] ("T" ++ pad2 (hr t) ++ tail) = []).
  { cbn [fields]. rewrite after_lit. change (fields [f_hour; after (String c' r') f_minute; after (String c' r') f_second] (pad2 (hr t) ++ tail)%string = []).
    unfold f_hour. rewrite skip_field by (lia || exact D). rewrite T. reflexivity. }
  set (rest := ("T" ++ pad2 (hr t) ++ tail)%string) in *.
  assert (Dd : fields [after "-" f_day; after "T" f_hour; after (String c' r') f_minute; after (String c' r') f_second] ("-" ++ pad2 (dy t) ++ rest) = []).
  { change (fields [f_day; after "T" f_hour; after (String c' r') f_minute; after (String c' r') f_second] (pad2 (dy t) ++ rest)%string = []).
    assert (X : f_day (pad2 (dy t) ++ rest)%string = two 1 31 (pad2 (dy t) ++ rest)%string ++ one 1 (pad2 (dy t) ++ rest)%string).
    { unfold f_day. f_equal. cbn [pad2 append]. assert (Nb : digit (dy t / 10) <> " "%char) by (destruct (div100 (dy t) ltac:(lia)) as [a1 _]; destruct (digit_props _ a1) as [D1 _]; intros Eb; rewrite Eb in D1; discriminate).
      destruct (digit (dy t / 10)) as [b0 b1 b2 b3 b4 b5 b6 b7]. destruct b0, b1, b2, b3, b4, b5, b6, b7; try apply app_nil_r. congruence. }
    pose proof (skip_field 1 31 1 (dy t) rest "T" "" f_hour [after (String c' r') f_minute; after (String c' r') f_second] ltac:(lia) ltac:(lia) eq_refl) as S1.
    cbn [fields] in S1 |- *. rewrite X. rewrite S1. cbn [fields] in H. rewrite H. reflexivity. }
  set (rest2 := ("-" ++ pad2 (dy t) ++ rest)%string) in *.
  assert (M : fields [after "-" f_month; after "-" f_day; after "T" f_hour; after (String c' r') f_minute; after (String c' r') f_second] ("-" ++ pad2 (mo t) ++ rest2) = []).
  { change (fields [f_month; after "-" f_day; after "T" f_hour; after (String c' r') f_minute; after (String c' r') f_second] (pad2 (mo t) ++ rest2)%string = []).
    unfold f_month. rewrite skip_field by (lia || reflexivity). rewrite Dd. reflexivity. }
  cbn [fields] in M |- *. rewrite year_pad by lia. cbn [flat_map fst snd]. rewrite M. reflexivity.
Qed.

(** Hours, minutes, seconds and milliseconds of a time in seconds add up to it, to
    half a thousandth of a millisecond; halves go to the even number. *)
Lemma round_even_close q : (inject_Z (round_even q) - q <= 1 # 2 /\ q - inject_Z (round_even q) <= 1 # 2)%Q.
Proof.
  unfold round_even. pose proof (Qfloor_le q) as L. pose proof (Qlt_floor q) as U. rewrite inject_Z_plus in U. change (inject_Z 1) with 1%Q in U.
  destruct (Qcompare_spec (q - inject_Z (Qfloor q)) (1 # 2)) as [E|E|E]; [destruct (Z.even (Qfloor q))| |]; rewrite ?inject_Z_plus; change (inject_Z 1) with 1%Q; split; lra.
Qed.
Lemma round_even_tie q : (inject_Z (round_even q) - q == 1 # 2 \/ q - inject_Z (round_even q) == 1 # 2)%Q -> Z.even (round_even q) = true.
Proof.
  unfold round_even. pose proof (Qfloor_le q) as L. pose proof (Qlt_floor q) as U. rewrite inject_Z_plus in U. change (inject_Z 1) with 1%Q in U.
  destruct (Qcompare_spec (q - inject_Z (Qfloor q)) (1 # 2)) as [E|E|E].
  - intros _. destruct (Z.even (Qfloor q)) eqn:V; [exact V|]. rewrite Z.even_add, V. reflexivity.
  - intros [H|H]; lra.
  - rewrite inject_Z_plus. change (inject_Z 1) with 1%Q. intros [H|H]; lra.
Qed.
Lemma trunc_close q : ((0 <= q -> 0 <= q - inject_Z (trunc q)) /\ (q <= 0 -> q - inject_Z (trunc q) <= 0) /\ q - inject_Z (trunc q) < 1 /\ -1 < q - inject_Z (trunc q))%Q.
Proof.
  destruct q as [n d]. unfold trunc. cbn [Qnum Qden]. pose proof (Z.quot_rem' n (Zpos d)) as E. set (k := Z.quot n (Zpos d)) in *. set (r := Z.rem n (Zpos d)) in *.
  assert (X : ((n # d) - inject_Z k == r # d)%Q) by (unfold Qeq, Qminus, Qplus, Qopp, inject_Z; cbn; nia).
  rewrite X. unfold Qle, Qlt. cbn. rewrite !Z.mul_1_r.
  repeat split.
  - intros H. unfold r. apply Z.rem_nonneg; lia.
  - intros H. unfold r. apply Z.rem_nonpos; lia.
  - pose proof (Z.rem_bound_abs n (Zpos d) ltac:(lia)). lia.
  - pose proof (Z.rem_bound_abs n (Zpos d) ltac:(lia)). lia.
Qed.
Theorem C113_time dt : let '(h, m, s, u) := time_format dt in
  (0 <= m < 60)%Z /\ (0 <= s < 60)%Z /\
  (let total := inject_Z (3600 * h + 60 * m + s) + inject_Z u * (1 # 1000000) in total - dt <= 1 # 2000000 /\ dt - total <= 1 # 2000000 /\
    (total - dt == 1 # 2000000 \/ dt - total == 1 # 2000000 -> Z.even u = true))%Q /\
  ((0 <= dt)%Q -> (0 <= h)%Z /\ (0 <= u <= 1000000)%Z).
Proof.
  unfold time_format. destruct (trunc_close dt) as [P [Ng [U L]]]. set (n := trunc dt) in *. set (x := (inject_Z 1000 * (inject_Z 1000 * (dt - inject_Z n)))%Q).
  pose proof (round_even_close x) as [R1 R2]. assert (Ex : (x == 1000000 * (dt - inject_Z n))%Q) by (unfold x; change (inject_Z 1000) with 1000%Q; ring).
  pose proof (Z.mod_pos_bound n 3600 ltac:(lia)) as B1. pose proof (Z.mod_pos_bound (n mod 3600) 60 ltac:(lia)) as B2. pose proof (Z.div_mod n 3600 ltac:(lia)) as E1. pose proof (Z.div_mod (n mod 3600) 60 ltac:(lia)) as E2.
  split; [|split; [lia|split]].
  - split; [apply Z.div_pos; lia|apply Z.div_lt_upper_bound; lia].
  - cbv zeta. replace (3600 * (n / 3600) + 60 * (n mod 3600 / 60) + (n mod 3600) mod 60)%Z with n by lia. split; [lra|split; [lra|]]. intros T. apply round_even_tie. destruct T; [left|right]; lra.
  - intros H. specialize (P H). split.
    + apply Z.div_pos; [|lia]. unfold n, trunc. unfold Qle in H. cbn in H. apply Z.quot_pos; lia.
    + split.
      * assert (X : (-1 < inject_Z (round_even x))%Q) by lra. change (-1)%Q with (inject_Z (-1)) in X. rewrite <- Zlt_Qlt in X. lia.
      * assert (X : (inject_Z (round_even x) < 1000001)%Q) by lra. change 1000001%Q with (inject_Z 1000001) in X. rewrite <- Zlt_Qlt in X. lia.
Qed.
(** The milliseconds can be a full second. *)
Theorem C113_time_full_second_refuted : exists dt, (0 <= dt)%Q /\ time_format dt = (0, 0, 0, 1000000)%Z.
Proof. exists (9999999 # 10000000)%Q. split; [unfold Qle; cbn; lia|reflexivity]. Qed.
(** Exactly when the time is less than half a thousandth of a millisecond before a
    full second, or half of it. *)
Theorem C113_time_full_second dt : (0 <= dt)%Q -> (snd (time_format dt) = 1000000%Z <-> (inject_Z (trunc dt) + 1 - dt <= 1 # 2000000)%Q).
Proof.
  intros H. unfold time_format. cbn [snd]. destruct (trunc_close dt) as [P [_ [U _]]]. specialize (P H). set (n := trunc dt) in *. set (x := (inject_Z 1000 * (inject_Z 1000 * (dt - inject_Z n)))%Q).
  assert (Ex : (x == 1000000 * (dt - inject_Z n))%Q) by (unfold x; change (inject_Z 1000) with 1000%Q; ring).
  pose proof (round_even_close x) as [R1 R2]. split.
  - intros E. rewrite E in R1, R2. change (inject_Z 1000000) with 1000000%Q in *. lra.
  - intros G. assert (Lx : (999999 + (1 # 2) <= x)%Q) by lra. assert (Ux : (x < 1000000)%Q) by lra.
    assert (F : Qfloor x = 999999%Z).
    { pose proof (Qfloor_le x) as A. pose proof (Qlt_floor x) as B. assert (C1 : (inject_Z (Qfloor x) < inject_Z 1000000)%Q) by (change (inject_Z 1000000) with 1000000%Q; lra).
      assert (C2 : (inject_Z 999999 < inject_Z (Qfloor x + 1))%Q) by (change (inject_Z 999999) with 999999%Q; lra). rewrite <- Zlt_Qlt in C1, C2. lia. }
    unfold round_even. rewrite F. change (inject_Z 999999) with 999999%Q. destruct (Qcompare_spec (x - 999999) (1 # 2)) as [E|E|E]; [reflexivity|lra|reflexivity].
Qed.

(** Different durations in whole seconds have different texts. *)
Lemma dec_cut n m c r c' r' : is_digit c = false -> is_digit c' = false -> (dec n ++ String c r)%string = (dec m ++ String c' r')%string -> n = m /\ String c r = String c' r'.
Proof.
  intros A A' E. pose proof (span_app is_digit (dec n) (String c r) (dec_digits n) A) as S1. pose proof (span_app is_digit (dec m) (String c' r') (dec_digits m) A') as S2.
  rewrite E, S2 in S1. injection S1 as E1 E2. split; [rewrite <- (dec_number n), <- (dec_number m), E1; reflexivity|congruence].
Qed.
Theorem C113_duration_text n m : (0 <= n)%Z -> (0 <= m)%Z -> string_time_format n = string_time_format m -> n = m.
Proof.
  unfold string_time_format. intros Pn Pm E. apply dec_cut in E; [|reflexivity|reflexivity]. destruct E as [E1 E]. cbn [append] in E. injection E as E. apply dec_cut in E; [|reflexivity|reflexivity]. destruct E as [E2 E].
  cbn [append] in E. injection E as E. apply dec_cut in E; [|reflexivity|reflexivity]. destruct E as [E3 _].
  assert (Q : forall k, (0 <= k)%Z -> (0 <= k / 3600 /\ 0 <= k mod 3600 /\ 0 <= k mod 3600 / 60 /\ 0 <= (k mod 3600) mod 60 /\ k = 3600 * (k / 3600) + (60 * (k mod 3600 / 60) + (k mod 3600) mod 60))%Z).
  { intros k H. pose proof (Z.mod_pos_bound k 3600 ltac:(lia)). pose proof (Z.mod_pos_bound (k mod 3600) 60 ltac:(lia)). pose proof (Z.div_mod k 3600 ltac:(lia)). pose proof (Z.div_mod (k mod 3600) 60 ltac:(lia)).
    repeat split; try lia; apply Z.div_pos; lia. }
  destruct (Q n Pn) as (A1 & _ & A2 & A3 & A), (Q m Pm) as (B1 & _ & B2 & B3 & B). apply Z2Nat.inj in E1; [|assumption..]. apply Z2Nat.inj in E2; [|assumption..]. apply Z2Nat.inj in E3; [|assumption..]. lia.
Qed.
(** The metadata of a run that ended: the times can be read back, everything else is
    kept, and the duration is right if it is less than a day. *)
Definition length_of (a b : moment) : Z := (micros b - micros a)%Z.
Definition a_day : Z := (86400 * 1000000)%Z.
Lemma got (meta : dict string string) e k : NoDup (dkeys meta) -> dget String.eqb (dupdate String.eqb meta e) k = match dget String.eqb (rev e) k with Some v => Some v | None => dget String.eqb meta k end.
Proof.
  intros _. unfold dupdate. revert meta. induction e as [|[x v] e IH]; intros meta; [reflexivity|]. cbn [fold_left fst snd rev]. rewrite IH.
  assert (A : forall l : dict string string, dget String.eqb (l ++ [(x, v)]) k = match dget String.eqb l k with Some w => Some w | None => if String.eqb x k then Some v else None end).
  { induction l as [|[y w] l IHl]; [reflexivity|]. cbn [app dget]. destruct (String.eqb y k); [reflexivity|exact IHl]. }
  rewrite A. destruct (dget String.eqb (rev e) k); [reflexivity|]. destruct (String.eqb_spec x k) as [->|N]; [apply (dget_dset_same _ String.eqb_spec)|apply (dget_dset_other _ String.eqb_spec); exact N].
Qed.
Theorem C113_metadata meta a b k : NoDup (dkeys meta) -> common a -> common b ->
  (exists s, dget String.eqb (add_timing meta a (Some b)) "start_time" = Some s /\ date_from_str s ":" = Ok (to_second a)) /\
  (exists s, dget String.eqb (add_timing meta a (Some b)) "end_time" = Some s /\ date_from_str s ":" = Ok (to_second b)) /\
  ((0 <= length_of a b < a_day)%Z -> dget String.eqb (add_timing meta a (Some b)) "duration" = Some (string_time_format (length_of a b / 1000000))) /\
  (~ In k ["start_time"; "end_time"; "duration"] -> dget String.eqb (add_timing meta a (Some b)) k = dget String.eqb meta k) /\
  add_timing meta a None = meta.
Proof.
  intros ND A B. unfold add_timing. rewrite !got by exact ND. cbn [rev app dget]. rewrite !String.eqb_refl. split; [|split; [|split; [|split]]].
  - cbn [String.eqb Ascii.eqb Bool.eqb]. eexists. split; [reflexivity|apply C113_round_trip; exact A].
  - cbn [String.eqb Ascii.eqb Bool.eqb]. eexists. split; [reflexivity|apply C113_round_trip; exact B].
  - intros H. unfold seconds_attr. fold (length_of a b). rewrite (Z.mod_small (length_of a b / 1000000)); [reflexivity|]. split; [apply Z.div_pos; lia|apply Z.div_lt_upper_bound; unfold a_day in H; lia].
  - intros N. destruct (String.eqb_spec "duration" k); [destruct N; cbn; auto|]. destruct (String.eqb_spec "end_time" k); [destruct N; cbn; auto|]. destruct (String.eqb_spec "start_time" k); [destruct N; cbn; auto|]. reflexivity.
  - reflexivity.
Qed.
(** A run of a day or longer never has its duration in the metadata. *)
Theorem C113_duration_refuted meta a b : NoDup (dkeys meta) -> (a_day <= length_of a b)%Z ->
  exists n, dget String.eqb (add_timing meta a (Some b)) "duration" = Some (string_time_format n) /\ string_time_format n <> string_time_format (length_of a b / 1000000).
Proof.
  intros ND H. exists (seconds_attr a b). unfold add_timing. rewrite got by exact ND. cbn [rev app dget]. rewrite !String.eqb_refl. split; [reflexivity|]. intros E. unfold seconds_attr in E. fold (length_of a b) in E.
  assert (L : (86400 <= length_of a b / 1000000)%Z) by (apply Z.div_le_lower_bound; unfold a_day in H; lia).
  pose proof (Z.mod_pos_bound (length_of a b / 1000000) 86400 ltac:(lia)). apply C113_duration_text in E; lia.
Qed.
(** Truth values: true and false in any mixture of cases, nothing else. *)
Definition same_letter (a b : ascii) : Prop := a = b \/ (is_upper a = true /\ nat_of_ascii b = nat_of_ascii a + 32)%nat.
Fixpoint same_letters (s t : string) : Prop :=
  match s, t with EmptyString, EmptyString => True | String a s, String b t => same_letter a b /\ same_letters s t | _, _ => False end.
Lemma lower_iff s t : (forall c, In c (list_ascii_of_string t) -> is_lower c = true) -> (lower s = t <-> same_letters s t).
Proof.
  revert t. induction s as [|a s IH]; intros [|b t] H; cbn [lower same_letters]; try (split; [discriminate|tauto]); [tauto|].
  assert (Hb : is_lower b = true) by (apply H; left; reflexivity). rewrite <- (IH t) by (intros c Hc; apply H; right; exact Hc).
  unfold same_letter, lower_char. destruct (is_upper a) eqn:U.
  - assert (R : nat_of_ascii (ascii_of_nat (nat_of_ascii a + 32)) = (nat_of_ascii a + 32)%nat) by (apply nat_ascii_embedding; unfold is_upper in U; apply andb_true_iff in U; rewrite !Nat.leb_le in U; lia).
    split.
    + intros [= E1 E2]. split; [right; split; [reflexivity|rewrite <- E1; exact R]|exact E2].
    + intros [[E|[_ E]] E2]; [exfalso; subst b; unfold is_upper in U; unfold is_lower in Hb; apply andb_true_iff in U, Hb; rewrite !Nat.leb_le in U, Hb; lia|]. rewrite E2. f_equal. rewrite <- E. apply ascii_nat_embedding.
  - split; [intros [= E1 E2]; auto|intros [[E|[E _]] E2]; [congruence|discriminate]].
Qed.
Theorem C113_bool s b : str_to_bool s = Ok b <-> same_letters s (if b then "true" else "false").
Proof.
  assert (T : forall t, In t ["true"; "false"] -> forall c, In c (list_ascii_of_string t) -> is_lower c = true).
  { intros t [<-|[<-|[]]] c H; cbn in H; repeat (destruct H as [<-|H]; [reflexivity|]); destruct H. }
  rewrite <- lower_iff by (apply T; destruct b; cbn; auto). unfold str_to_bool. destruct (String.eqb_spec (lower s) "true") as [->|N1]; [destruct b; split; congruence|].
  destruct (String.eqb_spec (lower s) "false") as [->|N2]; [destruct b; split; congruence|]. destruct b; split; congruence.
Qed.
Theorem C113_bool_error s : (forall b, str_to_bool s <> Ok b) -> str_to_bool s = Err EValueError.
Proof. unfold str_to_bool. intros H. destruct (String.eqb _ _); [destruct (H true eq_refl)|]. destruct (String.eqb _ _); [destruct (H false eq_refl)|reflexivity]. Qed.

Definition t1 := mkMoment 2021 3 28 23 5 59 123456%Z.
Definition t2 := mkMoment 2021 3 30 23 6 1 0%Z.
Example C113_instance : common t1 /\ common t2 /\ starts_other ":" "-" /\ datetime_str_format t1 "-" = "2021-03-28T23-05-59" /\
  date_from_str "2021-03-28T23-05-59" "-" = Ok (to_second t1) /\ date_from_str "2021-3-8T1:5:9" ":" = Ok (mkMoment 2021 3 8 1 5 9 0%Z) /\ date_from_str "2021-02-30T00:00:00" ":" = Err EValueError /\
  (a_day <= length_of t1 t2)%Z /\ dget String.eqb (add_timing [("a", "b")] t1 (Some t2)) "duration" = Some "0h 0m 1s 0ms" /\
  time_format (7325 + (1 # 4))%Q = (2, 2, 5, 250000)%Z /\ str_to_bool "tRUE" = Ok true /\ str_to_bool "yes" = Err EValueError.
Proof.
  split; [split; [reflexivity|cbn; lia]|]. split; [split; [reflexivity|cbn; lia]|]. split; [exists ":"%char, "", "-"%char, ""; repeat split; discriminate|].
  repeat match goal with |- _ /\ _ => split end; try (vm_compute; reflexivity). vm_compute. discriminate.
Qed.

Print Assumptions C113_round_trip.
Print Assumptions C113_injective.
Print Assumptions C113_read.
Print Assumptions C113_order.
Print Assumptions C113_other_separator.
Print Assumptions C113_time.
Print Assumptions C113_time_full_second_refuted.
Print Assumptions C113_time_full_second.
Print Assumptions C113_duration_text.
Print Assumptions C113_metadata.
Print Assumptions C113_duration_refuted.
Print Assumptions C113_bool.
Print Assumptions C113_bool_error.
