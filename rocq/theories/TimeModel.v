(** Model of seyfert/utils/formatters.py:5-8, 18-42 and of the two times and the
    duration put into the metadata of a run, seyfert/main/task_runners.py:605-612.

    Seconds are exact rationals (time.time() differences are floats).  strptime is
    modelled for the formats in use: its expressions for the fields are tried in
    their order with backtracking, on ASCII texts; a separator is matched exactly (in
    Python letters match in either case, blanks match blanks, % is special: use no
    such separators).  %Y is written without leading zeros.  Time zones are left
    out.  str_to_float (eval) is left out. *)
From Coq Require Import QArith Qround.
From Verif Require Import Base StrLib NameModel.
Close Scope Q_scope.
Open Scope string_scope.
Open Scope list_scope.

(** 5-8 str_to_bool. *)
Definition lower_char (a : ascii) : ascii := if is_upper a then ascii_of_nat (nat_of_ascii a + 32) else a.
Fixpoint lower (s : string) : string := match s with EmptyString => "" | String a r => String (lower_char a) (lower r) end.
Definition str_to_bool (s : string) : res bool :=
  if String.eqb (lower s) "true" then Ok true else if String.eqb (lower s) "false" then Ok false else Err EValueError.

(** int() and round() to the next integer, halves to the even one. *)
Definition trunc (q : Q) : Z := Z.quot (Qnum q) (Zpos (Qden q)).
Definition round_even (q : Q) : Z :=
  let n := Qfloor q in
  match Qcompare (q - inject_Z n)%Q (1 # 2) with
  | Lt => n
  | Gt => (n + 1)%Z
  | Eq => if Z.even n then n else (n + 1)%Z
  end.
(** 18-28 time_format: hours, minutes, seconds and thousandths of milliseconds. *)
Definition time_format (dt : Q) : Z * Z * Z * Z :=
  let n := trunc dt in
  let '(hours, remainder) := (Z.div n 3600, Z.modulo n 3600) in
  let '(mins, secs) := (Z.div remainder 60, Z.modulo remainder 60) in
  (hours, mins, secs, round_even (inject_Z 1000 * (inject_Z 1000 * (dt - inject_Z n)))%Q).
(** 32-35 string_time_format of a whole, not negative number of seconds. *)
Definition string_time_format (n : Z) : string :=
  (dec (Z.to_nat (n / 3600)) ++ "h " ++ dec (Z.to_nat (n mod 3600 / 60)) ++ "m " ++ dec (Z.to_nat ((n mod 3600) mod 60)) ++ "s 0ms")%string.

(** datetime.datetime. *)
Record moment := mkMoment { yr : nat; mo : nat; dy : nat; hr : nat; mi : nat; se : nat; us : Z }.
Definition leap (y : nat) : bool := ((y mod 4 =? 0) && (negb (y mod 100 =? 0) || (y mod 400 =? 0)))%nat.
Definition days_in (y m : nat) : nat :=
  match m with 2 => if leap y then 29 else 28 | 4 | 6 | 9 | 11 => 30 | _ => 31 end.
Definition valid (t : moment) : bool :=
  ((1 <=? yr t) && (Z.of_nat (yr t) <=? 9999)%Z && (1 <=? mo t) && (mo t <=? 12) && (1 <=? dy t) && (dy t <=? days_in (yr t) (mo t)) &&
   (hr t <=? 23) && (mi t <=? 59) && (se t <=? 59) && (0 <=? us t)%Z && (us t <? 1000000)%Z)%nat.
(** 38-39 datetime_str_format. *)
Definition pad2 (n : nat) : string := String (digit (n / 10)) (String (digit (n mod 10)) "").
Definition datetime_str_format (t : moment) (sep : string) : string :=
  (dec (yr t) ++ "-" ++ pad2 (mo t) ++ "-" ++ pad2 (dy t) ++ "T" ++ pad2 (hr t) ++ sep ++ pad2 (mi t) ++ sep ++ pad2 (se t))%string.

(** The fields of strptime: the values they may have at the start of a text, with
    what is left, in the order in which they are tried. *)
Definition field := string -> list (nat * string).
Definition two (lo hi : nat) : field := fun s =>
  match s with
  | String a (String b r) =>
      let v := (10 * digit_val a + digit_val b)%nat in
      if (is_digit a && is_digit b && (lo <=? v) && (v <=? hi))%nat then [(v, r)] else []
  | _ => []
  end.
Definition one (lo : nat) : field := fun s =>
  match s with String a r => if (is_digit a && (lo <=? digit_val a))%nat then [(digit_val a, r)] else [] | _ => [] end.
Definition f_year : field := fun s =>
  match s with
  | String a (String b (String c (String d r))) =>
      if is_digit a && is_digit b && is_digit c && is_digit d
      then [((1000 * digit_val a + 100 * digit_val b + 10 * digit_val c + digit_val d)%nat, r)] else []
  | _ => []
  end.
Definition f_month : field := fun s => two 1 12 s ++ one 1 s.
Definition f_day : field := fun s => two 1 31 s ++ one 1 s ++ match s with String " " r => one 1 r | _ => [] end.
Definition f_hour : field := fun s => two 0 23 s ++ one 0 s.
Definition f_minute : field := fun s => two 0 59 s ++ one 0 s.
Definition f_second : field := fun s => two 0 61 s ++ one 0 s.
Definition after (sep : string) (f : field) : field := fun s => match strip_prefix sep s with Some r => f r | None => [] end.
Fixpoint fields (l : list field) (s : string) : list (list nat * string) :=
  match l with
  | [] => [([], s)]
  | f :: l => flat_map (fun vr => map (fun wr => (fst vr :: fst wr, snd wr)) (fields l (snd vr))) (f s)
  end.
(** 42-43 date_from_str: the first way to read the start of the text must use all of
    it and be a date. *)
Definition date_from_str (s sep : string) : res moment :=
  match fields [f_year; after "-" f_month; after "-" f_day; after "T" f_hour; after sep f_minute; after sep f_second] s with
  | ([y; m; d; h; mi; s], "") :: _ =>
      let t := mkMoment y m d h mi s 0%Z in if valid t then Ok t else Err EValueError
  | _ => Err EValueError
  end.

(** The time of a moment, in microseconds: datetime.toordinal and the time of day. *)
Definition days_before_month (y m : nat) : nat := list_sum (map (days_in y) (seq 1 (m - 1))).
Definition day_number (t : moment) : nat :=
  let y := (yr t - 1)%nat in (365 * y + y / 4 - y / 100 + y / 400 + days_before_month (yr t) (mo t) + dy t)%nat.
Definition micros (t : moment) : Z :=
  ((((Z.of_nat (day_number t) * 24 + Z.of_nat (hr t)) * 60 + Z.of_nat (mi t)) * 60 + Z.of_nat (se t)) * 1000000 + us t)%Z.
(** (b - a).seconds: the days of the difference are another attribute. *)
Definition seconds_attr (a b : moment) : Z := ((micros b - micros a) / 1000000 mod 86400)%Z.
(** task_runners.py:605-612 addTimingDataToMetadata. *)
Definition add_timing (meta : dict string string) (start : moment) (end_ : option moment) : dict string string :=
  match end_ with
  | None => meta
  | Some e =>
      dupdate String.eqb meta [("start_time", datetime_str_format start ":"); ("end_time", datetime_str_format e ":");
                               ("duration", string_time_format (seconds_attr start e))]
  end.
