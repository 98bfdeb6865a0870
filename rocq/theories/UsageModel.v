(** Model of the table of resources used by the Fisher jobs of a batch run:
    seyfert/main/bsub_utils.py:185-226 and how it is called,
    seyfert/main/task_runners.py:348-353.

    A regular expression is a function from a text to the groups it matches at its
    start; search tries every position from the left.  All the expressions in use
    have at most one way to match at a position, except the one of the names, whose
    group takes the longest text.  Texts are ASCII, names have no line break.  Figures
    are exact rationals (floats in Python).  strptime is modelled as in TimeModel with
    the English names of months; the format's blanks are matched by the single blanks
    of the text given.  Files are in the order in which the file system lists them;
    the table is its rows, its file their texts. *)
From Coq Require Import QArith.
From Verif Require Import Base StrLib NameModel TimeModel BatchModel ReportModel.
Close Scope Q_scope.
Open Scope string_scope.
Open Scope list_scope.

Section Search.
  Context {A : Type} (f : string -> option A).
  (** re.search. *)
  Fixpoint search (s : string) : option A :=
    match f s with Some x => Some x | None => match s with EmptyString => None | String _ r => search r end end.
End Search.
(** match.groups() of no match is an AttributeError. *)
Definition groups {A} (o : option A) : res A := match o with Some x => Ok x | None => Err EAttributeError end.

(** 186 outname_regex.match(stem): the longest text before _2020 or _2021. *)
Definition year_mark (s : string) : bool := match strip_any ["_2020"; "_2021"] s with Some _ => true | None => false end.
Fixpoint longest (s : string) : option string :=
  match s with
  | EmptyString => None
  | String a r => match longest r with Some x => Some (String a x) | None => if year_mark s then Some "" else None end
  end.
Definition out_name (stem : string) : option string := match strip_prefix "out_" stem with Some r => longest r | None => None end.

(** 187-193: label\s*:\s+([0-9\.]+) at the start of a text. *)
Definition is_num (a : ascii) : bool := is_digit a || Ascii.eqb a ".".
Definition figure_at (label s : string) : option string :=
  match strip_prefix label s with
  | None => None
  | Some r =>
      let (_, r) := span is_white r in
      match r with
      | String ":" r =>
          let (w, r) := span is_white r in
          let (v, _) := span is_num r in
          if nonempty w && nonempty v then Some v else None
      | _ => None
      end
  end.
Fixpoint znum (n : Z) (s : string) : Z := match s with EmptyString => n | String a r => znum (10 * n + Z.of_nat (digit_val a))%Z r end.
(** float() of digits and points. *)
Definition to_float (s : string) : res Q :=
  match split_char "." s with
  | [a] => Ok (inject_Z (znum 0 a))
  | [a; b] => if nonempty a || nonempty b then Ok (Qmake (znum 0 (a ++ b)) (Z.to_pos (10 ^ Z.of_nat (String.length b)))) else Err EValueError
  | _ => Err EValueError
  end.
Definition figures : list (string * string) :=
  [("cpu_time_s", "CPU time"); ("max_mem_MB", "Max Memory"); ("avg_mem_MB", "Average Memory");
   ("req_mem_MB", "Total Requested Memory"); ("delta_mem_MB", "Delta Memory")].

(** 220-222: "prefix Weekday Mon day hh:mm:ss year" at the start of a text: month, day,
    time and year. *)
Definition is_letter (a : ascii) : bool := is_upper a || is_lower a.
Definition letters3 (s : string) : option (string * string) :=
  match s with
  | String a (String b (String c r)) => if is_letter a && is_letter b && is_letter c then Some (String a (String b (String c "")), r) else None
  | _ => None
  end.
Definition digits2 (s : string) : option (string * string) :=
  match s with String a (String b r) => if is_digit a && is_digit b then Some (String a (String b ""), r) else None | _ => None end.
Definition obind {A B} (o : option A) (k : A -> option B) : option B := match o with Some x => k x | None => None end.
Definition whites (s : string) : option string := let (w, r) := span is_white s in if nonempty w then Some r else None.
Definition date_at (prefix s : string) : option (string * string * string * string) :=
  obind (strip_prefix (prefix ++ " ")%string s) (fun s =>
  let (wd, s) := span is_letter s in
  if negb (nonempty wd) then None else
  obind (strip_prefix " " s) (fun s =>
  obind (letters3 s) (fun ms => let (month, s) := ms in
  obind (whites s) (fun s =>
  let (day, s) := span is_digit s in
  if negb (nonempty day) then None else
  obind (whites s) (fun s =>
  obind (digits2 s) (fun hs => let (h, s) := hs in
  obind (strip_prefix ":" s) (fun s =>
  obind (digits2 s) (fun ms => let (m, s) := ms in
  obind (strip_prefix ":" s) (fun s =>
  obind (digits2 s) (fun ss => let (se, s) := ss in
  obind (whites s) (fun s =>
  obind (digits2 s) (fun ys => let (y1, s) := ys in
  obind (digits2 s) (fun ys => let (y2, _) := ys in
  Some (month, day, (h ++ ":" ++ m ++ ":" ++ se)%string, (y1 ++ y2)%string)))))))))))))).

(** 226 strptime(f"{year} {month} {day.zfill(2)} {h_m_s}", "%Y %b %d %H:%M:%S"). *)
Definition months : list string := ["jan"; "feb"; "mar"; "apr"; "may"; "jun"; "jul"; "aug"; "sep"; "oct"; "nov"; "dec"].
Fixpoint index_of (x : string) (l : list string) : option nat :=
  match l with [] => None | y :: l => if String.eqb x y then Some 0%nat else option_map S (index_of x l) end.
Definition f_mon : field := fun s =>
  match letters3 s with Some (m, r) => match index_of (lower m) months with Some i => [(S i, r)] | None => [] end | None => [] end.
Definition zfill2 (s : string) : string := match s with String _ "" => String "0" s | EmptyString => "00" | _ => s end.
Definition lsf_date (s : string) : res moment :=
  match fields [f_year; after " " f_mon; after " " f_day; after " " f_hour; after ":" f_minute; after ":" f_second] s with
  | ([y; m; d; h; mi; s], "") :: _ =>
      let t := mkMoment y m d h mi s 0%Z in if valid t then Ok t else Err EValueError
  | _ => Err EValueError
  end.
(** 219-226 extractDateTimeFromOut. *)
Definition extract_date (text prefix : string) : res moment :=
  g <- groups (search (date_at prefix) text) ;;
  let '(month, day, hms, year) := g in lsf_date (year ++ " " ++ month ++ " " ++ zfill2 day ++ " " ++ hms)%string.

(** 195-207: a row; the stem of a file .out differs but matches neither. *)
Record usage := mkUsage { u_fisher : string; u_start : moment; u_end : moment; u_secs : Z; u_figures : list (string * Q); u_text : string }.
Definition stem (n : string) : string := substring 0 (String.length n - 4) n.
Definition usage_row (f : jfile) : res usage :=
  let text := ftext f in
  fisher <- groups (out_name (stem (fname f))) ;;
  start <- extract_date text "Started at" ;;
  end_ <- extract_date text "Results reported on" ;;
  figs <- rmapM (fun kl => v <- groups (search (figure_at (snd kl)) text) ;; x <- to_float v ;; Ok (fst kl, x)) figures ;;
  Ok (mkUsage fisher start end_ (seconds_attr start end_) figs (string_time_format (seconds_attr start end_))).
(** 185-211 getResourceUsageTable: an empty table has no column duration_s. *)
Definition usage_table (dir : list jfile) : res (list usage) :=
  rows <- rmapM usage_row (filter (fun f => fits "" ".out" (fname f)) dir) ;;
  match rows with [] => Err EKeyError | _ => Ok rows end.
(** task_runners.py:348-353: what is in resources_usage.csv; all errors are caught. *)
Definition usage_file (dir : list jfile) : option (list usage) := match usage_table dir with Ok t => Some t | Err _ => None end.
