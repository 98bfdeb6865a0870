(** Model of the program run_seyfert: bin/run_seyfert, its options
    (seyfert/config/cmd_line.py:133-236), seyfert/main/seyfert_core.py:186-250 and
    the command it hands to the batch system, seyfert/main/bsub_utils.py:41-62,
    79-123.

    Paths are the texts of pathlib objects.  Left out: logging, the time between
    two submissions, what do_forecast does (PipeModel, StageModel), the output of
    bsub (C81).  Of argparse: long option names written out, "--name value"; of
    the shell: spaces and double quotes. *)
From Verif Require Import Base SortLib StrLib NameModel FsModel IniModel BatchModel.
Open Scope string_scope.

(** ** Values of options *)
Inductive value := VNone | VFlag (b : bool) | VInt (n : Z) | VText (s : string) | VList (l : list string).
Definition args := dict string value.
Definition ztext (n : Z) : string := if Z.ltb n 0 then "-" ++ dec (Z.abs_nat n) else dec (Z.abs_nat n).
(** f"{value}" (a list is never printed: seyfert_core.py:230 replaces it). *)
Definition value_text (v : value) : string :=
  match v with
  | VNone => "None"
  | VFlag b => if b then "True" else "False"
  | VInt n => ztext n
  | VText s => s
  | VList l => "[" ++ join ", " l ++ "]"
  end.
Definition truthy (v : value) : bool :=
  match v with VNone => false | VFlag b => b | VInt n => negb (Z.eqb n 0) | VText s => nonempty s | VList l => negb (isnil l) end.

(** ** argparse *)
Inductive kind := KText | KInt | KFlag | KList.
Record opt := { o_name : string; o_kind : kind; o_required : bool; o_default : value }.
(** int(text): an optional minus and digits (no spaces, underscores, plus). *)
Definition is_number (s : string) : bool := let (d, r) := span is_digit s in nonempty d && negb (nonempty r).
Definition parse_int (s : string) : option Z :=
  match s with
  | String "-" r => if is_number r then Some (- Z.of_nat (num (chars r)))%Z else None
  | _ => if is_number s then Some (Z.of_nat (num (chars s))) else None
  end.
(** A word is an argument unless it begins with "-"; a negative number and "-"
    are arguments as well. *)
Definition is_argument (w : string) : bool :=
  match w with
  | String "-" r => match r with EmptyString => true | _ => is_number r end
  | _ => true
  end.
(** The words after each option; [None]: words before the first option. *)
Definition group_step (w : string) (acc : list string * list (string * list string)) : list string * list (string * list string) :=
  let (pending, groups) := acc in
  if is_argument w then (w :: pending, groups) else ([], (w, pending) :: groups).
Definition group (ws : list string) : option (list (string * list string)) :=
  match fold_right group_step ([], []) ws with ([], g) => Some g | _ => None end.
(** One option with its words: nargs None, '?' (const True), '+'.  An option that
    gets too few words, or words nobody takes, end the program. *)
Definition take (k : kind) (ws : list string) : option value :=
  match k, ws with
  | KText, [w] => Some (VText w)
  | KInt, [w] => option_map VInt (parse_int w)
  | KFlag, [] => Some (VFlag true)
  | KFlag, [w] => Some (VText w)
  | KList, _ :: _ => Some (VList ws)
  | _, _ => None
  end.
Definition find_opt (os : list opt) (w : string) : option opt := find (fun o => String.eqb ("--" ++ o_name o) w) os.
Fixpoint parse_groups (os : list opt) (gs : list (string * list string)) (d : args) : option args :=
  match gs with
  | [] => Some d
  | (w, ws) :: gs' =>
      match find_opt os w with
      | None => None
      | Some o => match take (o_kind o) ws with None => None | Some v => parse_groups os gs' (sset d (o_name o) v) end
      end
  end.
Definition parse_args (os : list opt) (ws : list string) : option args :=
  match group ws with
  | None => None
  | Some gs =>
      if forallb (fun o => negb (o_required o) || existsb (fun g => String.eqb ("--" ++ o_name o) (fst g)) gs) os
      then parse_groups os gs (map (fun o => (o_name o, o_default o)) os)
      else None
  end.

(** cmd_line.py:133-218 and bin/run_seyfert:20-37, in the order of the parser. *)
Definition run_options (cfg_dir data_dir : string) : list opt :=
  let text n d := {| o_name := n; o_kind := KText; o_required := false; o_default := VText d |} in
  let none n := {| o_name := n; o_kind := KText; o_required := false; o_default := VNone |} in
  let flag n := {| o_name := n; o_kind := KFlag; o_required := false; o_default := VFlag false |} in
  [text "powerspectrum_config" (cfg_dir ++ "/power_spectrum_config.json"); text "angular_config" (cfg_dir ++ "/angular_config.json");
   text "derivative_config" (cfg_dir ++ "/derivative_config.json"); text "fisher_config" (cfg_dir ++ "/fisher_config.json");
   text "results_config" (cfg_dir ++ "/results_config.json");
   none "powerspectrum_dir"; none "angular_dir"; none "derivative_dir"; none "fisher_dir";
   {| o_name := "n_cores_per_job"; o_kind := KInt; o_required := false; o_default := VInt 1 |};
   {| o_name := "memory"; o_kind := KInt; o_required := false; o_default := VInt 2048 |};
   text "queue" "long";
   {| o_name := "execution"; o_kind := KText; o_required := true; o_default := VNone |};
   text "workdir" ".";
   {| o_name := "forecast_config"; o_kind := KList; o_required := true; o_default := VNone |};
   text "input_data_dir" data_dir; flag "test_batch"; flag "is_batch_job"].

(** ** The configurations of a run *)
(** pathlib: the suffix of a name. *)
Definition suffix (f : string) : string :=
  let n := path_name (to_path f) in
  if String.eqb (stem (to_path f)) n then "" else match strip_prefix (stem (to_path f)) n with Some e => e | None => "" end.
(** cmd_line.py:222-234; [lines f] are the lines of a file, [None] if there is none.
    Path("") is the current directory. *)
Definition line_path (l : string) : string := match strip l with EmptyString => "." | s => s end.
Definition get_paths (lines : string -> option (list string)) (fs : list string) : res (list string) :=
  if forallb (fun f => String.eqb (suffix f) ".txt") fs then
    rmap (@concat string) (rmapM (fun f => match lines f with Some ls => Ok (map line_path ls) | None => Err EFileNotFound end) fs)
  else Ok fs.
(** bin/run_seyfert:52-56.  Paths are compared part by part. *)
Definition parts (f : string) : list string := ((if starts "/" f then ["/"] else []) ++ to_path f)%list.
Fixpoint parts_leb (a b : list string) : bool :=
  match a, b with
  | [], _ => true
  | _ :: _, [] => false
  | x :: a', y :: b' => if String.eqb x y then parts_leb a' b' else String.leb x y
  end.
Definition file_bins (f : string) : option nat := search_bins (path_name (to_path f)).
Definition by_bins (a b : string) : bool :=
  (match file_bins a with Some n => n | None => 0 end <=? match file_bins b with Some n => n | None => 0 end)%nat.
Definition order_configs (fs : list string) : list string :=
  if forallb (fun f => match file_bins f with Some _ => true | None => false end) fs then isort by_bins fs
  else isort (fun a b => parts_leb (parts a) (parts b)) fs.

(** ** bsub *)
(** bsub_utils.py:41-46, 61-67. *)
Definition bopts := dict string string.
Definition bsub_default : bopts := [("-P", "c7"); ("-q", "medium"); ("-M", "2048")].
Definition set_options (st : bopts) (queue : string) (cores memory : Z) : bopts :=
  sset (sset (sset st "-q" queue) "-n" (ztext cores)) "-M" (ztext memory).
(** 58-59, 79-93; a missing key raises before. *)
Definition dq : string := cstr """".
Definition bsub_command (st : bopts) (cmd err out : string) : res string :=
  m <- match dget String.eqb st "-M" with Some m => Ok m | None => Err EKeyError end ;;
  let cli := sset (sset st "-e" err) "-o" out in
  Ok ("bsub " ++ join " " (map (fun kx => fst kx ++ " " ++ snd kx) cli) ++ " -R" ++ dq ++ "select[avx && mem>" ++ m ++ "] rusage[mem=" ++ m ++ "]" ++ dq ++ " " ++ cmd).
(** seyfert_core.py:238-250. *)
Definition bsub_memory (memory bins : Z) : Z := if Z.ltb 24 bins && Z.ltb memory 10000 then 10000%Z else memory.

Section Run.
  Variable version : string.
  (** The number of spectroscopic bins and the identifier of a configuration; its
      file may not load. *)
  Variable load : string -> res (Z * string).
  Variable resolve : string -> path.

  (** seyfert_core.py:186-191. *)
  Definition interactive_command (d : args) : string :=
    let d := sset d "execution" (VText "interactive") in
    "run_seyfert " ++ join " " (map (fun kx => "--" ++ fst kx ++ " " ++ value_text (snd kx)) (filter (fun kx => match snd kx with VNone => false | _ => true end) d)).
  Definition run_dir (wd : path) (f now : string) : path :=
    (wd ++ [("run_" ++ stem (to_path f) ++ "_" ++ version ++ "_" ++ now)%string])%list.
  Definition get_text (d : args) (k : string) : res string := match dget String.eqb d k with Some (VText s) => Ok s | Some _ => Err ETypeError | None => Err EKeyError end.
  Definition get_int (d : args) (k : string) : res Z := match dget String.eqb d k with Some (VInt n) => Ok n | Some _ => Err ETypeError | None => Err EKeyError end.
  Definition get_truth (d : args) (k : string) : res bool := match dget String.eqb d k with Some v => Ok (truthy v) | None => Err EKeyError end.

  (** 213-236; [now] and [log_now] are the two times of a submission.  The
      directories of a submission are made first. *)
  Record submission := { s_dir : path; s_text : string; s_test : bool }.
  Definition submit_one (d : args) (f now log_now : string) (st : bopts) : bopts * res submission :=
    match
      wd <- get_text d "workdir" ;;
      bi <- load f ;;
      mem <- get_int d "memory" ;; queue <- get_text d "queue" ;; cores <- get_int d "n_cores_per_job" ;;
      Ok (wd, bi, mem, queue, cores)
    with
    | Err e => (st, Err e)
    | Ok (wd, bi, mem, queue, cores) =>
        let dir := run_dir (resolve wd) f now in
        let st' := set_options st queue cores (bsub_memory mem (fst bi)) in
        let arguments := sset (sset (sset d "forecast_config" (VText f)) "workdir" (VText (path_text dir))) "is_batch_job" (VFlag true) in
        let logs := (dir ++ ["batch_logs"])%list in
        let log k := path_text (logs ++ [k; (k ++ "_" ++ snd bi ++ "_" ++ log_now ++ "." ++ k)%string])%list in
        (st', t <- get_truth d "test_batch" ;;
              c <- bsub_command st' (interactive_command arguments) (log "err") (log "out") ;;
              Ok {| s_dir := dir; s_text := c; s_test := t |})
    end.
  (** 193-211. *)
  Definition forecast_args (d : args) (f now : string) : res args :=
    wd <- get_text d "workdir" ;;
    b <- get_truth d "is_batch_job" ;;
    let dir := if b then resolve wd else run_dir (resolve wd) f now in
    Ok (sset (sset d "forecast_config" (VText f)) "workdir" (VText (path_text dir))).

  (** bin/run_seyfert:40-66.  [now i] is the time at which the i-th configuration is
      reached. *)
  Inductive event := Forecast (d : args) | Submitted (s : submission).
  Variable outcome : event -> res unit.
  Variables now log_now : nat -> string.
  Fixpoint each_interactive (d : args) (i : nat) (fs : list string) : list event * res unit :=
    match fs with
    | [] => ([], Ok tt)
    | f :: r =>
        match forecast_args d f (now i) with
        | Err e => ([], Err e)
        | Ok a => match outcome (Forecast a) with
                  | Err e => ([Forecast a], Err e)
                  | Ok _ => let (l, x) := each_interactive d (S i) r in (Forecast a :: l, x)
                  end
        end
    end.
  Fixpoint each_batch (d : args) (i : nat) (st : bopts) (fs : list string) : list event * res unit :=
    match fs with
    | [] => ([], Ok tt)
    | f :: r =>
        let (st', x) := submit_one d f (now i) (log_now i) st in
        match x with
        | Err e => ([], Err e)
        | Ok s => match (if s_test s then Ok tt else outcome (Submitted s)) with
                  | Err e => ([Submitted s], Err e)
                  | Ok _ => let (l, x) := each_batch d (S i) st' r in (Submitted s :: l, x)
                  end
        end
    end.
  Definition main (lines : string -> option (list string)) (d : args) : list event * res unit :=
    match
      fs <- match dget String.eqb d "forecast_config" with Some (VList fs) => Ok fs | Some _ => Err ETypeError | None => Err EKeyError end ;;
      ps <- get_paths lines fs ;;
      ex <- get_text d "execution" ;;
      Ok (order_configs ps, ex)
    with
    | Err e => ([], Err e)
    | Ok (ps, ex) =>
        if String.eqb ex "interactive" then each_interactive d 0 ps
        else if String.eqb ex "batch" then each_batch d 0 bsub_default ps
        else if String.eqb ex "no" then ([], Ok tt)
        else ([], Err EValueError)
    end.
End Run.

(** ** What becomes of the command *)
(** The words a shell makes of a line. *)
Fixpoint shell (quoted : bool) (cur : option string) (s : string) : list string :=
  let word := match cur with Some w => w | None => "" end in
  match s with
  | EmptyString => match cur with Some w => [w] | None => [] end
  | String a r =>
      if Ascii.eqb a """" then shell (negb quoted) (Some word) r
      else if negb quoted && Ascii.eqb a " " then match cur with Some w => w :: shell false None r | None => shell false None r end
      else shell quoted (Some (word ++ cstr a)) r
  end.
(** bsub takes its options, each with its value, and runs the rest. *)
Fixpoint bsub_job (ws : list string) : list string :=
  match ws with
  | o :: ((v :: r) as r0) =>
      if smem o ["-P"; "-q"; "-M"; "-n"; "-e"; "-o"] then bsub_job r
      else if starts "-R" o then bsub_job r0 else ws
  | _ => ws
  end.
