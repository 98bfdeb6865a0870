(** Model of job control and of batches of runs:
    seyfert/main/bsub_utils.py:39, 64-75, 126-183,
    seyfert/main/task_runners.py:128-172, 531-577,
    seyfert/main/orchestration.py:66-217, 254-276,
    seyfert/utils/general_utils.py:187-198 (split_run_id).

    Simplifications: texts are ASCII and file names carry no line end; log
    messages are left out. *)
From Verif Require Import Base SortLib StrLib NameModel FsModel IniModel.
Open Scope string_scope.

(** ** Waiting for jobs *)
(** bsub_utils.py:39: ([0-9]+)\s+([a-z]+)\s+([A-Z]+) at the start of a text.
    The character classes of neighbouring parts are disjoint, so the pattern
    leaves no choice. *)
Record jrow := { j_id : string; j_user : string; j_stat : string }.
Definition nonempty (s : string) : bool := match s with EmptyString => false | _ => true end.
Definition match_row (s : string) : option (jrow * string) :=
  let (d, s1) := span is_digit s in
  let (w1, s2) := span is_space s1 in
  let (u, s3) := span is_lower s2 in
  let (w2, s4) := span is_space s3 in
  let (t, s5) := span is_upper s4 in
  if nonempty d && nonempty w1 && nonempty u && nonempty w2 && nonempty t
  then Some ({| j_id := d; j_user := u; j_stat := t |}, s5) else None.
(** bsub_utils.py:64-75, re.findall: from left to right, without overlaps.
    [skip] characters belong to the last match. *)
Fixpoint findall (skip : nat) (s : string) : list jrow :=
  match s with
  | EmptyString => []
  | String _ r =>
      match skip with
      | S k => findall k r
      | 0 => match match_row s with
             | Some (row, rest) => row :: findall (String.length r - String.length rest) r
             | None => findall 0 r
             end
      end
  end.
Definition parse_bjobs (out : string) : list jrow := findall 0 out.

(** bsub_utils.py:144-183.  One element of [obs] per check: the output of bjobs
    and the seconds since the start, after the check.  [None]: still waiting
    after these checks. *)
Fixpoint wait_loop (limit : Z) (obs : list (string * Z)) : option (res unit) :=
  match obs with
  | [] => None
  | (out, elapsed) :: obs' =>
      let stats := map j_stat (parse_bjobs out) in
      if forallb (String.eqb "DONE") stats then Some (Ok tt)
      else if existsb (String.eqb "EXIT") stats then Some (Err EException)
      else if Z.ltb limit elapsed then Some (Ok tt)
      else wait_loop limit obs'
  end.
(** The first log message takes the first and last job. *)
Definition wait_for_jobs (job_ids : list string) (limit : Z) (obs : list (string * Z)) : option (res unit) :=
  match job_ids with
  | [] => Some (Err EIndexError)
  | _ => wait_loop limit obs
  end.

(** bsub_utils.py:38, 126-129: the first "Job <n> is submitted to". *)
Definition match_job (s : string) : option string :=
  match strip_prefix "Job <" s with
  | None => None
  | Some r => let (d, r') := span is_digit r in
              if nonempty d && starts "> is submitted to" r' then Some d else None
  end.
Fixpoint search_job (s : string) : option string :=
  match match_job s with
  | Some d => Some d
  | None => match s with EmptyString => None | String _ r => search_job r end
  end.
(** re.search gives None, whose groups cannot be taken. *)
Definition get_job_id (out : string) : res string :=
  match search_job out with Some d => Ok d | None => Err EAttributeError end.
(** task_runners.py:147-154.  [bsub] is what the submission of a script prints;
    the scripts submitted so far come with the outcome. *)
Fixpoint submit_all (bsub : string -> string) (scripts : list string) : list string * res (list string) :=
  match scripts with
  | [] => ([], Ok [])
  | sc :: l => match get_job_id (bsub sc) with
               | Err e => ([sc], Err e)
               | Ok d => let (done, r) := submit_all bsub l in (sc :: done, rmap (cons d) r)
               end
  end.
Definition submit_batch (bsub : string -> string) (limit : Z) (scripts : list string) (obs : list (string * Z)) : list string * option (res unit) :=
  let (done, r) := submit_all bsub scripts in
  (done, match r with Err e => Some (Err e) | Ok ids => wait_for_jobs ids limit obs end).

(** ** Running commands *)
(** What subprocess.run gives back. *)
Record proc := { p_code : Z; p_out : string; p_err : string }.
(** task_runners.py:156-166. *)
Definition execute_command (p : proc) : res unit := if nonempty (p_err p) then Err EException else Ok tt.
(** task_runners.py:168-172: the scripts started, and the outcome. *)
Fixpoint execute_jobs (shell : string -> proc) (scripts : list string) : list string * res unit :=
  match scripts with
  | [] => ([], Ok tt)
  | sc :: l => match execute_command (shell sc) with
               | Err e => ([sc], Err e)
               | Ok _ => let (done, r) := execute_jobs shell l in (sc :: done, r)
               end
  end.

(** ** Stages of a run *)
Inductive execution := ExNo | ExInteractive | ExBatch.
Inductive task := PowerSpectrum | Angular | Derivative | Fisher.
(** The parts of a run. *)
Inductive event := Densities | Task (t : task) | Noise | Results.
(** Which tasks are present. *)
Definition tasks := task -> bool.
Section Run.
  Variable outcome : event -> res unit.
  Variable present : tasks.
  Variable ex : execution.
  Definition log := (list event * res unit)%type.
  Definition nothing : log := ([], Ok tt).
  Definition emit (e : event) : log := ([e], outcome e).
  Definition seq_ (a b : log) : log := match a with
    | (l, Ok _) => let (l', r) := b in ((l ++ l')%list, r)
    | (l, Err e) => (l, Err e)
    end.
  Definition executing : bool := match ex with ExNo => false | _ => true end.
  (** task_runners.py:531-547. *)
  Definition compute_densities : log :=
    if present PowerSpectrum && present Angular
    then if executing then emit Densities else nothing
    else emit Densities.
  (** task_runners.py:549-560. *)
  Definition compute_noise : log := if executing then emit Noise else nothing.
  (** task_runners.py:128-145. *)
  Definition run_task (t : task) : log := match ex with ExNo => nothing | ExBatch => emit (Task t) | ExInteractive => emit (Task t) end.
  (** task_runners.py:440-444, 562-577. *)
  Definition run_forecast : log :=
    seq_ (if present Angular then compute_densities else nothing)
    (seq_ (fold_right (fun t rest =>
             seq_ (if present t
                   then seq_ (run_task t) (match t with Angular => compute_noise | _ => nothing end)
                   else nothing) rest)
           nothing [PowerSpectrum; Angular; Derivative; Fisher])
          (if executing && present Fisher then emit Results else nothing)).
End Run.

(** ** Run identifiers *)
(** general_utils.py:187-198.  The pattern
    ^(.* )_(\d\.\d\.\d(?:dev)?)_(\d{4}-\d{2}-\d{2}T\d{2}-\d{2}-\d{2})$ fixes the last
    19 characters, one before them, and a version of 5 or 8 characters. *)
Definition chars := list_ascii_of_string.
Definition text := string_of_list_ascii.
(** A shape: [None] a digit, [Some c] the character c. *)
Fixpoint fits (sh : list (option ascii)) (l : list ascii) : bool :=
  match sh, l with
  | [], [] => true
  | None :: sh', a :: l' => is_digit a && fits sh' l'
  | Some c :: sh', a :: l' => Ascii.eqb c a && fits sh' l'
  | _, _ => false
  end.
Definition shape (s : string) : list (option ascii) := map (fun a => if Ascii.eqb a "#" then None else Some a) (chars s).
Definition stamp_shape := shape "####-##-##T##-##-##".
Definition num (l : list ascii) : nat := fold_left (fun n a => 10 * n + digit_val a)%nat l 0.
Definition leap (y : nat) : bool := ((y mod 4 =? 0) && negb (y mod 100 =? 0) || (y mod 400 =? 0))%nat.
Definition month_days (y m : nat) : nat :=
  match m with 2 => if leap y then 29 else 28 | 4 | 6 | 9 | 11 => 30 | _ => 31 end.
Definition date_ok (y m d h mi s : nat) : bool :=
  ((1 <=? y) && (1 <=? m) && (m <=? 12) && (1 <=? d) && (d <=? month_days y m) && (h <=? 23) && (mi <=? 59) && (s <=? 59))%nat.
Definition sub (i n : nat) (l : list ascii) : nat := num (firstn n (skipn i l)).
(** datetime.strptime on a text of that shape: ValueError for an impossible date. *)
Definition stamp_ok (l : list ascii) : bool := date_ok (sub 0 4 l) (sub 5 2 l) (sub 8 2 l) (sub 11 2 l) (sub 14 2 l) (sub 17 2 l).
Definition cut_last (n : nat) (l : list ascii) : list ascii * list ascii := (firstn (length l - n) l, skipn (length l - n) l).
Definition split_with (sh : list (option ascii)) (l : list ascii) : option (list ascii * list ascii) :=
  let (a, b) := cut_last (length sh) l in if fits sh b then Some (a, b) else None.
Definition split_chars (l : list ascii) : option (list ascii * list ascii * list ascii) :=
  match split_with (Some "_"%char :: stamp_shape) l with
  | None => None
  | Some (a, t) =>
      match split_with (shape "_#.#.#") a with
      | Some (n, v) => Some (n, tl v, tl t)
      | None => match split_with (shape "_#.#.#dev") a with
                | Some (n, v) => Some (n, tl v, tl t)
                | None => None
                end
      end
  end.
Definition split_run_id (s : string) : res (string * option (string * string)) :=
  match split_chars (chars s) with
  | None => Ok (s, None)
  | Some (n, v, t) => if stamp_ok t then Ok (text n, Some (text v, text t)) else Err EValueError
  end.

(** ** Batches *)
(** Absolute, normalised paths; the text, the last component, pathlib's stem. *)
Definition path_text (p : path) : string := "/" ++ join "/" p.
Definition path_name (p : path) : string := last p "".
Definition path_parent (p : path) : path := removelast p.
Definition stem (p : path) : string :=
  let parts := split_char "." (path_name p) in
  match parts with
  | [] | [_] => path_name p
  | _ => if nonempty (last parts "") && nonempty (join "." (removelast parts)) then join "." (removelast parts) else path_name p
  end.

(** orchestration.py:90-93: the first match of ([0-9]+)_sp_bins. *)
Fixpoint search_bins (s : string) : option nat :=
  match s with
  | EmptyString => None
  | String _ r => let (d, s') := span is_digit s in
                  if nonempty d && starts "_sp_bins" s' then Some (num (chars d)) else search_bins r
  end.
Definition bins_of (p : path) : option nat := search_bins (path_name p).
Definition bins_leb (a b : path) : bool :=
  (match bins_of a with Some n => n | None => 0 end <=? match bins_of b with Some n => n | None => 0 end)%nat.
Definition sort_configs (l : list path) : list path :=
  if forallb (fun p => match bins_of p with Some _ => true | None => false end) l then isort bins_leb l else l.

(** The command line of orchestrate_run. *)
Record batch_args := {
  a_ex : string; a_queue : string; a_cores : string; a_mem : string; a_ini : option string;
  a_angular : bool; a_derivative : bool; a_fisher : bool; a_flags : list string }.
(** The config directory; the external directories come from a JSON file. *)
Record batch_cfg := {
  b_fcfg : list path; b_fish : list path; b_cl : list path;
  b_pmm_cfg : string; b_der_cfg : string; b_res_cfg : string; b_ext : dict string (option string) }.
Definition kv := dict string string.
Definition sset {V} (d : dict string V) (k : string) (v : V) : dict string V := dset String.eqb d k v.
(** orchestration.py:245-251. *)
Definition cli_args (a : batch_args) (d : kv) : kv :=
  let d := sset (sset (sset (sset d "ex" (a_ex a)) "q" (a_queue a)) "ncj" (a_cores a)) "mem" (a_mem a) in
  match a_ini a with Some i => sset d "ini" i | None => d end.
(** orchestration.py:140-151. *)
Definition keyvals (c : batch_cfg) (a : batch_args) (fcfg fish cl : path) (pmm : option path) : kv :=
  let d := cli_args a [("fcfg", path_text fcfg); ("cl_cfg", path_text cl); ("fish_cfg", path_text fish)] in
  let d := match pmm with Some p => sset d "pmm_dir" (path_text p) | None => d end in
  let d := sset (sset (sset d "pmm_cfg" (b_pmm_cfg c)) "der_cfg" (b_der_cfg c)) "res_cfg" (b_res_cfg c) in
  fold_left (fun d kx => match snd kx with Some x => sset d (fst kx) x | None => d end) (b_ext c) d.
(** orchestration.py:209-217. *)
Definition build_cmd (a : batch_args) (d : kv) : string :=
  "job_submitter " ++
  join " " (map (fun f => "--" ++ f) (filter (fun f => if String.eqb f "angular" then a_angular a else if String.eqb f "derivative" then a_derivative a else a_fisher a)
                                             ["angular"; "derivative"; "fisher"])) ++ " " ++
  join " " (map (fun kx => "-" ++ fst kx ++ " " ++ snd kx) d) ++ " " ++
  join " " (map (fun f => "--" ++ f) (a_flags a)).
(** pathlib.Path of a text that is an absolute path. *)
Definition to_path (s : string) : path := filter nonempty (split_char "/" s).
(** orchestration.py:164-196: the run identifier and the arguments of the command. *)
Definition new_run (input_dir : string) (use_fish use_cl : bool) (d : kv) : res (string * kv) :=
  fcfg <- match dget String.eqb d "fcfg" with Some t => Ok (to_path t) | None => Err EKeyError end ;;
  fid <- split_run_id (stem fcfg) ;;
  let id := fst fid in
  id <- (if use_fish then match dget String.eqb d "fish_cfg" with Some t => Ok (id ++ "_" ++ stem (to_path t)) | None => Err EKeyError end else Ok id) ;;
  id <- (if use_cl then match dget String.eqb d "cl_cfg" with Some t => Ok (id ++ "_" ++ stem (to_path t)) | None => Err EKeyError end else Ok id) ;;
  id <- match dget String.eqb d "pmm_dir" with
        | None => Ok id
        | Some t => let p := to_path t in
                    pid <- split_run_id (if String.eqb (path_name p) "PowerSpectrum" then path_name (path_parent p) else path_name p) ;;
                    Ok (id ++ "_" ++ fst pid)
        end ;;
  Ok (id, sset (sset d "id" id) "i" input_dir).

(** orchestration.py:96-161.  The state is the list of argument sets of the
    commands started so far (none when execution is "no") and the identifiers;
    the standard error of a command is only logged. *)
Definition started := (list kv * list string)%type.
Definition launch (input_dir : string) (use_fish use_cl : bool) (d : kv) (st : started) : started * res unit :=
  match new_run input_dir use_fish use_cl d with
  | Err e => (st, Err e)
  | Ok (id, d') =>
      match dget String.eqb d' "ex" with
      | None => (st, Err EKeyError)
      | Some ex => ((if String.eqb ex "no" then fst st else fst st ++ [d'], snd st ++ [id])%list, Ok tt)
      end
  end.
Fixpoint for_each {A} (body : A -> started -> started * res unit) (l : list A) (st : started) : started * res unit :=
  match l with
  | [] => (st, Ok tt)
  | a :: l' => match body a st with
               | (st', Ok _) => for_each body l' st'
               | (st', Err e) => (st', Err e)
               end
  end.
Definition isnil {A} (l : list A) : bool := match l with [] => true | _ => false end.
Definition run_batch (input_dir : string) (a : batch_args) (c : batch_cfg) (pmms : list (option path)) : started * res unit :=
  if isnil (b_fcfg c) then (([], []), Err EException)
  else if isnil pmms && a_angular a then (([], []), Err EException)
  else if isnil (b_fish c) then (([], []), Err EException)
  else if isnil (b_cl c) then (([], []), Err EException)
  else
    let use_fish := (1 <? length (b_fish c))%nat in
    let use_cl := (1 <? length (b_cl c))%nat in
    for_each (fun fcfg =>
      for_each (fun fish =>
        for_each (fun cl =>
          for_each (fun pmm => launch input_dir use_fish use_cl (keyvals c a fcfg fish cl pmm)) pmms)
        (b_cl c))
      (b_fish c))
    (sort_configs (b_fcfg c)) ([], []).

(** orchestration.py:66-87 get_pmm_dirs; the argument is absent, or a path that
    does not exist, is a directory, a file with these lines, or something else. *)
Inductive pmm_arg := NoArg | Missing | IsDir (p : path) | IsFile (name : string) (dirs : list path) | Special.
Definition get_pmm_dirs (exists_ : path -> bool) (angular : bool) (pm : pmm_arg) : res (list (option path)) :=
  if angular then
    match pm with
    | NoArg => Err EValueError
    | Missing => Err EFileNotFound
    | IsDir p => Ok [Some p]
    | IsFile n ds => if ends "txt" n then (if forallb exists_ ds then Ok (map Some ds) else Err EFileNotFound) else Err EException
    | Special => Err EException
    end
  else Ok [None].

(** orchestration.py:268-276: the entries of the directory in the order of
    iterdir, with whether they are directories. *)
Definition collect_rundirs (entries : list (string * bool)) (ids : list string) : list string :=
  map fst (filter (fun e => snd e && existsb (fun id => starts id (fst e)) ids) entries).
