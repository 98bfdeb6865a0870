(** Model of the reports of batch jobs: seyfert/main/report_maker.py:16-295, the names of
    the log files of seyfert/main/bsub_utils.py:96-110 and the condition of
    bin/job_submitter:100-105.

    A job directory is its files in the order in which the file system lists them.
    What is read from the log of the batch system (parseOutFile 98-128: execution
    time, identifier and hosts) is a parameter, the texts of the reports are
    the sequence of their pieces.  Left out: the log file, which is found but not
    used; sizes in MB are given in bytes. *)
From Coq Require Import QArith.
From Verif Require Import Base StrLib SortLib NameModel WsModel TimeModel KeyModel.
Close Scope Q_scope.
Open Scope string_scope.
Open Scope list_scope.

Record jfile := mkFile { fname : string; ftext : string; fsize : nat }.
Inductive status := Success | Failure | Undefined | NotExecuted | NotCompleted.
Definition status_eqb (a b : status) : bool :=
  match a, b with
  | Success, Success | Failure, Failure | Undefined, Undefined | NotExecuted, NotExecuted | NotCompleted, NotCompleted => true
  | _, _ => false
  end.

(** 135-138: the first file of a pattern pre*suf. *)
Definition fits (pre suf n : string) : bool := match strip_prefix pre n with Some r => ends suf r | None => false end.
Definition first_file (pre suf : string) (l : list jfile) : option jfile := find (fun f => fits pre suf (fname f)) l.
(** 36-40: the expressions [cC]ore\s+[dD]ump and core\.[0-9]+ . *)
Definition is_white (a : ascii) : bool := ((9 <=? nat_of_ascii a) && (nat_of_ascii a <=? 13) || (28 <=? nat_of_ascii a) && (nat_of_ascii a <=? 32))%nat.
Definition strip_any (l : list string) (s : string) : option string :=
  fold_right (fun p r => match strip_prefix p s with Some x => Some x | None => r end) None l.
Definition core_at (s : string) : bool :=
  match strip_any ["core"; "Core"] s with
  | Some r => let (w, t) := span is_white r in negb (String.eqb w "") && match strip_any ["dump"; "Dump"] t with Some _ => true | None => false end
  | None => false
  end.
Fixpoint search_core (s : string) : bool := core_at s || match s with EmptyString => false | String _ r => search_core r end.
Definition core_file (n : string) : bool := match strip_prefix "core." n with Some (String c _) => is_digit c | _ => false end.

Section Reports.
  (** execution time in seconds, identifier of the job, hosts. *)
  Variable read_out : string -> res (Z * option string * list string).

  Record report := mkReport { r_dir : string; r_status : status; r_err : option jfile; r_out : option jfile; r_output : option jfile;
                              r_core : bool; r_size : nat; r_time : Z; r_id : option string; r_hosts : list string }.
  (** 68-96 getFiles and evaluateJobStatus. *)
  Definition job_status (suf : string) (l : list jfile) : status * bool * nat :=
    match first_file "job" ".err" l with
    | None => match first_file "job" ".out" l with None => (NotExecuted, false, 0) | Some _ => (Undefined, false, 0) end
    | Some e =>
        if (0 <? String.length (ftext e))%nat then (Failure, search_core (ftext e) || existsb (fun f => core_file (fname f)) l, 0)
        else match first_file "" suf l with Some o => (Success, false, fsize o) | None => (Undefined, false, 0) end
    end.
  (** 43-47 setUp. *)
  Definition job_report (suf : string) (d : string * list jfile) : res report :=
    let (dir, l) := d in
    let '(st, core, size) := job_status suf l in
    let err := first_file "job" ".err" l in
    let out := first_file "job" ".out" l in
    let output := first_file "" suf l in
    match out with
    | None => Ok (mkReport dir st err out output core size 0 None [])
    | Some o => x <- read_out (ftext o) ;; let '(t, id, hosts) := x in Ok (mkReport dir st err out output core size t id hosts)
    end.

  Record counters := mkCounters { c_fail : nat; c_succ : nat; c_none : nat; c_undef : nat; c_core : nat; c_good : list string; c_bad : list string }.
  Definition no_counters := mkCounters 0 0 0 0 0 [] [].
  Record task := mkTask { t_dir : string; t_jobs : list report; t_n : nat; t_mean : Q; t_size : nat; t_count : counters; t_status : option status }.
  (** 157 and 165-183 buildJobsReports. *)
  Definition id_of (r : report) : string := match r_id r with Some i => i | None => "" end.
  Definition build_jobs (dir : string) (jobdirs : list (string * list jfile)) : res task :=
    let suf := if String.eqb dir "Fisher" then ".csv" else ".h5" in
    jobs <- rmapM (job_report suf) jobdirs ;;
    match jobs with
    | [] => Err EZeroDivision
    | _ =>
        let sorted := if forallb (fun r => match r_id r with Some _ => true | None => false end) jobs
                      then isort (fun a b => String.leb (id_of a) (id_of b)) jobs else jobs in
        Ok (mkTask dir sorted (length jobs) (fold_left (fun s r => (s + inject_Z (r_time r))%Q) jobs 0%Q / inject_Z (Z.of_nat (length jobs)))%Q
                   (fold_left (fun s r => (s + r_size r)%nat) jobs 0%nat) no_counters None)
    end.
  (** 193-226 evaluateStatus; sets of hosts as lists. *)
  Definition count_job (c : counters) (r : report) : counters :=
    let c := match r_status r with
             | Failure => mkCounters (S (c_fail c)) (c_succ c) (c_none c) (c_undef c) (c_core c) (c_good c) (c_bad c ++ r_hosts r)
             | Success => mkCounters (c_fail c) (S (c_succ c)) (c_none c) (c_undef c) (c_core c) (c_good c ++ r_hosts r) (c_bad c)
             | NotExecuted => mkCounters (c_fail c) (c_succ c) (S (c_none c)) (c_undef c) (c_core c) (c_good c) (c_bad c)
             | Undefined => mkCounters (c_fail c) (c_succ c) (c_none c) (S (c_undef c)) (c_core c) (c_good c) (c_bad c)
             | NotCompleted => c
             end in
    if r_core r then mkCounters (c_fail c) (c_succ c) (c_none c) (c_undef c) (S (c_core c)) (c_good c) (c_bad c) else c.
  Definition evaluate_status (t : task) : task :=
    let c0 := t_count t in
    let c := fold_left count_job (t_jobs t) (mkCounters (c_fail c0) (c_succ c0) (c_none c0) (c_undef c0) (c_core c0) [] []) in
    let st := if (0 <? c_fail c)%nat then Failure
              else if (c_succ c =? t_n t)%nat then Success
              else if (c_none c =? t_n t)%nat then NotExecuted
              else if forallb (fun r => status_eqb (r_status r) Success || status_eqb (r_status r) NotExecuted) (t_jobs t) then NotCompleted
              else Undefined in
    mkTask (t_dir t) (t_jobs t) (t_n t) (t_mean t) (t_size t) c (Some st).
  (** 287-295 buildTaskReportMakers; [w_link]: the directory is a link. *)
  Record workdir := mkWork { w_name : string; w_exists : bool; w_link : bool; w_jobs : list (string * list jfile) }.
  Definition build_tasks (l : list workdir) : res (list task) :=
    rmapM (fun w => rmap evaluate_status (build_jobs (w_name w) (w_jobs w))) (filter (fun w => w_exists w && negb (w_link w)) l).

  (** 49-66 getReport: the report of a job, read_text of no file is an AttributeError. *)
  Definition job_text (r : report) : res unit :=
    match r_status r with
    | Success => match r_output r with Some _ => Ok tt | None => Err EAttributeError end
    | NotExecuted => Ok tt
    | _ => match r_err r with Some _ => Ok tt | None => Err EAttributeError end
    end.
  Inductive piece := PRun (s : status) | PTask (d : string) | PJob (d : string).
  (** 185-190 writeToFiles: what is in the report file, and whether it went well. *)
  Fixpoint write_jobs (l : list report) : list piece * res unit :=
    match l with
    | [] => ([], Ok tt)
    | r :: l => match job_text r with Ok _ => let (p, e) := write_jobs l in (PJob (r_dir r) :: p, e) | Err e => ([], Err e) end
    end.
  (** 265-284 writeReportFiles: report, summary, status. *)
  Definition run_status (l : list task) : status :=
    let is s t := match t_status t with Some x => status_eqb x s | None => false end in
    if forallb (is Success) l then Success
    else if existsb (is Failure) l then Failure
    else if forallb (fun t => is Success t || is NotExecuted t) l then NotCompleted
    else Undefined.
  Fixpoint write_tasks (l : list task) : list piece * list piece * res unit :=
    match l with
    | [] => ([], [], Ok tt)
    | t :: l =>
        let (p, e) := write_jobs (t_jobs t) in
        match e with
        | Ok _ => let '(rep, sum, e) := write_tasks l in (PTask (t_dir t) :: p ++ rep, PTask (t_dir t) :: sum, e)
        | Err e => (PTask (t_dir t) :: p, [PTask (t_dir t)], Err e)
        end
    end.
  Definition write_report (l : list task) : list piece * list piece * res unit :=
    let '(rep, sum, e) := write_tasks l in (PRun (run_status l) :: rep, PRun (run_status l) :: sum, e).
End Reports.

(** bsub_utils.py:96-110 submitJob: the names of the two log files. *)
Definition log_names (start : string) (now : moment) : string * string :=
  (("out_" ++ start ++ "_" ++ datetime_str_format now "-" ++ ".out")%string, ("err_" ++ start ++ "_" ++ datetime_str_format now "-" ++ ".err")%string).
(** job_submitter:100-101: whether a report is written after a batch run. *)
Definition report_wanted (tasks : dict string bool) : res bool :=
  fisher <- dgetr tasks "Fisher" ;;
  Ok (fisher && negb (existsb (fun kv => snd kv) tasks)).
