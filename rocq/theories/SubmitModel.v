(** Model of the options of job_submitter: bin/job_submitter:67-73, 76-131,
    seyfert/utils/general_utils.py:47-58 (convert_keyval_params_type),
    seyfert/config/cmd_line.py:18-29, 32-68 (JobSubmitterCommandLineArgs) and
    seyfert/main/task_runners.py:449-463, 492-498 (run id, tasks).

    The result of the parser of the command line is given: the text of an option,
    a path (the options with type=Path), an integer (type=int), None, or, for an
    option with nargs='?', False when absent and True when given alone.  An ini file
    is its sections, as ConfigParser returns them.  Left out: logging, the report
    (ReportModel) and what the stages do. *)
From Verif Require Import Base SortLib StrLib FrameModel NameModel TimeModel WsModel BatchModel.
Open Scope string_scope.
Open Scope list_scope.

Inductive value := VNone | VBool (b : bool) | VInt (z : Z) | VText (s : string) | VPath (s : string).
Definition options := dict string value.
Definition opt (d : options) (k : string) : res value := match dget String.eqb d k with Some v => Ok v | None => Err EKeyError end.

(** ** general_utils.py:47-58 *)
Definition newline : string := String (ascii_of_nat 10) "".
(** $ also matches before a line break at the end of the text. *)
Definition bool_text (s : string) : bool := smem s (flat_map (fun w => [w; (w ++ newline)%string]) ["True"; "true"; "False"; "false"]).
Definition int_text (s : string) : bool :=
  let (d, r) := span is_digit s in nonempty d && (String.eqb r "" || String.eqb r newline).
Definition convert_value (v : value) : res value :=
  match v with
  | VText s =>
      if bool_text s then b <- str_to_bool s ;; Ok (VBool b)
      else if int_text s then Ok (VInt (Z.of_nat (num (chars (fst (span is_digit s))))))
      else Ok v
  | _ => Ok v
  end.
Definition convert (d : options) : res options := rmapM (fun kv => v <- convert_value (snd kv) ;; Ok (fst kv, v)) d.

(** ** bin/job_submitter:117-129 *)
Definition apply_ini (files : string -> option (dict string (dict string string))) (d : options) : res options :=
  i <- opt d "ini_file" ;;
  match i with
  | VNone => Ok d
  | VPath p =>
      match files p with
      | None => Err EFileNotFound
      | Some sections =>
          match dget String.eqb sections "config" with
          | None => Err EKeyError
          | Some kv =>
              if forallb (fun k => dmem String.eqb d k) (dkeys kv)
              then Ok (dupdate String.eqb d (map (fun kv => (fst kv, VText (snd kv))) kv))
              else Err EKeyError
          end
      end
  | _ => Err EAttributeError
  end.
(** 67-73 check_options. *)
Definition check_options (d : options) : res unit :=
  e <- opt d "execution" ;;
  if match e with VText s => smem s ["no"; "interactive"; "batch"] | _ => false end then
    n <- opt d "n_cores_per_job" ;;
    match n with
    | VInt z => if (z <=? 0)%Z then Err EValueError else Ok tt
    | VBool b => if b then Ok tt else Err EValueError
    | _ => Err ETypeError
    end
  else Err EValueError.
(** cmd_line.py:64-68 castArgTypes. *)
Definition path_like (n : string) : bool := occurs "_config" n || occurs "_dir" n.
Definition to_path_value (v : value) : res value :=
  match v with
  | VNone => Ok VNone
  | VText s | VPath s => Ok (VPath s)
  | VBool _ | VInt _ => Err ETypeError
  end.
Definition cast (d : options) : res options :=
  rmapM (fun kv => v <- (if path_like (fst kv) then to_path_value (snd kv) else Ok (snd kv)) ;; Ok (fst kv, v)) d.
(** From the parsed command line to the options of the runner. *)
Definition submit (files : string -> option (dict string (dict string string))) (args : options) : res options :=
  d <- convert args ;;
  d <- apply_ini files d ;;
  _ <- check_options d ;;
  cast d.

(** ** What the options mean *)
(** if x: *)
Definition truthy (v : value) : bool :=
  match v with VNone => false | VBool b => b | VInt z => negb (z =? 0)%Z | VText s => nonempty s | VPath _ => true end.
(** task_runners.py:459-463, 492-498: the stages of the run. *)
Definition stages : list (string * string) :=
  [("PowerSpectrum", "powerspectrum"); ("Angular", "angular"); ("Derivative", "derivative"); ("Fisher", "fisher")].
Definition tasks (d : options) : res (dict string bool) :=
  rmapM (fun t => v <- opt d (snd t) ;; Ok (fst t, truthy v)) stages.
(** f"{x}". *)
Definition shown (v : value) : string :=
  match v with
  | VNone => "None" | VBool true => "True" | VBool false => "False"
  | VInt z => (if (z <? 0)%Z then "-" else "") ++ dec (Z.to_nat (Z.abs z))
  | VText s | VPath s => s
  end%string.
(** 449-457 setRunID; [config_id]: that of the forecast configuration. *)
Definition run_id (version : string) (config_id : option string) (d : options) : res string :=
  i <- opt d "run_id" ;;
  Ok match i with
     | VNone => match config_id with Some c => (c ++ "_" ++ version)%string | None => ("run_seyfert_" ++ version)%string end
     | v => (shown v ++ "_" ++ version)%string
     end.

(** ** bin/job_submitter:107-110: the directory Angular after the run *)
Definition rmtree (D : entries) (n : string) : res entries :=
  match dget String.eqb D n with
  | Some (Some _) => Ok (filter (fun e => negb (String.eqb (fst e) n)) D)
  | _ => Err EOSError
  end.
Definition cleanup (d : options) (D : entries) : res entries :=
  a <- opt d "angular" ;;
  if negb (truthy a) then Ok D else
  k <- opt d "keep_cl_variations" ;;
  if truthy k then Ok D else
  m <- cl_dirs D ;;
  fold_left (fun acc kv => E <- acc ;; rmtree E (snd kv)) m (Ok D).
