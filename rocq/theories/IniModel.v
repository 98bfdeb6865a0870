(** Model of the settings files of CAMB (seyfert/cosmology/boltzmann_solver.py:
    78-82, 170-191), for ASCII texts. *)
From Verif Require Import Base SortLib StrLib.
Open Scope string_scope.

(** str.splitlines of a text read in universal-newline mode; str.isspace. *)
Definition is_break (a : ascii) : bool :=
  let n := nat_of_ascii a in
  ((n =? 10) || (n =? 11) || (n =? 12) || (n =? 13) || (n =? 28) || (n =? 29) || (n =? 30))%nat.
Definition is_space (a : ascii) : bool :=
  let n := nat_of_ascii a in is_break a || (n =? 9)%nat || (n =? 31)%nat || (n =? 32)%nat.
(** An empty last line is not a line.  A \r\n counts as two breaks here; the
    empty line between does not matter to the reader. *)
Fixpoint splitlines (s : string) : list string :=
  match s with
  | EmptyString => []
  | String a r =>
      if is_break a then "" :: splitlines r
      else match splitlines r with
           | [] => [String a ""]
           | l :: ls => String a l :: ls
           end
  end.
Fixpoint lstrip (s : string) : string :=
  match s with EmptyString => "" | String a r => if is_space a then lstrip r else s end.
Fixpoint rstrip (s : string) : string :=
  match s with
  | EmptyString => ""
  | String a r => match rstrip r with EmptyString => if is_space a then "" else String a "" | r' => String a r' end
  end.
Definition strip (s : string) : string := rstrip (lstrip s).
(** (.* )=(.* )$ after the first character: greedy, so the last '=' separates. *)
Fixpoint last_eq (s : string) : option (string * string) :=
  match s with
  | EmptyString => None
  | String a r =>
      match last_eq r with
      | Some (l, v) => Some (String a l, v)
      | None => if Ascii.eqb a "=" then Some ("", r) else None
      end
  end.
(** 172: '^([^#].* )=(.* )$'. *)
Definition match_line (s : string) : option (string * string) :=
  match s with
  | EmptyString => None
  | String a r =>
      if Ascii.eqb a "#" then None
      else match last_eq r with Some (l, v) => Some (String a l, v) | None => None end
  end.
(** 171-184 readCAMBIniFileToDict. *)
Definition read_ini (text : string) : dict string string :=
  fold_left (fun (d : dict string string) line =>
      match match_line (strip line) with
      | Some (n, v) => dset String.eqb d (strip n) (strip v)
      | None => d
      end) (splitlines text) [].
(** 187-191 writeDictToIniFile; 139-141 writes the same text. *)
Definition nl : string := String (ascii_of_nat 10) "".
Definition write_ini (d : dict string string) : string :=
  fold_right (fun kv t => fst kv ++ " = " ++ snd kv ++ nl ++ t) "" d.
(** 78-82 writeUpdatedCAMBIniFile, the new values as texts. *)
Definition updated_ini (ref : string) (basis : dict string string) : string :=
  write_ini (dupdate String.eqb (read_ini ref) basis).
