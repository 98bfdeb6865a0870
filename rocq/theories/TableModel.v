(** Model of seyfert/utils/table_utils.py. *)
From Verif Require Import Base SortLib StrLib FsModel.
Open Scope list_scope.

(** pathlib: PurePath.suffix of a file name.  The last dot, if it is neither the
    first nor the last character. *)
Fixpoint rfind_from (c : ascii) (s : string) (i : nat) (last : option nat) : option nat :=
  match s with
  | EmptyString => last
  | String a r => rfind_from c r (S i) (if Ascii.eqb a c then Some i else last)
  end.
Fixpoint drop (n : nat) (s : string) : string :=
  match n, s with 0, _ => s | S n, String _ r => drop n r | S _, EmptyString => EmptyString end.
Definition suffix (name : string) : string :=
  match rfind_from "."%char name 0 None with
  | Some i => if (0 <? i)%nat && (i <? String.length name - 1)%nat then drop i name else ""%string
  | None => ""%string
  end.

Section Table.
  (** The file contents pandas produces for a frame with the keyword arguments
      of the call; unmodelled. *)
  Context {C D : Type} (csv xlsx : D -> C).
  (** 9-20.  The path's existence includes directories; the warning is not
      modelled. *)
  Definition write_table (df : D) (outfile : path) (overwrite : bool) (s : fs C) : fs C * res unit :=
    let fmt := suffix (last outfile ""%string) in
    let exists_ := p_isdir s outfile || p_exists s outfile in
    if negb exists_ || (exists_ && overwrite)
    then if String.eqb fmt ".csv" then p_write outfile (csv df) s
         else if String.eqb fmt ".xlsx" then p_write outfile (xlsx df) s
         else (s, Err EException)
    else (s, Ok tt).
End Table.
