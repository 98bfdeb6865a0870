(** Vocabulary of the statements about Fisher file names: the grammar of the
    names the project gives (data vectors, seyfert/fisher/datavector.py:95-96,
    and a posteriori combinations of them, aux files a_posteriori_fisher_combs.txt). *)
From Verif Require Import Base StrLib KeyModel KeySpec.
Open Scope string_scope.

(** An entry of a data vector: an auto-correlation, a cross-correlation, or the
    power-spectrum matrix GCsp(Pk). *)
Inductive entry := EAuto (p : probe) | EXc (p q : probe) | EPk.
Definition entry_name (e : entry) : string :=
  match e with
  | EAuto p => pname Alias p
  | EXc p q => "XC(" ++ pname Alias p ++ "," ++ pname Alias q ++ ")"
  | EPk => "GCsp(Pk)"
  end.
(** A data vector: a first entry and the others. *)
Definition vect := (entry * list entry)%type.
Definition vect_name (d : vect) : string := "[" ++ join "+" (map entry_name (fst d :: snd d)) ++ "]".
(** A combination: a first data vector, then (true: sum, false: difference). *)
Definition comb := (vect * list (bool * vect))%type.
Definition op_name (b : bool) : string := if b then "+" else "-".
Definition comb_name (c : comb) : string :=
  vect_name (fst c) ++ String.concat "" (map (fun bd => " " ++ op_name (fst bd) ++ " " ++ vect_name (snd bd)) (snd c)).

(** The words of a name: maximal runs of characters other than brackets,
    parentheses, blanks and underscores, a comma read as a minus. *)
Definition is_sep (a : ascii) : bool := existsb (Ascii.eqb a) ["["; "]"; "("; ")"; " "; "_"]%char.
Definition word_char (a : ascii) : ascii := if Ascii.eqb a "," then "-"%char else a.
Fixpoint words_from (cur : string) (s : string) : list string :=
  match s with
  | EmptyString => if String.eqb cur "" then [] else [cur]
  | String a r => if is_sep a then (if String.eqb cur "" then words_from "" r else cur :: words_from "" r)
                  else words_from (cur ++ String (word_char a) "") r
  end.
Definition name_words (s : string) : list string := words_from "" s.
