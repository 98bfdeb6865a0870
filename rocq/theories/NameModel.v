(** Model of the directory and key names of
    seyfert/utils/filesystem_utils.py:92-146, seyfert/utils/general_utils.py:115-136,
    seyfert/utils/workspace.py:180-188 (getClFile) and
    seyfert/derivatives/differentiator.py:146-160 (collectClVariationsFiles). *)
From Verif Require Import Base SortLib StrLib.
Open Scope string_scope.

(** Decimal texts of natural numbers, f"{n}". *)
Definition digit (n : nat) : ascii := ascii_of_nat (48 + n).
Fixpoint dec_fuel (fuel n : nat) : string :=
  match fuel with
  | 0 => ""
  | S f => if (n <? 10)%nat then String (digit n) "" else dec_fuel f (n / 10) ++ String (digit (n mod 10)) ""
  end.
Definition dec (n : nat) : string := dec_fuel (S n) n.

(** 109-115 get_cosmology_jobdir_name. *)
Definition step_text (step : Z) : string :=
  if Z.eqb step 0 then "0"
  else if Z.ltb step 0 then "m_" ++ dec (Z.abs_nat step) else "p_" ++ dec (Z.abs_nat step).
Definition jobdir_name (dvar : string) (step : Z) : string := "dvar_" ++ dvar ++ "_step_" ++ step_text step.

(** [a-zA-Z0-9] *)
Definition is_upper (a : ascii) : bool := (65 <=? nat_of_ascii a)%nat && (nat_of_ascii a <=? 90)%nat.
Definition is_alnum (a : ascii) : bool := is_lower a || is_upper a || is_digit a.
Fixpoint span (f : ascii -> bool) (s : string) : string * string :=
  match s with
  | EmptyString => ("", "")
  | String a r => if f a then let (u, v) := span f r in (String a u, v) else ("", s)
  end.
Definition digit_val (a : ascii) : nat := nat_of_ascii a - 48.

(** 92-106 get_dvar_step_from_cosmology_jobdir_name.  The pattern
    dvar_([a-zA-Z0-9]+)_step(_[pm])*_([0-9]) leaves no choice at any point (a
    shorter name, or fewer signs, would need "_" where another character
    stands), so it is matched from left to right; re.search takes the first
    position at which it matches.  Several signs: the group keeps the last. *)
Fixpoint signs (s : string) (last : option bool) : option bool * string :=
  match s with
  | String "_" (String "p" r) => signs r (Some false)
  | String "_" (String "m" r) => signs r (Some true)
  | _ => (last, s)
  end.
Definition match_jobdir (s : string) : option (string * Z) :=
  match strip_prefix "dvar_" s with
  | None => None
  | Some r =>
      let (name, r1) := span is_alnum r in
      match name with
      | EmptyString => None
      | _ =>
          match strip_prefix "_step" r1 with
          | None => None
          | Some r2 =>
              let (sg, r3) := signs r2 None in
              match r3 with
              | String "_" (String d _) =>
                  if is_digit d then
                    let v := Z.of_nat (digit_val d) in
                    Some (name, match sg with Some true => (- v)%Z | _ => v end)
                  else None
              | _ => None
              end
          end
      end
  end.
Fixpoint search_jobdir (s : string) : option (string * Z) :=
  match match_jobdir s with
  | Some x => Some x
  | None => match s with EmptyString => None | String _ r => search_jobdir r end
  end.
Definition parse_jobdir (s : string) : res (string * Z) :=
  match search_jobdir s with Some x => Ok x | None => Err EException end.

(** 118-135 names of the derivative and Fisher job directories.  re.match is
    anchored at the beginning only. *)
Definition derivative_dir (dvar : string) : string := dvar.
Definition parse_derivative_dir (s : string) : string := s.
Definition fisher_dir (d1 d2 : string) : string := d1 ++ "__" ++ d2.
Definition parse_fisher_dir (s : string) : res (string * string) :=
  let (a, r) := span is_alnum s in
  match a, strip_prefix "__" r with
  | EmptyString, _ | _, None => Err EException
  | _, Some r2 =>
      let (b, _) := span is_alnum r2 in
      match b with EmptyString => Err EException | _ => Ok (a, b) end
  end.

(** general_utils.py:115-126 probe combination keys. *)
Definition comb_key (p1 p2 : string) : string := p1 ++ "_" ++ p2.
Definition comb_probes (k : string) : list string := split_char "_" k.
Definition reverse_comb (k : string) : res string :=
  match comb_probes k with [p1; p2] => Ok (comb_key p2 p1) | _ => Err EValueError end.

(** ** The files of a parameter's variations *)
(** The directory Angular: its job directories with the files in them, in the
    order the file system lists them. *)
Definition listing := list (string * string).
Definition ends (suf s : string) : bool :=
  existsb (fun n => String.eqb (substring n (String.length s - n) s) suf) (seq 0 (S (String.length s))).
(** glob "cl*.h5". *)
Definition is_cl_file (f : string) : bool :=
  match strip_prefix "cl" f with Some r => ends ".h5" r | None => false end.
(** filesystem_utils.py:138-144 get_file_from_dir_with_pattern, workspace.py getClFile. *)
Definition cl_file (L : listing) (dvar : string) (step : Z) : res (string * string) :=
  match filter (fun df => String.eqb (fst df) (jobdir_name dvar step) && is_cl_file (snd df)) L with
  | [x] => Ok x
  | _ => Err EException
  end.
(** list.sort(key=step): stable; the key function may raise. *)
Definition key_leb {A} (x y : Z * A) : bool := Z.leb (fst x) (fst y).
(** 146-160 collectClVariationsFiles. *)
Definition collect_files (L : listing) (par : string) : res (list (string * string)) :=
  let globbed := filter (fun df => starts ("dvar_" ++ par ++ "_") (fst df) && is_cl_file (snd df)) L in
  c <- cl_file L "central" 0 ;;
  keyed <- rmapM (fun df => ds <- parse_jobdir (fst df) ;; Ok (snd ds, df)) (globbed ++ [c])%list ;;
  let sorted := map snd (isort key_leb keyed) in
  if (length sorted <=? 1)%nat then Err EException else Ok sorted.
