(** Model of the bias models of seyfert/cosmology/bias.py that are functions of
    the nuisance parameters alone: ConstantBias and PiecewiseBias (190-236). *)
From Verif Require Import Base SortLib StrLib NameModel ParamModel OrdLib NumModel.
Open Scope list_scope.

(** 216-220 _get_bias_idx: the first run of (ASCII) digits of the name; without
    one, match is None and match.start raises AttributeError. *)
Fixpoint read_digits (acc : nat) (s : string) : nat :=
  match s with
  | EmptyString => acc
  | String c r => if is_digit c then read_digits (10 * acc + digit_val c) r else acc
  end.
Fixpoint first_run (s : string) : option nat :=
  match s with
  | EmptyString => None
  | String c r => if is_digit c then Some (read_digits 0 s) else first_run r
  end.
Definition bias_idx (s : string) : res nat := match first_run s with Some n => Ok n | None => Err EAttributeError end.
Definition nkey_leb {A} (x y : nat * A) : bool := Nat.leb (fst x) (fst y).

Section Bias.
  Context {F : Type} {K : Fld F} {O : OFld (F := F)}.
  Open Scope fld_scope.
  (** 212-222 getSortedBiasValues; sorted is stable. *)
  Definition sorted_bias (d : dict string F) : res (list F) :=
    keyed <- rmapM (fun kv => i <- bias_idx (fst kv) ;; Ok (i, snd kv)) d ;;
    Ok (map snd (isort nkey_leb keyed)).
  (** 224-238 getConditionAndValuesLists, conditions as functions of z. *)
  Definition n_bins (edges : list F) : Z := (Z.of_nat (length edges) - 1)%Z.
  Definition pw_conds (b edges : list F) : list ((F -> bool) * F) :=
    ((fun z => fltb z (at_ edges 0)), at_ b 0) ::
    map (fun i => ((fun z => fleb' (at_ edges i) z && fleb' z (at_ edges (i + 1))), at_ b i)) (seq 0 (length b)) ++
    [((fun z => fltb (at_ edges (length edges - 1)) z), at_ b (length b - 1))].
  Definition conditions (d : dict string F) (edges : list F) : res (list ((F -> bool) * F)) :=
    b <- sorted_bias d ;;
    if negb (Z.eqb (Z.of_nat (length b)) (n_bins edges)) then Err EDomain
    else if Nat.eqb (length b) 0 then Err EIndexError
    else Ok (pw_conds b edges).
  (** numpy.piecewise: every condition in turn overwrites; 0 where none holds.
      The grid is taken to hold floats (its dtype is also that of the result). *)
  Definition piecewise (conds : list ((F -> bool) * F)) (z : F) : F := fold_left (fun acc (cv : (F -> bool) * F) => if fst cv z then snd cv else acc) conds 0.
  (** 205-210 computeBias: the same row for every bin. *)
  Definition piecewise_bias (d : dict string F) (edges zs : list F) : res (list (list F)) :=
    conds <- conditions d edges ;;
    Ok (repeat (map (piecewise conds) zs) (Z.to_nat (n_bins edges))).
  (** 194-198 ConstantBias.computeBias: the values in dictionary order. *)
  Definition constant_bias (d : dict string F) (edges zs : list F) : res (list (list F)) :=
    if negb (Z.eqb (Z.of_nat (length d)) (n_bins edges)) then Err EDomain
    else Ok (map (fun kv => repeat (snd kv) (length zs)) d).
End Bias.
