(** Model of seyfert/notebook_helpers/table_helpers.py: selections, differences and
    LaTeX rows of tables of results. *)
From Verif Require Import Base SortLib StrLib.
Open Scope nat_scope.
Open Scope string_scope.
Open Scope list_scope.

(** Python's [p in s]. *)
Fixpoint occurs (p s : string) : bool :=
  starts p s || match s with String _ s => occurs p s | EmptyString => false end.

Section ResTab.
  Context {F : Type} {K : Fld F} {O : OFld (F := F)}.

  (** ** Queries *)
  (** A cell of a frame.  Integers and floats are compared by value and are one
      constructor; truth values compare as 0 and 1.  Missing values are not
      modelled. *)
  Inductive cell := CS (s : string) | CB (b : bool) | CN (x : F).
  Definition num (c : cell) : option F := match c with CS _ => None | CB b => Some (if b then fo else fz) | CN x => Some x end.
  Definition ceq (a b : cell) : bool :=
    match a, b with
    | CS s, CS t => String.eqb s t
    | _, _ => match num a, num b with Some x, Some y => if fdec x y then true else false | _, _ => false end
    end.
  (** A frame: its columns in order and its rows. *)
  Record frame := mkFr { cols : list string; body : list (dict string cell) }.
  (** 167-173. *)
  Definition default_query : dict string cell :=
    [("scenario", CS "optimistic"); ("shot_noise_sp_reduced", CB false); ("gcph_minus_gcsp", CB false); ("gcph_only_bins_in_spectro_range", CB false)].
  (** 176-184. *)
  Definition query_dict (exclude : list string) (kwargs : dict string cell) : dict string cell :=
    let q := dupdate String.eqb default_query (filter (fun kv => dmem String.eqb default_query (fst kv)) kwargs) in
    filter (fun kv => negb (smem (fst kv) exclude)) q.
  (** 187-188: the columns in which a row differs from the first one. *)
  Definition oceq (a b : option cell) : bool := match a, b with Some x, Some y => ceq x y | _, _ => false end.
  Definition remove_constant (t : frame) : res frame :=
    match body t with
    | [] => Err EIndexError
    | r0 :: _ =>
        let keep := filter (fun c => existsb (fun r => negb (oceq (dget String.eqb r c) (dget String.eqb r0 c))) (body t)) (cols t) in
        Ok (mkFr keep (map (filter (fun kv => smem (fst kv) keep)) (body t)))
    end.
  (** 191-211 with drop_index at either value (the index is not modelled).  The query
      is a text of the pieces key == value: the key must be a name, a text is put
      between quotes.  A text that holds a quote or a backslash does not stand for
      itself there and is simplified to an error.  pandas refuses the empty text. *)
  Definition name_char (a : ascii) : bool :=
    let n := nat_of_ascii a in (Nat.leb 97 n && Nat.leb n 122) || (Nat.leb 65 n && Nat.leb n 90) || (Nat.leb 48 n && Nat.leb n 57) || Nat.eqb n 95.
  Fixpoint all_chars (f : ascii -> bool) (s : string) : bool := match s with EmptyString => true | String a s => f a && all_chars f s end.
  Definition is_name (s : string) : bool :=
    match s with EmptyString => false | String a _ => all_chars name_char s && negb (Nat.leb 48 (nat_of_ascii a) && Nat.leb (nat_of_ascii a) 57) end.
  Definition plain_text (s : string) : bool := negb (has """" s) && negb (has "\" s) && negb (has "010" s).
  Definition piece_ok (kv : string * cell) : bool := is_name (fst kv) && match snd kv with CS s => plain_text s | _ => true end.
  Definition holds (r : dict string cell) (kv : string * cell) : bool :=
    match dget String.eqb r (fst kv) with Some c => ceq c (snd kv) | None => false end.
  Definition select (t : frame) (q : dict string cell) (remove : bool) : res frame :=
    if existsb (fun k => negb (smem k (cols t))) (dkeys q) then Err EKeyError
    else match q with
    | [] => Err EValueError
    | _ =>
        if negb (forallb piece_ok q) then Err EException
        else
          let s := mkFr (cols t) (filter (fun r => forallb (holds r) q) (body t)) in
          if remove && Nat.ltb 1 (length (body s)) then remove_constant s else Ok s
    end.

  (** ** Frames with an index *)
  (** The first level of the index is the name of the Fisher matrix; [I] are the
      values of the other levels; the index is unique.  The columns are numbers. *)
  Context {I : Type} (ieqb : I -> I -> bool).
  Notation row := (dict string F).
  Definition itab := list ((string * I) * row).
  Definition keqb (a b : string * I) : bool := String.eqb (fst a) (fst b) && ieqb (snd a) (snd b).
  (** df.loc[name]. *)
  Definition loc (t : itab) (f : string) : res (list (I * row)) :=
    match filter (fun kr => String.eqb (fst (fst kr)) f) t with
    | [] => Err EKeyError
    | l => Ok (map (fun kr => (snd (fst kr), snd kr)) l)
    end.
  (** A combination of two frames cell by cell: the rows of either one, with no
      value where one of the two has none (None is NaN).  pandas may sort the rows. *)
  Definition combine (op : F -> F -> F) (m r : list (I * row)) : list (I * (string -> option F)) :=
    let keys := map fst m ++ filter (fun i => negb (existsb (ieqb i) (map fst m))) (map fst r) in
    map (fun i => (i, fun c => match dget ieqb m i, dget ieqb r i with
                               | Some a, Some b => match dget String.eqb a c, dget String.eqb b c with Some x, Some y => Some (op x y) | _, _ => None end
                               | _, _ => None
                               end)) keys.
  (** numeric/general.py:70-71. *)
  Definition f100 : F := let two := (fo + fo)%F in let five := (two + two + fo)%F in (two * five * (two * five))%F.
  Definition pct (x y : F) : F := (f100 * (x - y) / y)%F.
  (** 214-225. *)
  Definition difference (op : F -> F -> F) (t : itab) (ref m : string) : res (list (I * (string -> option F))) :=
    a <- loc t m ;; b <- loc t ref ;; Ok (combine op a b).
  (** 228-263 with given names. *)
  Definition differences (op : F -> F -> F) (t : itab) (ref : string) (ms : list string) : res (list ((string * I) * (string -> option F))) :=
    match ms with
    | [] => Err EValueError
    | _ => ds <- rmapM (fun m => d <- difference op t ref m ;; Ok (map (fun ir => ((m, fst ir), snd ir)) d)) ms ;; Ok (concat ds)
    end.
  (** 26-43 without sorting: the rows of the given matrices. *)
  Definition sub_for (t : itab) (names : list string) : res itab :=
    if forallb (fun n => smem n (map (fun kr => fst (fst kr)) t)) names
    then Ok (filter (fun kr => smem (fst (fst kr)) names) t) else Err EKeyError.
  (** 266-286: rows with the value of FoM minus that of the reference and the
      percentage.  Assigning a column matches the index. *)
  Definition fom_table (t : itab) (fishers : list string) (dfom : dict string string) : res (list ((string * I) * (option F * option F * row))) :=
    s <- sub_for t fishers ;;
    let ms := filter (fun m => dmem String.eqb dfom m) (map (fun kr => fst (fst kr)) s) in
    let go op := rmapM (fun m => match dget String.eqb dfom m with
                                 | Some ref => d <- difference op s ref m ;; Ok (map (fun ir => ((m, fst ir), snd ir)) d)
                                 | None => Ok [] end) ms in
    ds <- go fsub ;; dp <- go pct ;;
    match ms with
    | [] => Err EValueError
    | _ =>
        if forallb (fun kr => dmem String.eqb (snd kr) "FoM") s
        then Ok (map (fun kr => (fst kr, (match dget keqb (concat ds) (fst kr) with Some g => g "FoM" | None => None end,
                                          match dget keqb (concat dp) (fst kr) with Some g => g "FoM" | None => None end, snd kr))) s)
        else Err EKeyError
    end.
  (** The same with an index of the names only: df.loc[name] is then a row, the
      differences are a series whose index is the name and the column, and the
      name FoM is looked for among the names of the matrices. *)
  Definition fom_table_flat (t : dict string row) (fishers : list string) (dfom : dict string string) : res unit :=
    if forallb (fun n => dmem String.eqb t n) fishers
    then
      let ms := filter (fun m => dmem String.eqb dfom m && smem m fishers) (dkeys t) in
      _ <- rmapM (fun m => match dget String.eqb dfom m with
                           | Some ref => if dmem String.eqb t ref && smem ref fishers then Ok tt else Err EKeyError
                           | None => Ok tt end) ms ;;
      match ms with
      | [] => Err EValueError
      | _ => if smem "FoM" ms then Err EException else Err EKeyError
      end
    else Err EKeyError.

  (** 141-155: matrices with GCsp(Pk) and another number of bins get the row of
      four bins.  The index holds the name, the number of bins and other values.
      The rows are set one after the other. *)
  Definition four : F := (fo + fo + fo + fo)%F.
  Definition hkey : Type := (string * F) * I.
  Definition hkeqb (a b : hkey) : bool :=
    String.eqb (fst (fst a)) (fst (fst b)) && (if fdec (snd (fst a)) (snd (fst b)) then true else false) && ieqb (snd a) (snd b).
  Definition replace_one (t : dict hkey row) (k : hkey) : res (dict hkey row) :=
    if occurs "GCsp(Pk)" (fst (fst k)) && negb (if fdec (snd (fst k)) four then true else false)
    then match dget hkeqb t ((fst (fst k), four), snd k) with
         | Some r => Ok (dset hkeqb t k r)
         | None => Err EKeyError
         end
    else Ok t.
  Definition replace_hybrid (t : dict hkey row) : res (dict hkey row) :=
    fold_left (fun acc k => t <- acc ;; replace_one t k) (dkeys t) (Ok t).

  (** ** LaTeX rows *)
  (** 80-102 before the translation to TeX.  The row is the columns in order; [fmt2]
      prints with two decimals, [fmt] with the given format.  A reference of zero
      gives an infinite value there and is simplified to an error. *)
  Context (fmt2 fmt : F -> string).
  Inductive lcell := LT (s : string) | LN (x : F).
  Definition ltext (c : lcell) : string := match c with LT s => s | LN x => fmt x end.
  Definition delta_text (d : F) : string :=
    if fle_dec d fz then ("-" ++ fmt2 d ++ "\%")%string else ("+" ++ fmt2 d ++ "\%")%string.
  Definition lnum (c : lcell) : res F := match c with LN x => Ok x | LT _ => Err ETypeError end.
  Definition get (r : list (string * lcell)) (c : string) : res lcell := match dget String.eqb r c with Some x => Ok x | None => Err EKeyError end.
  Definition latex_row (r : list (string * lcell)) (ref : option F) : res string :=
    let head := match dget String.eqb r "nbins" with Some c => (ltext c ++ " & ")%string | None => "" end in
    f <- get r "fisher" ;;
    x <- get r "FoM" ;; x <- lnum x ;;
    d <- match ref with
         | Some y => if fdec y fz then Err EZeroDivision else Ok (delta_text (f100 * (x - y) / y)%F)
         | None => Ok "--"
         end ;;
    es <- rmapM (fun c => lnum (snd c)) (skipn 3 r) ;;
    Ok (head ++ ltext f ++ " & " ++ fmt2 x ++ " & " ++ d ++ " & " ++ join " & " (map fmt es) ++ " \\")%string.
End ResTab.
Arguments cell : clear implicits.
Arguments frame : clear implicits.
Arguments itab : clear implicits.
Arguments hkey : clear implicits.
Arguments lcell : clear implicits.
