(** Model of seyfert/file_io/ext_input.py and of FisherMatrix.from_ISTfile
    (seyfert/fisher/fisher_matrix.py:100-118). *)
From Verif Require Import Base SortLib StrLib NameModel BatchModel ParamModel FrameModel FisherModel FsModel FisherFileModel.
From Coq Require Import Qcanon.
Close Scope Qc_scope. Open Scope list_scope.

(** ** Fisher matrices *)
(** 46-52 IST_FISHER_NAMES_MAP. *)
Definition ist_fisher_names : dict string string :=
  [("WL", "[WL]"); ("GCph", "[GCph]"); ("GCsp", "[GCsp(Pk)]"); ("GCph_WL_XC", "[WL+GCph+XC(WL,GCph)]");
   ("GCsp_GCph_WL_XC", "[WL+GCph+XC(WL,GCph)] + [GCsp(Pk)]")]%string.
(** 281-291 the name: re.search of EuclidISTF_([WLGCphsX_]+), the group without
    underscores at its ends, KeyError if it is not in the map.  None is the
    warning of 290. *)
Definition name_char (a : ascii) : bool := existsb (Ascii.eqb a) (chars "WLGCphsX_").
Fixpoint search_ist (s : string) : option string :=
  let here := match strip_prefix "EuclidISTF_" s with
              | Some r => let (u, _) := span name_char r in if nonempty u then Some u else None
              | None => None
              end in
  match here with
  | Some u => Some u
  | None => match s with EmptyString => None | String _ r => search_ist r end
  end.
Definition ist_name (filename : string) : res (option string) :=
  match search_ist filename with
  | None => Ok None
  | Some u => match dget String.eqb ist_fisher_names (rstrip "_" (lstrip "_" u)) with
              | Some n => Ok (Some n)
              | None => Err EKeyError
              end
  end.
(** 294-305 the new names of the columns.  re.match of b([0-9]+) is anchored at
    the beginning only. *)
Definition bias_label (key old : string) : string :=
  match key with
  | String "b" r =>
      let (d, _) := span is_digit r in
      if nonempty d then match num (chars d) with 0 => "bgph-1" | S n => "bgph" ++ dec n end else old
  | _ => old
  end%string.
Definition name_dict (cols : list string) : dict string string :=
  let d0 := fold_left (fun d c => dset String.eqb d c c) cols [] in
  let d1 := dset String.eqb d0 "Omegam"%string "Omm"%string in
  let d2 := dset String.eqb d1 "Omegab"%string "Omb"%string in
  let d3 := if dmem String.eqb d2 "Omegade"%string then dset String.eqb d2 "Omegade"%string "OmDE"%string else d2 in
  map (fun kv => (fst kv, bias_label (fst kv) (snd kv))) d3.
Definition rename_cols (cols : list string) : list string :=
  map (fun c => match dget String.eqb (name_dict cols) c with Some n => n | None => c end) cols.

Section Fishers.
  Context {F : Type} {K : Fld F} {SO : SetOrder}.
  (** 293-312 readISTFisherMatrixFile of a table with the column names [cols]
      (made distinct by pandas) and the rows [rows]; reading the text of the
      file is not modelled. *)
  Definition read_ist_fisher (filename : string) (cols : list string) (rows : list (list (option F))) : res (option string * frame F) :=
    n <- ist_name filename ;;
    m <- matrix_of (rename_cols cols) rows ;;
    Ok (n, f_sort1 (f_sort0 m)).
  (** fisher_matrix.py:101-118 and the constructor (33-50): a name or a set of
      parameters may be None. *)
  Record ist_obj := mkIst { i_name : option string; i_mat : frame F; i_cosmo : option (list string); i_nuis : option (list string) }.
  Definition from_ist (name : option string) (cosmo nuis : option (list string)) (filename : string) (cols : list string) (rows : list (list (option F))) : res ist_obj :=
    nd <- read_ist_fisher filename cols rows ;;
    let n := match name with Some _ => name | None => fst nd end in
    let df := snd nd in
    match cosmo, nuis with
    | None, None => Ok (mkIst n df (Some (set_of (ix df))) (Some (set_of [])))
    | _, _ => Ok (mkIst n df (option_map set_of cosmo) (option_map set_of nuis))
    end.
  (** The objects with a name and both sets are those of FisherModel. *)
  Definition as_fisher (o : ist_obj) : option (fisher F) :=
    match i_name o, i_cosmo o, i_nuis o with
    | Some n, Some c, Some u => Some (mkFisher (i_mat o) n c u None None true)
    | _, _, _ => None
    end.
  (** filesystem_utils.py:157-162 get_ist_gcsp_pk_fisher_file: the name of the
      file. *)
  Definition gcsp_file (scenario : string) : string := ("EuclidISTF_GCsp_w0wa_flat_" ++ scenario ++ ".txt")%string.
  (** seyfert_core.py:151-153: the matrix is added to the base matrices. *)
  Definition add_gcsp (scenario : string) (cols : list string) (rows : list (list (option F))) (d : path) (s : fs (h5 F)) : fs (h5 F) * res unit :=
    match from_ist None None None (gcsp_file scenario) cols rows with
    | Err e => (s, Err e)
    | Ok o => match as_fisher o with
              | Some f => fisher_write None (Some (d ++ ["fisher_IST_gcsp_pk.hdf5"%string])) false false f s
              | None => (s, Err ETypeError)
              end
    end.
End Fishers.

(** ** Names of variations *)
(** 20-28 IST_STEM_DICT, 39 IST_STEM_EPS, 29-38 IST_PMM_COSMO_MAP; the two
    tables of displacements hold the same literals. *)
Definition ist_eps : list Qc := map (fun p => Q2Qc (QArith_base.Qmake p 100000)) [625; 1250; 1875; 2500; 3750; 5000; 10000]%Z.
Definition ist_stem : dict string Qc := combine ["6p3E-3"; "1p3E-2"; "1p9E-2"; "2p5E-2"; "3p8E-2"; "5p0E-2"; "1p0E-1"]%string ist_eps.
Definition ist_map : dict string string :=
  [("Ob", "Omb"); ("Ode", "OmDE"); ("Om", "Omm"); ("h", "h"); ("ns", "ns"); ("s8", "sigma8"); ("w0", "w0"); ("wa", "wa")]%string.
(** 60 the pattern ([a-zA-Z0-9]+)_(mn|pl)_eps_([0-9]p[0-9]E-[0-9]): a shorter
    name would need "_" where a letter stands, so nothing is left to choose at a
    given position. *)
Definition match_eps (s : string) : option string :=
  match s with
  | String a (String p (String b (String x (String m (String c _))))) =>
      if is_digit a && Ascii.eqb p "p" && is_digit b && Ascii.eqb x "E" && Ascii.eqb m "-" && is_digit c
      then Some (String a (String p (String b (String x (String m (String c "")))))) else None
  | _ => None
  end.
Definition match_ist (s : string) : option (string * bool * string) :=
  let (name, r) := span is_alnum s in
  if nonempty name then
    match strip_prefix "_mn_eps_" r with
    | Some r' => option_map (pair (name, true)) (match_eps r')
    | None => match strip_prefix "_pl_eps_" r with
              | Some r' => option_map (pair (name, false)) (match_eps r')
              | None => None
              end
    end
  else None.
Fixpoint search_var (s : string) : option (string * bool * string) :=
  match match_ist s with
  | Some x => Some x
  | None => match s with EmptyString => None | String _ r => search_var r end
  end.
(** parameter.py:224 inv_stem_dict: the last step with a displacement. *)
Definition qc_eqb (x y : Qc) : bool := if Qc_eq_dec x y then true else false.
Definition inv_stem (d : dict Z Qc) : dict Qc Z := fold_left (fun acc kv => dset qc_eqb acc (snd kv) (fst kv)) d [].
(** 194-209 parseISTCosmoString, with the displacements of the collection. *)
Definition parse_ist (stem : dict Z Qc) (s : string) : res (string * Z) :=
  match search_var s with
  | None => Ok ("central"%string, 0%Z)
  | Some (name, minus, eps) =>
      e <- match dget String.eqb ist_stem eps with Some e => Ok e | None => Err EKeyError end ;;
      let e := if minus then Qcopp e else e in
      p <- match dget String.eqb ist_map name with Some p => Ok p | None => Err EKeyError end ;;
      k <- match dget qc_eqb (inv_stem stem) e with Some k => Ok k | None => Err EKeyError end ;;
      Ok (p, k)
  end.
(** 58-64 the constructor. *)
Definition ist_reader (c : coll Qc) : coll Qc := load_stem ist_eps c.

(** ** Power spectra *)
Section Spectra.
  Context {F : Type} {K : Fld F} {O : OFld (F := F)}.
  Open Scope fld_scope.
  (** One row z k p_lin p_nonlin of the table. *)
  Record pk_row := mkPk { r_z : F; r_k : F; r_lin : F; r_nl : F }.
  (** np.unique. *)
  Definition unique (l : list F) : list F := fsort (nodup fdec l).
  (** a.reshape(n, m) in row order and np.flip(axis=0). *)
  Definition reshape (n m : nat) (l : list F) : res (list (list F)) :=
    if Nat.eqb (length l) (n * m) then Ok (map (fun i => firstn m (skipn (i * m) l)) (seq 0 n)) else Err EValueError.
  (** 264-277 readISTPowerSpectrumTextFile. *)
  Definition read_ist_pk (t : list pk_row) : res (list F * list F * list (list F) * list (list F)) :=
    let z := unique (map r_z t) in
    let k := unique (map r_k t) in
    lin <- reshape (length z) (length k) (map r_lin t) ;;
    nl <- reshape (length z) (length k) (map r_nl t) ;;
    Ok (z, k, rev lin, rev nl).
  (** 94-107 the spectrum that is saved: units, redshifts above zero. *)
  Record spectrum := mkSpec { s_z : list F; s_k : list F; s_lin : list (list F); s_nl : list (list F) }.
  Definition masked {A} (z : list F) (l : list A) : list A := map snd (filter (fun zx => if fle_dec (fst zx) 0 then false else true) (combine z l)).
  Definition convert (h : F) (t : list pk_row) : res spectrum :=
    d <- read_ist_pk t ;;
    match d with
    | (z, k, lin, nl) =>
        let h3 := h * h * h in
        Ok (mkSpec (masked z z) (map (fun x => x * h) k)
              (masked z (map (map (fun p => p / h3)) lin)) (masked z (map (map (fun p => p / h3)) nl)))
    end.
End Spectra.
Arguments pk_row : clear implicits.
Arguments spectrum : clear implicits.

(** 83-116 the loop of convertISTPowerSpectra over the sorted files: the
    directories made so far with what they hold, and the collection.  The
    cosmology of a file is its parameters (Cosmology and its file are
    CosmoModel's and CosmoFileModel's). *)
Definition done := list (string * (dict string (param Qc) * spectrum Qc)).
Definition convert_one (name : string) (t : list (pk_row Qc)) (c : coll Qc) (out : done) : coll Qc * done * res unit :=
  match pget c "h" with
  | None => (c, out, Err EKeyError)
  | Some h0 =>
      if negb (is_cosmo h0) then (c, out, Err EKeyError)
      else match parse_ist (stem_dict c) name with
      | Err e => (c, out, Err e)
      | Ok (dvar, step) =>
          match update_step dvar step c with
          | (c1, Err e) => (c1, out, Err e)
          | (c1, Ok _) =>
              match pget c1 "h" with
              | None => (c1, out, Err EKeyError)
              | Some h =>
                  match convert (current h) t with
                  | Err e => (c1, out, Err e)
                  | Ok sp =>
                      let d := jobdir_name dvar step in
                      if dmem String.eqb out d then (c1, out, Err EFileExists)
                      else (reset_all c1, out ++ [(d, (cosmological c1, sp))], Ok tt)
                  end
              end
          end
      end
  end.
Fixpoint convert_all (files : list (string * list (pk_row Qc))) (c : coll Qc) (out : done) : coll Qc * done * res unit :=
  match files with
  | [] => (c, out, Ok tt)
  | (name, t) :: rest =>
      match convert_one name t c out with
      | (c', out', Ok _) => convert_all rest c' out'
      | r => r
      end
  end.

(** ** Angular coefficients *)
(** 245-247 re.findall of ([0-9]+).?([0-9]+).  At a run of digits: if one more
    character (no line break) and further digits follow, the run and those
    digits; else the run without its last digit and that digit.  [skip]
    characters belong to the last match. *)
Definition newline : ascii := "010"%char.
Definition match_pair (s : string) : option (string * string * nat) :=
  let (d, r) := span is_digit s in
  let compact := match rev (chars d) with
                 | x :: (_ :: _) as y => Some (text (rev y), String x ""%string, String.length d)
                 | _ => None
                 end in
  match r with
  | EmptyString => compact
  | String c r' =>
      let (e, _) := span is_digit r' in
      if nonempty d && nonempty e && negb (Ascii.eqb c newline) then Some (d, e, String.length d + 1 + String.length e) else compact
  end.
Fixpoint find_pairs (skip : nat) (s : string) : list (nat * nat) :=
  match s with
  | EmptyString => []
  | String _ r =>
      match skip with
      | S k => find_pairs k r
      | 0 => match match_pair s with
             | Some (i, j, n) => (num (chars i), num (chars j)) :: find_pairs (n - 1) r
             | None => find_pairs 0 r
             end
      end
  end.
(** 244-262 getIndicesFromSCameraClFileHeader. *)
Definition lmin (l : list nat) : nat := match l with [] => 0 | x :: r => fold_left Nat.min r x end.
Definition lmax (l : list nat) : nat := fold_left Nat.max l 0.
Definition header_indices (hdr : string) (symmetric : bool) : res (list (nat * nat) * (nat * nat)) :=
  let ps := find_pairs 0 hdr in
  let i := map fst ps in let j := map snd ps in
  match ps with
  | [] => Err EValueError
  | _ =>
      if negb (Nat.eqb (lmin i) (lmin j)) then Err EAssertion
      else if symmetric && negb (Nat.eqb (lmax i) (lmax j)) then Err EException
      else if Nat.eqb (lmin i) 0 then Ok (ps, (lmax i + 1, lmax j + 1))
      else Ok (map (fun p => (fst p - 1, snd p - 1)) ps, (lmax i, lmax j))
  end.
Section Cls.
  Context {F : Type} {K : Fld F}.
  (** clij[:, i, j] = row: the last value for an entry stays. *)
  Definition put (ps : list (nat * nat)) (row : list F) (m : nat -> nat -> F) : nat -> nat -> F :=
    fold_left (fun m pv => fun a b => if Nat.eqb a (fst (fst pv)) && Nat.eqb b (snd (fst pv)) then snd pv else m a b) (combine ps row) m.
  (** 221-242 readSCameraClFile: [lines] are the stripped lines of the file that
      were not empty, [data] the table of np.loadtxt, a rectangle.  A table of
      one row or one column comes back one-dimensional.  One value column is
      broadcast to all entries. *)
  Record cl_arr := mkCl { c_ells : list F; c_shape : nat * nat; c_val : nat -> nat -> nat -> F }.
  Definition read_cl (lines : list string) (data : list (list F)) (symmetric : bool) : res cl_arr :=
    match lines with
    | [] => Err EIndexError
    | l0 :: _ =>
        if negb (starts "#" l0) then Err EAssertion
        else
          ij <- header_indices (join " " (filter (starts "#") lines)) symmetric ;;
          let (ps, shape) := (ij : list (nat * nat) * (nat * nat)) in
          let w := length (hd [] data) in
          if (length data <? 2)%nat || (w <? 2)%nat then Err EIndexError
          else if negb (Nat.eqb (w - 1) (length ps)) && negb (Nat.eqb (w - 1) 1) then Err EValueError
          else
            let vals := fun l => let r := tl (nth l data []) in if Nat.eqb (w - 1) (length ps) then r else repeat (nth 0 r fz) (length ps) in
            let m := fun l =>
              let m1 := put ps (vals l) (fun _ _ => fz) in
              if symmetric then put (map (fun p => (snd p, fst p)) ps) (vals l) m1 else m1 in
            let ells := map (fun r => nth 0 r fz) data in
            if (fst shape <? snd shape)%nat then Ok (mkCl ells (snd shape, fst shape) (fun l a b => m l b a))
            else Ok (mkCl ells shape m)
    end.
End Cls.
