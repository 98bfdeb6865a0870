(** Model of the angular spectra and derivatives of the IST comparison read from
    directories: seyfert/file_io/ext_input.py:39-43, 118-206, with the readers of
    names and files of IstModel and the files of spectra of SpectraModel.

    Simplifications: the name of the destination, which has the time, is left
    out: a directory of it is an entry of the output; [meta] is what is written
    into a new file; hidden files and file names with a line break are treated as
    others.  The order of a directory is the order of the list. *)
From Verif Require Import Base SortLib StrLib FrameModel ParamModel FsModel KeyModel NameModel BatchModel IstModel H5Model SpectraModel.
From Coq Require Import Qcanon.
Open Scope list_scope.

Section Scam.
  Context {F : Type} {K : Fld F}.

  Record sc_file := mkSc { sc_name : string; sc_lines : list string; sc_data : list (list F) }.
  (** 39-43 SCAMERA_PROBE_MAP. *)
  Definition probe_map : dict string (string * string) :=
    [("GCph", ("PhotometricGalaxy", "PhotometricGalaxy")); ("GCsp", ("SpectroscopicGalaxy", "SpectroscopicGalaxy"));
     ("XC", ("PhotometricGalaxy", "SpectroscopicGalaxy"))]%string.
  (** 123 correct_ij_shapes. *)
  Definition shapes : dict string (nat * nat) := [("GCph", (10, 10)); ("GCsp", (4, 4)); ("XC", (10, 4))]%string.
  Definition find {V} (d : dict string V) (k : string) : res V := match dget String.eqb d k with Some v => Ok v | None => Err EKeyError end.
  Definition var_eqb (x y : string * Z) : bool := String.eqb (fst x) (fst y) && Z.eqb (snd x) (snd y).

  (** 184-189 get_cosmo_files_dict. *)
  Fixpoint cosmo_files (stem : dict Z Qc) (l : list sc_file) (acc : dict (string * Z) sc_file) : res (dict (string * Z) sc_file) :=
    match l with
    | [] => Ok acc
    | f :: l => x <- parse_ist stem (sc_name f) ;; cosmo_files stem l (dset var_eqb acc x f)
    end.
  Definition same_vars (a b : dict (string * Z) sc_file) : bool := forallb (dmem var_eqb b) (dkeys a) && forallb (dmem var_eqb a) (dkeys b).
  Definition file_of (d : dict (string * Z) sc_file) (x : string * Z) : res sc_file := match dget var_eqb d x with Some f => Ok f | None => Err EKeyError end.
  Definition dat_files (l : list sc_file) : list sc_file := filter (fun f => ends ".dat" (sc_name f)) l.
  (** 179-206 buildCosmoClsFilesDict: the contents of the three directories. *)
  Definition build_files (stem : dict Z Qc) (ph sp xc : list sc_file) : res (dict (string * Z) (dict string sc_file)) :=
    dp <- cosmo_files stem (dat_files ph) [] ;;
    ds <- cosmo_files stem (dat_files sp) [] ;;
    dx <- cosmo_files stem (dat_files xc) [] ;;
    if negb (same_vars dp ds) then Err EAssertion
    else if negb (same_vars dp dx) then Err EAssertion
    else rmapM (fun x => p <- file_of dp x ;; s <- file_of ds x ;; c <- file_of dx x ;; Ok (x, [("GCph", p); ("GCsp", s); ("XC", c)]%string)) (dkeys dp).

  (** The array of a spectrum as a value. *)
  Definition cl_value (A : cl_arr (F := F)) : pv F :=
    VArr (mkArr [length (c_ells A); fst (c_shape A); snd (c_shape A)]
      (flat_map (fun l => flat_map (fun i => map (fun j => Some (c_val A l i j)) (seq 0 (snd (c_shape A)))) (seq 0 (fst (c_shape A)))) (seq 0 (length (c_ells A))))).
  Definition ell_value (A : cl_arr (F := F)) : pv F := VArr (mkArr [length (c_ells A)] (map Some (c_ells A))).
  (** 128-140: the spectrum of a file and its number of multipoles; it has no kernel. *)
  Definition one_spectrum (kf : string * sc_file) : res (nat * (string * spectrum F)) :=
    pp <- find probe_map (fst kf) ;;
    A <- read_cl (sc_lines (snd kf)) (sc_data (snd kf)) (String.eqb (fst pp) (snd pp)) ;;
    sh <- find shapes (fst kf) ;;
    if Nat.eqb (fst (c_shape A)) (fst sh) && Nat.eqb (snd (c_shape A)) (snd sh)
    then Ok (length (c_ells A), (comb_key (fst pp) (snd pp), mkSpectrum (fst pp) (snd pp) (cl_value A) (ell_value A) VNone None))
    else Err EAssertion.
  (** 126-145: [out] are the files made, by directory. *)
  Definition outputs := dict string (option (hfile F)).
  Fixpoint convert_cls (meta : string * string) (l : dict (string * Z) (dict string sc_file)) (sizes : list nat) (out : outputs) : outputs * res (list nat) :=
    match l with
    | [] => (out, Ok sizes)
    | (x, fs) :: l =>
        match rmapM one_spectrum fs with
        | Err e => (out, Err e)
        | Ok ss =>
            let cls := fold_left (fun d s => dset String.eqb d (fst (snd s)) (snd (snd s))) ss [] in
            let d := jobdir_name (fst x) (snd x) in
            if dmem String.eqb out d then (out, Err EFileExists)
            else
              let (h, r) := save_steps meta (spectra_steps (mkSpectra VNone cls [])) [] None in
              let out := dset String.eqb out d h in
              match r with
              | Err e => (out, Err e)
              | Ok _ => convert_cls meta l (sizes ++ map fst ss) out
              end
        end
    end.
  (** 118-147 convertSCameraDerivativesInput; join of numbers is a TypeError, of
      nothing the empty text. *)
  Definition convert_input (meta : string * string) (stem : dict Z Qc) (ph sp xc : list sc_file) : outputs * res unit :=
    match build_files stem ph sp xc with
    | Err e => ([], Err e)
    | Ok fd =>
        let (out, r) := convert_cls meta fd [] [] in
        (out, sizes <- r ;; match nodup Nat.eq_dec sizes with [_] => Ok tt | [] => Err EValueError | _ => Err ETypeError end)
    end.

  (** ** Derivatives *)
  (** 151 dCijGGd([a-zA-Z0-9]+).*-([a-zA-Z0-9]+)-Stef.dat at the start of a name: the
      first name is the longest, since a shorter one leaves only letters and figures
      more to skip; the second is the last one there is. *)
  Definition stef (s : string) : bool :=
    match strip_prefix "-Stef" s with Some (String c r) => negb (Ascii.eqb c newline) && starts "dat" r | _ => false end.
  Fixpoint last_var (s : string) : option string :=
    match s with
    | EmptyString => None
    | String a r =>
        match (if Ascii.eqb a newline then None else last_var r) with
        | Some x => Some x
        | None => if Ascii.eqb a "-" then let (x, t) := span is_alnum r in if nonempty x && stef t then Some x else None else None
        end
    end.
  Definition match_der (s : string) : option (string * string) :=
    match strip_prefix "dCijGGd" s with
    | None => None
    | Some r => let (n, t) := span is_alnum r in if nonempty n then option_map (pair n) (last_var t) else None
    end.
  (** 153-154: the glob pattern. *)
  Definition der_glob (n : string) : bool := match strip_prefix "dCijGGd" n with Some r => ends ".dat" r | None => false end.
  Definition derivatives := dict string (dict string (cl_arr (F := F))).
  Definition put_der (d : derivatives) (par key : string) (A : cl_arr (F := F)) : derivatives :=
    dset String.eqb d par (dset String.eqb (match dget String.eqb d par with Some e => e | None => [] end) key A).
  (** 157-175: one file of the directory [sub]. *)
  Definition read_der (acc : derivatives) (sub : string) (f : sc_file) : res derivatives :=
    match match_der (sc_name f) with
    | None => Err EException
    | Some (a, b) =>
        if negb (String.eqb a b) then Err EAssertion
        else
          pp <- find probe_map sub ;;
          par <- find ist_map a ;;
          A <- read_cl (sc_lines f) (sc_data f) (String.eqb (fst pp) (snd pp)) ;;
          Ok (put_der acc par (comb_key (fst pp) (snd pp)) A)
    end.
  Fixpoint read_ders (l : list (string * sc_file)) (acc : derivatives) : res derivatives :=
    match l with [] => Ok acc | sf :: l => a <- read_der acc (fst sf) (snd sf) ;; read_ders l a end.
  (** 149-177 readSCameraClDerivatives. *)
  Definition der_files (dirs : list (string * list sc_file)) : list (string * sc_file) :=
    flat_map (fun d => map (pair (fst d)) (filter (fun f => der_glob (sc_name f)) (snd d))) dirs.
  Definition read_derivatives (dirs : list (string * list sc_file)) : res derivatives := read_ders (der_files dirs) [].
End Scam.
Arguments sc_file : clear implicits.
Arguments derivatives : clear implicits.
