(** Model of seyfert/file_io/retro_comp.py: files written by earlier versions. *)
From Verif Require Import Base SortLib StrLib NameModel.
Open Scope nat_scope.
Open Scope string_scope.
Open Scope list_scope.

(** ** Versions *)
(** packaging.version.Version for the texts that the loader of runs takes from the
    names of directories (utils/run_loader.py:83-84): three digits and at most one
    lower case letter.  a, b and c are pre-releases, r is a post-release, the other
    letters are refused with an InvalidVersion, which is a ValueError.  Other texts
    are not modelled and refused too. *)
Definition digit_of (a : ascii) : option nat := let n := nat_of_ascii a in if Nat.leb 48 n && Nat.leb n 57 then Some (n - 48) else None.
Definition phase (s : string) : option nat :=
  match s with
  | "" => Some 3
  | String a "" => if Ascii.eqb a "a" then Some 0 else if Ascii.eqb a "b" then Some 1 else if Ascii.eqb a "c" then Some 2 else if Ascii.eqb a "r" then Some 4 else None
  | _ => None
  end.
Definition version (s : string) : res (list nat) :=
  match s with
  | String x (String d1 (String y (String d2 (String z r)))) =>
      if Ascii.eqb d1 "." && Ascii.eqb d2 "." then
        match digit_of x, digit_of y, digit_of z, phase r with
        | Some x, Some y, Some z, Some p => Ok [x; y; z; p]
        | _, _, _, _ => Err EValueError
        end
      else Err EValueError
  | _ => Err EValueError
  end.
Fixpoint before (v w : list nat) : bool :=
  match v, w with
  | a :: v, b :: w => Nat.ltb a b || (Nat.eqb a b && before v w)
  | [], _ :: _ => true
  | _, [] => false
  end.
Definition v110 : list nat := [1; 1; 0; 3].

Section Retro.
  (** The arrays of datasets and the numbers. *)
  Context {D F : Type}.
  Inductive attr := AF (x : F) | AB (b : bool) | AO (s : string).
  (** An HDF5 file: h5py lists the entries of a group by name, in the order given
      here. *)
  Inductive h5 := DS (d : D) | GRP (attrs : dict string attr) (ch : list (string * h5)).
  Fixpoint node (f : h5) (p : list string) : res h5 :=
    match p with
    | [] => Ok f
    | n :: p => match f with
                | GRP _ ch => match dget String.eqb ch n with Some g => node g p | None => Err EKeyError end
                | DS _ => Err EKeyError
                end
    end.
  (** group[path][()]: of a group a TypeError. *)
  Definition array (f : h5) (p : list string) : res D := g <- node f p ;; match g with DS d => Ok d | GRP _ _ => Err ETypeError end.
  Definition entries (f : h5) (p : list string) : res (list string) := g <- node f p ;; match g with GRP _ ch => Ok (dkeys ch) | DS _ => Err EAttributeError end.
  Definition top_array (f : h5) (n : string) : res (option D) :=
    match node f [n] with Ok (DS d) => Ok (Some d) | Ok (GRP _ _) => Err ETypeError | Err _ => Ok None end.

  (** ** Cosmologies *)
  Record pmm := mkPmm { pm_z : D; pm_k : D; pm_lin : D; pm_non : D; pm_transfer : option D }.
  Record par := mkPar { pa_name : string; pa_fid : F; pa_cur : F; pa_free : bool }.
  Record cosmo := mkCosmo { co_z : option D; co_hub : option D; co_dist : option D; co_growth : option D; co_pmm : option pmm; co_params : option (dict string par) }.
  (** 15-24: the file of a cosmology with a power spectrum.  The attribute of the grid
      must be there (h5py refuses None). *)
  Definition write_old (c : cosmo) : res h5 :=
    match co_pmm c, co_z c with
    | Some p, Some z =>
        Ok (GRP [] [("cosmology", GRP [] [("z_array", DS z)]);
                    ("power_spectrum", GRP [] [("k_array", DS (pm_k p)); ("p_mm_values", GRP [] [("lin_p_mm_z_k", DS (pm_lin p)); ("nonlin_p_mm_z_k", DS (pm_non p))])])])
    | None, _ => Err EAttributeError
    | _, None => Err ETypeError
    end.
  (** 27-57.  The growth factor is read and not used. *)
  Definition read_104 (f : h5) : res cosmo :=
    ez <- array f ["cosmology"; "dimensionless_hubble_parameter"] ;;
    rz <- array f ["cosmology"; "dimensionless_comoving_distance"] ;;
    z <- array f ["cosmology"; "z_array"] ;;
    k <- array f ["power_spectrum"; "k_array"] ;;
    lin <- array f ["power_spectrum"; "p_mm_values"; "lin_p_mm_z_k"] ;;
    non <- array f ["power_spectrum"; "p_mm_values"; "nonlin_p_mm_z_k"] ;;
    _ <- top_array f "growth_factor_z" ;;
    t <- top_array f "transfer_function" ;;
    Ok (mkCosmo (Some z) (Some ez) (Some rz) None (Some (mkPmm z k lin non t)) None).
  (** 60-79.  PhysicalParameter wants a float and a truth value (parameter.py:42-45). *)
  Definition attr_of (a : dict string attr) (k : string) : res attr := match dget String.eqb a k with Some v => Ok v | None => Err EKeyError end.
  Definition read_par (f : h5) (n : string) : res (string * par) :=
    g <- node f ["cosmology"; "cosmological_parameters"; n] ;;
    let a := match g with GRP a _ => a | DS _ => [] end in
    x <- attr_of a "fiducial" ;; b <- attr_of a "is_present" ;; c <- attr_of a "current" ;;
    x <- match x with AF x => Ok x | _ => Err ETypeError end ;;
    b <- match b with AB b => Ok b | _ => Err ETypeError end ;;
    c <- match c with AF c => Ok c | _ => Err ETypeError end ;;
    Ok (n, mkPar n x c b).
  Definition read_110 (f : h5) : res cosmo :=
    z <- array f ["cosmology"; "z_grid"] ;;
    ez <- array f ["cosmology"; "dimensionless_hubble_array"] ;;
    rz <- array f ["cosmology"; "dimensionless_comoving_distance_array"] ;;
    ns <- entries f ["cosmology"; "cosmological_parameters"] ;;
    ps <- rmapM (read_par f) ns ;;
    Ok (mkCosmo (Some z) (Some ez) (Some rz) None None (Some ps)).
  (** 121-131; [load_new] is Cosmology.fromHDF5. *)
  Definition read_cosmo (load_new : h5 -> bool -> res cosmo) (f : h5) (v : string) (pmm : bool) : res cosmo :=
    v <- version v ;;
    if before v v110 then read_104 f
    else if before v110 v then load_new f pmm
    else read_110 f.

  (** ** Spectra *)
  Record wgt := mkWgt { wg_probe : string; wg_w : D; wg_dens : D }.
  Record spectrum := mkSp { sp_p1 : string; sp_p2 : string; sp_c : D; sp_l : D; sp_dl : D; sp_k : D; sp_w1 : wgt; sp_w2 : wgt }.
  Record coll := mkCo { co_grid : option D; co_cls : dict string spectrum }.
  (** 82-109.  [classes] are the probes with a class of weight functions. *)
  Context (classes : list string).
  Definition read_wgt (f : h5) (p : string) : res wgt :=
    _ <- (if smem p classes then Ok tt else Err EAttributeError) ;;
    w <- array f ["weight_functions"; p] ;; d <- array f ["density_functions"; p; "norm_density_i_z"] ;; Ok (mkWgt p w d).
  Definition read_cl (f : h5) (key : string) : res (string * spectrum) :=
    match split_char "_" key with
    | [p1; p2] =>
        c <- array f ["cls"; key; "c_lij"] ;; l <- array f ["cls"; key; "l_bin_centers"] ;; dl <- array f ["cls"; key; "l_bin_widths"] ;;
        k <- array f ["kernels"; key; "k_ijz"] ;;
        w1 <- read_wgt f p1 ;; w2 <- read_wgt f p2 ;;
        Ok (key, mkSp p1 p2 c l dl k w1 w2)
    | _ => Err EValueError
    end.
  Definition read_cls_104 (f : h5) : res coll :=
    _ <- node f ["density_functions"] ;; _ <- node f ["weight_functions"] ;; _ <- node f ["kernels"] ;;
    ks <- entries f ["cls"] ;;
    l <- rmapM (read_cl f) ks ;;
    Ok (mkCo None (fold_left (fun d kv => dset String.eqb d (fst kv) (snd kv)) l [])).
  (** 112-118. *)
  Definition read_cls (load_new : h5 -> res coll) (f : h5) (v : string) : res coll :=
    v <- version v ;; if before v v110 then read_cls_104 f else load_new f.
  (** 134-145. *)
  Definition read_dcl (f : h5) : res (dict string D) :=
    match f with
    | GRP _ ch => rmapM (fun kv => d <- match snd kv with DS d => Ok d | g => array g ["dc_lij"] end ;; Ok (fst kv, d)) ch
    | DS _ => Err EOSError
    end.
  (** utils/run_loader.py:126-130: the grid of the run after the spectra of one more
      directory. *)
  Definition run_grid (g : option D) (c : coll) : option D := match g with Some z => Some z | None => co_grid c end.
End Retro.
Arguments attr : clear implicits.
Arguments h5 : clear implicits.
Arguments cosmo : clear implicits.
Arguments pmm : clear implicits.
Arguments par : clear implicits.
Arguments coll : clear implicits.
Arguments spectrum : clear implicits.
Arguments wgt : clear implicits.
