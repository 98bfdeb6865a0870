(** Model of the files of cosmologies: seyfert/cosmology/cosmology.py:58-74, 186-199
    and 356-446 (Cosmology, H5Cosmology) over H5Model, and of
    seyfert/main/cl_core.py:21-39 (load_cosmology).

    Simplifications: those of H5Model; the name of a cosmology is neither saved
    nor compared and is left out, as are the transfer function and the other
    private attributes.  [round10] is round(x, 10).  What a
    failing load leaves in the object it loads into is left out. *)
From Verif Require Import Base SortLib StrLib FrameModel FsModel ParamModel ParamFileModel KeyModel NameModel H5Model.
Open Scope list_scope.

Section CosmoFile.
  Context {F : Type} {K : Fld F} {O : OFld (F := F)}.
  Variable round10 : F -> F.

  (** 58-70; is_flat and model_name are not checked by the constructor. *)
  Record cosmology := mkCosmology {
    k_params : option (@pdict F); k_flat : pv F; k_model : pv F;
    k_z : pv F; k_E : pv F; k_r : pv F; k_D : pv F; k_power : option (obj F) }.

  (** 186-199 checkParameters, 120-125 OmK. *)
  Definition two : F := fadd fo fo.
  Definition ge1 (x : F) : bool := fleb fo x.
  Definition abs_ge2 (x : F) : bool := fleb two x || fleb x (fopp two).
  Definition current_of (d : @pdict F) (n : string) : res F :=
    match dget String.eqb d n with Some p => Ok (current p) | None => Err EKeyError end.
  Definition check_parameters (d : @pdict F) (flat : bool) : res unit :=
    _ <- match dget String.eqb d "w0" with
         | Some p => if ge1 (fiducial p) || ge1 (current p) then Err EDomain else Ok tt
         | None => Ok tt end ;;
    _ <- match dget String.eqb d "wa" with
         | Some p => if abs_ge2 (fiducial p) || abs_ge2 (current p) then Err EDomain else Ok tt
         | None => Ok tt end ;;
    if flat then
      m <- current_of d "Omm" ;; l <- current_of d "OmDE" ;;
      if fdec (round10 (fsub fo (fadd m l))) fz then Ok tt else Err EDomain
    else Ok tt.

  (** ** Writing *)
  (** parameter.py:74-88 as attributes of a group. *)
  Definition pv_of (j : json F) : pv F :=
    match j with JBool b => VBool b | JNum x => VNum x | JStr s => VStr s | _ => VNone end.
  Definition group (r : path) : path := r ++ ["cosmology"%string].
  Definition params_group (r : path) : path := group r ++ ["cosmological_parameters"%string].
  Definition param_ops (q : path) (p : param F) : list (op F) := OGroup q :: map (fun kj => OAttr q (fst kj) (pv_of (snd kj))) (to_dict p).
  (** 417-442. *)
  Definition cosmo_ops (c : cosmology) (r : path) : list (op F) :=
    let g := group r in
    [OGroup g; OAttr g "is_flat" (k_flat c); OAttr g "cosmological_model" (k_model c); OData (g ++ ["z_grid"%string]) (k_z c)] ++
    data_if (g ++ ["dimensionless_hubble_array"%string]) (k_E c) ++
    data_if (g ++ ["dimensionless_comoving_distance_array"%string]) (k_r c) ++
    data_if (g ++ ["growth_factor_z"%string]) (k_D c) ++
    match k_params c with
    | None => []
    | Some d => OGroup (params_group r) :: flat_map (fun np => param_ops (params_group r ++ [fst np]) (snd np)) d
    end.
  (** 365-370 saveToHDF5: two objects saved one after the other at the same place. *)
  Definition save_cosmology (meta meta' : string * string) (with_power : bool) (c : cosmology) (r : path) (st : option (hfile F)) : option (hfile F) * res unit :=
    match save meta (cosmo_ops c) r st with
    | (st1, Ok _) =>
        match k_power c with
        | Some p => if with_power then save meta' (power_ops p) r st1 else (st1, Ok tt)
        | None => (st1, Ok tt)
        end
    | (st1, Err e) => (st1, Err e)
    end.

  (** ** Reading *)
  Definition json_of (a : attr F) : json F := match a with AStr s => JStr s | ABool b => JBool b | ANum x => JNum x end.
  (** The attributes of a group; a dataset has none here. *)
  Definition attrs_of (h : hfile F) (p : path) : list (string * json F) :=
    match hget h p with Some (EG d) => map (fun na => (fst na, json_of (snd na))) d | _ => [] end.
  (** 398-403 readBuildingData. *)
  Definition read_params (h : hfile F) (r : path) : res (@pdict F) :=
    match hget h (params_group r) with
    | Some (EG _) =>
        fold_left (fun (acc : res (@pdict F)) n => d <- acc ;; p <- from_dict (attrs_of h (params_group r ++ [n])) ;; Ok (dset String.eqb d n p))
          (children h (params_group r)) (Ok [])
    | Some (ED _) => Err EAttributeError
    | None => Err EKeyError
    end.
  Definition read_building (h : hfile F) (r : path) : res (pv F * pv F * @pdict F) :=
    f <- rd_attr h (group r) "is_flat" ;; m <- rd_attr h (group r) "cosmological_model" ;; d <- read_params h r ;; Ok (f, m, d).
  Definition array_names : list string :=
    ["z_grid"; "dimensionless_hubble_array"; "dimensionless_comoving_distance_array"; "growth_factor_z"]%string.
  (** hdf5_io.py:137-141 populateObject on the arrays of a cosmology. *)
  Definition populated (h : hfile F) (r : path) (c : cosmology) : cosmology :=
    let o := populate h (group r) (combine array_names [k_z c; k_E c; k_r c; k_D c]) in
    mkCosmology (k_params c) (k_flat c) (k_model c) (getattr o "z_grid") (getattr o "dimensionless_hubble_array")
      (getattr o "dimensionless_comoving_distance_array") (getattr o "growth_factor_z") (k_power c).
  (** 405-415 writeToObject: what the object has already is kept. *)
  Definition filled (h : hfile F) (r : path) (c : cosmology) : res cosmology :=
    match hget h (group r) with
    | Some (EG _) =>
        let c := populated h r c in
        b <- read_building h r ;;
        let '(f, m, d) := b in
        Ok (mkCosmology (match k_params c with Some e => Some e | None => Some d end)
              (if is_none (k_flat c) then f else k_flat c) (if is_none (k_model c) then m else k_model c)
              (k_z c) (k_E c) (k_r c) (k_D c) (k_power c))
    | Some (ED _) => Err EAttributeError
    | None => Err EKeyError
    end.
  (** hdf5_io.py:112-118 and 356-363 fromHDF5. *)
  Definition cosmo_rd (h : hfile F) (r : path) : res cosmology :=
    b <- read_building h r ;;
    let '(f, m, d) := b in
    _ <- check_parameters d (truthy f) ;;
    filled h r (mkCosmology (Some d) f m VNone VNone VNone VNone None).
  Definition with_spectrum (c : cosmology) (p : option (obj F)) : cosmology :=
    mkCosmology (k_params c) (k_flat c) (k_model c) (k_z c) (k_E c) (k_r c) (k_D c) p.
  Definition load_cosmology (with_power : bool) (r : path) (st : option (hfile F)) : res cosmology :=
    c <- load cosmo_rd r st ;;
    if with_power then p <- load power_rd r st ;; Ok (with_spectrum c (Some p)) else Ok c.
  (** 372-382 loadFromHDF5; power_spectrum.py:107-111 fills the spectrum that is
      there.  An object without parameters in a file without them cannot get here. *)
  Definition power_into (o : obj F) (h : hfile F) (r : path) : res (obj F) :=
    let p := r ++ ["power_spectrum"%string] in
    match hget h p with
    | Some (EG _) =>
        let o := populate h p o in
        c <- rd_attr h p "boltzmann_code" ;;
        optional h (r ++ ["transfer_function"%string]) (setattr o "boltzmann_code" c) "transfer_function"
    | Some (ED _) => Err EAttributeError
    | None => Err EKeyError
    end.
  Definition load_into (with_power : bool) (c : cosmology) (r : path) (st : option (hfile F)) : res cosmology :=
    c <- load (fun h r => filled h r c) r st ;;
    _ <- match k_params c with Some d => check_parameters d (truthy (k_flat c)) | None => Err ETypeError end ;;
    if with_power then
      p <- match k_power c with Some o => load (power_into o) r st | None => load power_rd r st end ;;
      Ok (with_spectrum c (Some p))
    else Ok c.

  (** ** Comparison: 384-390 *)
  Definition pdict_eq (d e : @pdict F) : bool :=
    Nat.eqb (length d) (length e) && forallb (fun kv => match dget String.eqb e (fst kv) with Some q => par_eq (snd kv) q | None => false end) d.
  Definition cosmo_eq (a b : cosmology) : res bool :=
    let p := match k_params a, k_params b with None, None => true | Some d, Some e => pdict_eq d e | _, _ => false end in
    m <- veq (k_model a) (k_model b) ;; f <- veq (k_flat a) (k_flat b) ;;
    s <- match k_power a, k_power b with
         | None, None => Ok true
         | Some x, Some y => power_eq x y
         | _, _ => Err EAttributeError
         end ;;
    Ok (p && m && f && s).

  (** ** cl_core.py:21-39: [file] gives the content of the power spectrum file of
      a variation.  The second component is the list of parameters an error is
      logged for; [None] if nothing is logged. *)
  Definition used_variation (pars : coll F) (dvar : string) (step : Z) : res (string * Z) :=
    if String.eqb dvar "central" then Ok ("central"%string, 0%Z)
    else p <- match dget String.eqb (params pars) dvar with Some p => Ok p | None => Err EKeyError end ;;
         Ok (if is_cosmo p then (dvar, step) else ("central"%string, 0%Z)).
  Definition load_for (file : string -> option (hfile F)) (pars : coll F) (dvar : string) (step : Z) : res (cosmology * option (list string)) :=
    v <- used_variation pars dvar step ;;
    c <- load_cosmology true [] (file (jobdir_name (fst v) (snd v))) ;;
    let d := match k_params c with Some d => d | None => [] end in
    if pdict_eq d (cosmological pars) then Ok (c, None)
    else
      l <- rmapM (fun np =>
             if String.eqb (fst np) "gamma" then Ok []
             else match dget String.eqb (params pars) (fst np) with
                  | Some q => Ok (if par_eq (snd np) q then [] else [fst np])
                  | None => Err EKeyError
                  end) d ;;
      Ok (c, Some (concat l)).
End CosmoFile.
Arguments cosmology : clear implicits.
