(** Model of the HDF5 interface (seyfert/file_io/hdf5_io.py) and of the classes
    that save and load objects through it.

    An HDF5 file maps paths to groups (with attributes) and datasets.  The state
    of the path of a file is [None] when nothing is there.  Simplifications: the
    directory of the file exists and the path is no directory; member names do
    not contain "/"; soft links are not used (no caller asks for them); numbers
    are not distinguished by type (int, np.int64, float); arrays of different
    shapes count as different when compared.  requirements.txt pins h5py 2.10. *)
From Verif Require Import Base SortLib StrLib FrameModel FsModel ParamModel ParamFileModel KeyModel.
Open Scope list_scope.

(** ** Values *)
Section H5.
  Context {F : Type} {K : Fld F}.
  (** Arrays: [None] is NaN. *)
  Record arr := mkArr { shape : list nat; items : list (option F) }.
  Inductive attr := AStr (s : string) | ABool (b : bool) | ANum (x : F).
  Inductive data := HStr (s : string) | HBool (b : bool) | HNum (x : F) | HArr (a : arr).
  (** Attribute values of Python objects.  VRef is an instance of one of the
      classes that compare by attribute access. *)
  Inductive pv := VNone | VBool (b : bool) | VNum (x : F) | VStr (s : string) | VArr (a : arr) | VNums (d : dict string F) | VRef (n : nat).
  Definition obj := dict string pv.
  Definition getattr (o : obj) (n : string) : pv := match dget String.eqb o n with Some v => v | None => VNone end.
  Definition setattr (o : obj) (n : string) (v : pv) : obj := dset String.eqb o n v.
  Definition truthy (v : pv) : bool :=
    match v with
    | VNone => false | VBool b => b | VNum x => if fdec x fz then false else true | VStr s => negb (String.eqb s "")
    | VArr _ | VRef _ => true | VNums d => negb (Nat.eqb (length d) 0)
    end.
  Definition is_none (v : pv) : bool := match v with VNone => true | _ => false end.

  (** ** Comparison: general_utils.py:138-160 *)
  Definition xeq (a b : option F) : bool := match a, b with Some x, Some y => if fdec x y then true else false | _, _ => false end.
  Definition arr_eq (a b : arr) : bool :=
    (if list_eq_dec Nat.eq_dec (shape a) (shape b) then true else false) &&
    Nat.eqb (length (items a)) (length (items b)) && forallb (fun xy => xeq (fst xy) (snd xy)) (combine (items a) (items b)).
  Definition b2f (b : bool) : F := if b then fo else fz.
  Definition nums_eq (d e : dict string F) : bool :=
    Nat.eqb (length d) (length e) && forallb (fun kv => match dget String.eqb e (fst kv) with Some y => if fdec (snd kv) y then true else false | None => false end) d.
  (** np.all(v == w); an array against anything that is no array is compared
      element by element. *)
  Definition arr_scalar (a : arr) (x : option F) : bool := forallb (fun y => xeq y x) (items a).
  Definition veq (v w : pv) : res bool :=
    match v, w with
    | VRef n, VRef m => Ok (Nat.eqb n m)
    | VRef _, _ | _, VRef _ => Err EAttributeError
    | VArr a, VArr b => Ok (arr_eq a b)
    | VArr a, VNum x | VNum x, VArr a => Ok (arr_scalar a (Some x))
    | VArr a, VBool b | VBool b, VArr a => Ok (arr_scalar a (Some (b2f b)))
    | VArr a, _ | _, VArr a => Ok (arr_scalar a None)
    | VNone, VNone => Ok true
    | VBool a, VBool b => Ok (Bool.eqb a b)
    | VNum x, VNum y => Ok (xeq (Some x) (Some y))
    | VNum x, VBool b | VBool b, VNum x => Ok (xeq (Some x) (Some (b2f b)))
    | VStr s, VStr t => Ok (String.eqb s t)
    | VNums d, VNums e => Ok (nums_eq d e)
    | _, _ => Ok false
    end.
  Definition all_ok (l : list bool) : bool := forallb (fun b => b) l.
  Definition compare_objects (o1 o2 : obj) (excluded : list string) : res bool :=
    conds <- rmapM (fun kv => match dget String.eqb o2 (fst kv) with Some w => veq (snd kv) w | None => Err EAttributeError end)
               (filter (fun kv => negb (smem (fst kv) excluded)) o1) ;;
    Ok (all_ok conds).
  (** all([np.all(self.x == other.x), ...]) *)
  Definition compare_attrs (names : list string) (o1 o2 : obj) : res bool :=
    conds <- rmapM (fun n => veq (getattr o1 n) (getattr o2 n)) names ;; Ok (all_ok conds).

  (** ** Files *)
  Inductive entry := EG (attrs : dict string attr) | ED (v : data).
  Definition hfile := dict path entry.
  Definition hget (h : hfile) (p : path) : option entry := dget sl_eqb h p.
  Definition hset (h : hfile) (p : path) (e : entry) : hfile := dset sl_eqb h p e.
  (** 191-199: what can become a dataset; what h5py takes as an attribute. *)
  Definition to_data (v : pv) : res data :=
    match v with VBool b => Ok (HBool b) | VNum x => Ok (HNum x) | VStr s => Ok (HStr s) | VArr a => Ok (HArr a) | _ => Err ETypeError end.
  Definition of_data (d : data) : pv := match d with HBool b => VBool b | HNum x => VNum x | HStr s => VStr s | HArr a => VArr a end.
  Definition to_attr (v : pv) : res attr :=
    match v with VBool b => Ok (ABool b) | VNum x => Ok (ANum x) | VStr s => Ok (AStr s) | _ => Err ETypeError end.
  Definition of_attr (a : attr) : pv := match a with ABool b => VBool b | ANum x => VNum x | AStr s => VStr s end.

  (** Creating the groups of a path that are missing; h5py does it for every
      new member. *)
  Fixpoint ensure (h : hfile) (done todo : path) : hfile * res unit :=
    match todo with
    | [] => (h, Ok tt)
    | a :: rest =>
        let p := done ++ [a] in
        match hget h p with
        | Some (EG _) => ensure h p rest
        | Some (ED _) => (h, Err EValueError)
        | None => ensure (hset h p (EG [])) p rest
        end
    end.
  Inductive op := OOpen (p : path) | OGroup (p : path) | OData (p : path) (v : pv) | OAttr (p : path) (n : string) (v : pv) | OFail (e : exc).
  Definition set_attr (h : hfile) (p : path) (n : string) (a : attr) : hfile :=
    match hget h p with Some (EG d) => hset h p (EG (dset String.eqb d n a)) | _ => h end.
  Definition create (h : hfile) (p : path) (e : entry) (x : exc) : hfile * res unit :=
    match ensure h [] (removelast p) with
    | (h1, Ok _) => match hget h1 p with Some _ => (h1, Err x) | None => (hset h1 p e, Ok tt) end
    | (h1, Err y) => (h1, Err y)
    end.
  (** 95-102 (a nested file object), 155-168, 170-203; a member that is there
      already makes h5py raise. *)
  Definition run_op (o : op) (h : hfile) : hfile * res unit :=
    match o with
    | OOpen p => ensure h [] p
    | OGroup p => create h p (EG []) EValueError
    | OData p v => match to_data v with Ok d => create h p (ED d) ERuntime | Err e => (h, Err e) end
    | OAttr p n v => match hget h p, to_attr v with
                     | Some (EG _), Ok a => (set_attr h p n a, Ok tt)
                     | _, Err e => (h, Err e)
                     | _, _ => (h, Err EKeyError)
                     end
    | OFail e => (h, Err e)
    end.
  Fixpoint run_ops (l : list op) (h : hfile) : hfile * res unit :=
    match l with
    | [] => (h, Ok tt)
    | o :: rest => match run_op o h with (h1, Ok _) => run_ops rest h1 | (h1, Err e) => (h1, Err e) end
    end.

  (** 66-104 openFile for writing and 120-124 save; 83-93 metadata go to the
      root group of the file only.  [meta] is the environment: time and user. *)
  Definition metadata (meta : string * string) (new : bool) : list (string * string) :=
    if new then [("CreationDate", fst meta); ("LastUpdate", fst meta); ("Description", ""); ("Author", snd meta); ("CodeVersion", "1.3.8")]%string
    else [("LastUpdate"%string, fst meta)].
  Definition is_root (r : path) : bool := match r with [] => true | _ => false end.
  Definition open_ops (meta : string * string) (r : path) (new : bool) : list op :=
    OOpen r :: (if is_root r then map (fun kv => OAttr r (fst kv) (VStr (snd kv))) (metadata meta new) else []).
  Definition empty_file : hfile := [([], EG [])].
  Definition save (meta : string * string) (ops : path -> list op) (r : path) (st : option hfile) : option hfile * res unit :=
    let h := match st with Some h => h | None => empty_file end in
    let '(h', x) := run_ops (open_ops meta r (match st with Some _ => false | None => true end) ++ ops r) h in
    (Some h', x).

  (** 66-104 openFile for reading and 112-118 load. *)
  Definition open_read (r : path) (st : option hfile) : res hfile :=
    match st with
    | None => Err EOSError
    | Some h => match hget h r with Some (EG _) => Ok h | Some (ED _) => Err EAttributeError | None => Err EException end
    end.
  Definition load {A} (f : hfile -> path -> res A) (r : path) (st : option hfile) : res A := h <- open_read r st ;; f h r.
  Definition rd_data (h : hfile) (p : path) : res pv :=
    match hget h p with Some (ED d) => Ok (of_data d) | Some (EG _) => Err ETypeError | None => Err EKeyError end.
  Definition rd_attr (h : hfile) (p : path) (n : string) : res pv :=
    match hget h p with
    | Some (EG d) => match dget String.eqb d n with Some a => Ok (of_attr a) | None => Err EKeyError end
    | _ => Err EKeyError
    end.
  Definition present (h : hfile) (p : path) : bool := match hget h p with Some _ => true | None => false end.
  (** Members of a group, in alphabetical order. *)
  Fixpoint under (p q : path) : option path :=
    match p, q with
    | [], _ => Some q
    | a :: p, b :: q => if String.eqb a b then under p q else None
    | _, _ => None
    end.
  Definition children (h : hfile) (p : path) : list string :=
    ssort (flat_map (fun kv => match under p (fst kv) with Some [n] => [n] | _ => [] end) h).
  (** 137-141 populateObject. *)
  Definition populate (h : hfile) (p : path) (o : obj) : obj :=
    fold_left (fun o n => match hget h (p ++ [n]) with Some (ED d) => setattr o n (of_data d) | _ => o end) (children h p) o.
  (** {key: dset[()] for key, dset in group.items()}, for numbers. *)
  Definition rd_nums (h : hfile) (p : path) : res (dict string F) :=
    match hget h p with
    | Some (EG _) =>
        fold_left (fun (acc : res (dict string F)) n => d <- acc ;;
          match hget h (p ++ [n]) with Some (ED (HNum x)) => Ok (dset String.eqb d n x) | _ => Err ETypeError end)
        (children h p) (Ok [])
    | Some (ED _) => Err EAttributeError
    | None => Err EKeyError
    end.
  Definition optional (h : hfile) (p : path) (o : obj) (n : string) : res obj :=
    if present h p then v <- rd_data h p ;; Ok (setattr o n v) else Ok o.
  (** if value is not None: createDataset. *)
  Definition data_if (p : path) (v : pv) : list op := if is_none v then [] else [OData p v].
  Definition nums_ops (p : path) (v : pv) : list op :=
    match v with VNums d => map (fun kv => OData (p ++ [fst kv]) (VNum (snd kv))) d | _ => [OFail EAttributeError] end.
  Definition blank (names : list string) : obj := map (fun n => (n, VNone)) names.

  (** ** RedshiftDensity: cosmology/redshift_density.py:30-51, 201-237 *)
  Definition density_fields : list string :=
    ["probe"; "z_grid"; "norm_density_iz"; "input_z_domain"; "bin_norm_factors"; "dN_dOmega_bins"; "z_bin_edges"; "instrument_response";
     "good_fraction_params"; "catastrophic_fraction_params"; "has_niz_from_input"; "input_dN_dz_dOmega"; "dN_dz_dOmega_spline"; "n_iz_splines";
     "input_n_iz"; "input_file"; "catalog_f_sky"; "ready_to_evaluate"]%string.
  Definition new_density : obj :=
    setattr (setattr (setattr (setattr (blank density_fields) "instrument_response" (VNums [])) "good_fraction_params" (VNums []))
      "catastrophic_fraction_params" (VNums [])) "ready_to_evaluate" (VBool false).
  Definition density_excluded : list string :=
    ["dN_dz_dOmega_spline"; "input_file"; "ready_to_evaluate"; "bin_norm_factors"; "n_iz_splines"; "good_fraction_params";
     "catastrophic_fraction_params"]%string.
  Definition density_eq (o1 o2 : obj) : res bool := compare_objects o1 o2 density_excluded.
  Definition density_ops (o : obj) (r : path) : list op :=
    let g := getattr o in
    let d n := OData (r ++ [n]) (g n) in
    [OAttr r "probe" (g "probe"); d "has_niz_from_input"; d "input_z_domain"; d "z_bin_edges"; d "catalog_f_sky"]%string ++
    data_if (r ++ ["dN_dOmega_bins"%string]) (g "dN_dOmega_bins"%string) ++
    (if truthy (g "has_niz_from_input"%string) then [d "input_n_iz"%string]
     else [d "input_dN_dz_dOmega"%string; OGroup (r ++ ["instrument_response"%string])] ++
          nums_ops (r ++ ["instrument_response"%string]) (g "instrument_response"%string)) ++
    data_if (r ++ ["z_grid"%string]) (g "z_grid"%string) ++ data_if (r ++ ["norm_density_iz"%string]) (g "norm_density_iz"%string).
  Definition density_rd (h : hfile) (r : path) : res obj :=
    p <- rd_attr h r "probe" ;;
    let o := populate h r (setattr new_density "probe" p) in
    if truthy (getattr o "has_niz_from_input") then Ok o
    else d <- rd_nums h (r ++ ["instrument_response"%string]) ;; Ok (setattr o "instrument_response" (VNums d)).
  (** 240-253 save_densities_to_file, load_densities_from_file. *)
  Fixpoint save_densities (meta : string * string) (l : dict string obj) (st : option hfile) : option hfile * res unit :=
    match l with
    | [] => (st, Ok tt)
    | (n, o) :: rest =>
        match save meta (density_ops o) [n] st with
        | (st1, Ok _) => save_densities meta rest st1
        | (st1, Err e) => (st1, Err e)
        end
    end.
  Definition load_densities (st : option hfile) : res (dict string obj) :=
    match st with
    | None => Err EOSError
    | Some h => rmapM (fun n => o <- load density_rd [n] st ;; Ok (n, o)) (children h [])
    end.

  (** ** Bias: cosmology/bias.py:49-58, 115-156 *)
  Definition bias_fields : list string :=
    ["probe"; "nuisance_parameters"; "additional_parameters"; "z_grid"; "b_i_z"; "model"; "model_name"; "z_bin_edges"]%string.
  Definition new_bias : obj := blank bias_fields.
  Definition bias_eq (o1 o2 : obj) : res bool := compare_objects o1 o2 ["model"%string].
  Definition bias_ops (o : obj) (r : path) : list op :=
    let g := getattr o in
    let m := r ++ ["bias_model"%string] in
    data_if (r ++ ["z_bin_edges"%string]) (g "z_bin_edges"%string) ++
    [OAttr r "probe" (g "probe"); OGroup m; OAttr m "model_name" (g "model_name")]%string ++ [OGroup (m ++ ["additional_parameters"%string])] ++
    nums_ops (m ++ ["additional_parameters"%string]) (g "additional_parameters"%string) ++
    [OGroup (m ++ ["nuisance_parameters"%string])] ++
    nums_ops (m ++ ["nuisance_parameters"%string]) (g "nuisance_parameters"%string) ++
    data_if (r ++ ["z_grid"%string]) (g "z_grid"%string) ++ data_if (r ++ ["b_i_z"%string]) (g "b_i_z"%string).
  Definition bias_rd (h : hfile) (r : path) : res obj :=
    let m := r ++ ["bias_model"%string] in
    p <- rd_attr h r "probe" ;; n <- rd_attr h m "model_name" ;;
    o <- optional h (r ++ ["z_bin_edges"%string]) (setattr (setattr new_bias "probe" p) "model_name" n) "z_bin_edges" ;;
    a <- rd_nums h (m ++ ["additional_parameters"%string]) ;;
    u <- rd_nums h (m ++ ["nuisance_parameters"%string]) ;;
    let o := setattr (setattr o "additional_parameters" (VNums a)) "nuisance_parameters" (VNums u) in
    match rd_data h (r ++ ["z_grid"%string]) with
    | Ok z => optional h (r ++ ["b_i_z"%string]) (setattr o "z_grid" z) "b_i_z"
    | Err EKeyError => Ok o
    | Err e => Err e
    end.

  (** ** KernelFunction: cosmology/kernel_functions.py:22-46, 91-107 *)
  Definition kernel_fields : list string := ["probe1"; "probe2"; "weight1"; "weight2"; "cosmology"; "k_ijz"; "z_grid"]%string.
  Definition new_kernel : obj := blank kernel_fields.
  Definition kernel_eq (o1 o2 : obj) : res bool := compare_objects o1 o2 [].
  Definition kernel_ops (o : obj) (r : path) : list op :=
    let g := getattr o in
    let d n := OData (r ++ [n]) (g n) in
    [OAttr r "probe1" (g "probe1"); OAttr r "probe2" (g "probe2"); d "z_grid"; d "k_ijz"]%string.
  Definition kernel_rd (h : hfile) (r : path) : res obj :=
    p <- rd_attr h r "probe1" ;; q <- rd_attr h r "probe2" ;;
    z <- rd_data h (r ++ ["z_grid"%string]) ;; k <- rd_data h (r ++ ["k_ijz"%string]) ;;
    Ok (setattr (setattr (setattr (setattr new_kernel "probe1" p) "probe2" q) "z_grid" z) "k_ijz" k).

  (** ** PowerSpectrum: cosmology/power_spectrum.py:42-63, 113-142 *)
  Definition power_fields : list string :=
    ["cosmological_parameters"; "power_spectrum_config"; "boltzmann_code"; "boltzmann_solver"; "k_grid"; "z_grid"; "lin_p_mm_z_k";
     "nonlin_p_mm_z_k"; "transfer_function"]%string.
  Definition new_power : obj := setattr (blank power_fields) "boltzmann_code" (VStr "CLASS").
  Definition power_eq : obj -> obj -> res bool := compare_attrs ["z_grid"; "k_grid"; "lin_p_mm_z_k"; "nonlin_p_mm_z_k"; "transfer_function"]%string.
  Definition power_ops (o : obj) (r : path) : list op :=
    let g := getattr o in
    let p := r ++ ["power_spectrum"%string] in
    [OGroup p; OAttr p "boltzmann_code" (g "boltzmann_code")]%string ++
    map (fun n => OData (p ++ [n]) (g n)) ["z_grid"; "k_grid"; "lin_p_mm_z_k"; "nonlin_p_mm_z_k"]%string ++
    data_if (r ++ ["transfer_function"%string]) (g "transfer_function"%string).
  Definition power_rd (h : hfile) (r : path) : res obj :=
    let p := r ++ ["power_spectrum"%string] in
    match hget h p with
    | Some (EG _) =>
        let o := populate h p new_power in
        c <- rd_attr h p "boltzmann_code" ;;
        optional h (r ++ ["transfer_function"%string]) (setattr o "boltzmann_code" c) "transfer_function"
    | Some (ED _) => Err EAttributeError
    | None => Err EKeyError
    end.

  (** ** WeightFunction: cosmology/weight_functions.py:33-50, 95-124, 295-359.
      The probe is that of the class. *)
  Record weight := mkWeight { w_probe : string; w_z : pv; w_bin : pv; w_density : option obj; w_bias : option obj }.
  Definition weight_classes : list string := ["Lensing"; "Void"; "PhotometricGalaxy"; "SpectroscopicGalaxy"]%string.
  Definition with_bias (probe : string) : bool := negb (String.eqb probe "Lensing").
  Definition weight_eq (a b : weight) : res bool :=
    x <- veq (w_z a) (w_z b) ;; if x then veq (w_bin a) (w_bin b) else Ok false.
  Definition nested (r : path) (f : obj -> path -> list op) (o : option obj) : list op :=
    match o with Some x => OOpen r :: f x r | None => [] end.
  Definition weight_ops (w : weight) (r : path) : list op :=
    [OAttr r "probe" (VStr (w_probe w))] ++
    data_if (r ++ ["z_grid"%string]) (w_z w) ++ data_if (r ++ ["w_bin_z"%string]) (w_bin w) ++
    nested (r ++ ["density"%string]) density_ops (w_density w) ++
    (if with_bias (w_probe w) then nested (r ++ ["bias"%string]) bias_ops (w_bias w) else []).
  Definition sub {A} (h : hfile) (r : path) (f : hfile -> path -> res A) : res (option A) :=
    if present h r then x <- load f r (Some h) ;; Ok (Some x) else Ok None.
  Definition weight_rd (h : hfile) (r : path) : res weight :=
    p <- rd_attr h r "probe" ;;
    match p with
    | VStr p =>
        if negb (smem p weight_classes) then Err EAttributeError
        else
          zw <- match rd_data h (r ++ ["z_grid"%string]) with
                | Ok z => match rd_data h (r ++ ["w_bin_z"%string]) with
                          | Ok w => Ok (z, w) | Err EKeyError => Ok (z, VNone) | Err e => Err e
                          end
                | Err EKeyError => Ok (VNone, VNone)
                | Err e => Err e
                end ;;
          d <- sub h (r ++ ["density"%string]) density_rd ;;
          b <- (if with_bias p then sub h (r ++ ["bias"%string]) bias_rd else Ok None) ;;
          Ok (mkWeight p (fst zw) (snd zw) d b)
    | _ => Err ETypeError
    end.
  (** 105-109 loadFromHDF5 passes the root where the mode is expected. *)
  Definition modes : list string := ["r"; "r+"; "w"; "w-"; "x"; "a"]%string.
  Definition weight_load_into (root : string) : res unit := if smem root modes then Ok tt else Err EValueError.

  (** ** DeltaCl: fisher/delta_cl.py:33-48, 76-82, 120-133, 250-292 *)
  Definition delta_fields : list string :=
    ["name"; "delta_c_lij"; "inv_delta_c_lij"; "c_lij"; "l_bin_centers"; "l_bin_widths"; "forecast_config"; "fisher_config"; "noise_lij";
     "probe_1"; "probe_2"]%string.
  Definition new_delta : obj := blank delta_fields.
  Definition delta_eq : obj -> obj -> res bool := compare_attrs ["delta_c_lij"; "noise_lij"; "l_bin_centers"; "l_bin_widths"]%string.
  Definition attr_if (p : path) (n : string) (v : pv) : list op := if is_none v then [] else [OAttr p n v].
  Definition delta_ops (o : obj) (r : path) : list op :=
    let g := getattr o in
    [OAttr r "name" (g "name"%string)] ++ attr_if r "probe_1" (g "probe_1"%string) ++ attr_if r "probe_2" (g "probe_2"%string) ++
    map (fun n => OData (r ++ [n]) (g n)) ["l_bin_centers"; "delta_c_lij"]%string ++
    flat_map (fun n => data_if (r ++ [n]) (g n)) ["inv_delta_c_lij"; "l_bin_widths"; "noise_lij"; "c_lij"]%string.
  Definition optional_attr (h : hfile) (r : path) (o : obj) (n : string) : obj :=
    match rd_attr h r n with Ok v => setattr o n v | Err _ => o end.
  Definition delta_rd (h : hfile) (r : path) : res obj :=
    n <- rd_attr h r "name" ;;
    d <- rd_data h (r ++ ["delta_c_lij"%string]) ;; l <- rd_data h (r ++ ["l_bin_centers"%string]) ;;
    let o := setattr (setattr (setattr new_delta "name" n) "delta_c_lij" d) "l_bin_centers" l in
    let o := optional_attr h r (optional_attr h r o "probe_1") "probe_2" in
    fold_left (fun (acc : res obj) n => o <- acc ;; optional h (r ++ [n]) o n) ["c_lij"; "noise_lij"; "l_bin_widths"; "inv_delta_c_lij"]%string (Ok o).

  (** ** DeltaClCollection: fisher/delta_cl.py:136-150, 233-247, 295-313; the
      comparison is that of base_structs/generic_dict.py:38-39 and does not look
      at the single blocks. *)
  Record deltas := mkDeltas { blocks : dict string obj; singles : dict string obj }.
  Definition dict_eqr {A} (eq : A -> A -> res bool) (d e : dict string A) : res bool :=
    if negb (Nat.eqb (length d) (length e)) then Ok false
    else
      (fix go l := match l with
                   | [] => Ok true
                   | (k, v) :: rest => match dget String.eqb e k with
                                       | Some w => b <- eq v w ;; if b then go rest else Ok false
                                       | None => Ok false
                                       end
                   end) d.
  Definition deltas_eq (a b : deltas) : res bool := dict_eqr delta_eq (blocks a) (blocks b).
  Definition members_ops {A} (r : path) (f : A -> path -> list op) (d : dict string A) : list op :=
    flat_map (fun kv => OOpen (r ++ [fst kv]) :: f (snd kv) (r ++ [fst kv])) d.
  Definition deltas_ops (c : deltas) (r : path) : list op :=
    members_ops (r ++ ["delta_cls"%string]) delta_ops (blocks c) ++ members_ops (r ++ ["single_blocks"%string]) delta_ops (singles c).
  Definition members_rd {A} (h : hfile) (r : path) (f : hfile -> path -> res A) : res (dict string A) :=
    match hget h r with
    | Some (EG _) => rmapM (fun n => o <- load f (r ++ [n]) (Some h) ;; Ok (n, o)) (children h r)
    | Some (ED _) => Err EAttributeError
    | None => Err EKeyError
    end.
  Definition deltas_rd (h : hfile) (r : path) : res deltas :=
    b <- members_rd h (r ++ ["delta_cls"%string]) delta_rd ;; s <- members_rd h (r ++ ["single_blocks"%string]) delta_rd ;; Ok (mkDeltas b s).
End H5.
Arguments arr : clear implicits. Arguments attr : clear implicits. Arguments data : clear implicits. Arguments pv : clear implicits.
Arguments obj : clear implicits. Arguments entry : clear implicits. Arguments hfile : clear implicits. Arguments op : clear implicits.
Arguments weight : clear implicits. Arguments deltas : clear implicits.
