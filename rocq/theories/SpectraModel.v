(** Model of the files of angular spectra: seyfert/cosmology/c_ells.py:62-84, 285-291,
    328-343 and 426-545 (AngularCoefficient, AngularCoefficientsCollector and their HDF5
    classes) over H5Model.

    Simplifications: those of H5Model; the two probes of a spectrum are texts;
    the other attributes (configurations, cosmology, Limber power spectrum) are
    neither saved nor loaded and are left out. *)
From Verif Require Import Base SortLib StrLib FrameModel FsModel KeyModel NameModel H5Model.
Open Scope list_scope.

Section Spectra.
  Context {F : Type} {K : Fld F}.

  (** 62-84: the kernel with its two weight functions. *)
  Record spectrum := mkSpectrum {
    s_p1 : string; s_p2 : string; s_cl : pv F; s_ells : pv F; s_widths : pv F;
    s_kernel : option (obj F * (option (weight F) * option (weight F))) }.
  (** 328-343. *)
  Record spectra := mkSpectra { cs_z : pv F; cs_cls : dict string spectrum; cs_weights : dict string (weight F) }.

  (** ** Writing *)
  (** Operations, and those done only if a group is not there yet. *)
  Inductive step := SOp (o : op F) | SOnce (p : path) (l : list (op F)).
  Fixpoint run_steps (l : list step) (h : hfile F) : hfile F * res unit :=
    match l with
    | [] => (h, Ok tt)
    | SOp o :: rest => match run_op o h with (h1, Ok _) => run_steps rest h1 | (h1, Err e) => (h1, Err e) end
    | SOnce p m :: rest =>
        if present h p then run_steps rest h
        else match run_ops m h with (h1, Ok _) => run_steps rest h1 | (h1, Err e) => (h1, Err e) end
    end.
  (** hdf5_io.py:120-124 with such steps. *)
  Definition save_steps (meta : string * string) (f : path -> list step) (r : path) (st : option (hfile F)) : option (hfile F) * res unit :=
    let h := match st with Some h => h | None => empty_file end in
    let '(h', x) := run_steps (map SOp (open_ops meta r (match st with Some _ => false | None => true end)) ++ f r) h in
    (Some h', x).

  Definition weight_place (r : path) (probe : string) : path := r ++ ["weight_functions"; probe]%string.
  Definition save_weight (w : weight F) (p : path) : list (op F) := OOpen p :: weight_ops w p.
  (** 474-493: the kernel below the spectrum, the weights at the top of the file;
      without a kernel obj.weight1 fails, without a second weight its probe. *)
  Definition spectrum_steps (s : spectrum) (r : path) : list step :=
    let g := r ++ [comb_key (s_p1 s) (s_p2 s)] in
    map SOp ([OData (g ++ ["c_lij"%string]) (s_cl s); OData (g ++ ["l_bin_centers"%string]) (s_ells s)] ++
             data_if (g ++ ["l_bin_widths"%string]) (s_widths s)) ++
    match s_kernel s with
    | None => [SOp (OFail EAttributeError)]
    | Some (k, ws) =>
        map SOp (OOpen (g ++ ["kernel"%string]) :: kernel_ops k (g ++ ["kernel"%string])) ++
        match ws with
        | (None, _) => []
        | (Some w1, w2) =>
            let q1 := weight_place [] (s_p1 s) in let q2 := weight_place [] (s_p2 s) in
            [SOnce q1 (save_weight w1 q1);
             SOnce q2 (match w2 with Some w2 => save_weight w2 q2 | None => [OOpen q2; OFail EAttributeError] end)]
        end
    end.
  (** 532-545. *)
  Definition spectra_steps (c : spectra) (r : path) : list step :=
    map SOp (data_if (r ++ ["z_grid"%string]) (cs_z c) ++ [OGroup (r ++ ["cls"%string])]) ++
    flat_map (fun ks => SOp (OOpen (r ++ ["cls"%string])) :: spectrum_steps (snd ks) (r ++ ["cls"%string])) (cs_cls c) ++
    map (fun pw => SOnce (weight_place r (fst pw)) (save_weight (snd pw) (weight_place r (fst pw)))) (cs_weights c).

  (** ** Reading *)
  (** hdf5_io.py:150-154 findGroup("weight_functions/" + probe): the groups of the
      file are visited in alphabetical order, a group before its members. *)
  Fixpoint path_leb (p q : path) : bool :=
    match p, q with
    | [], _ => true
    | _ :: _, [] => false
    | a :: p, b :: q => if String.eqb a b then path_leb p q else String.leb a b
    end.
  Fixpoint fits (probe : string) (p : path) : bool :=
    match p with
    | [] => false
    | a :: q => match q with
                | [b] => ends "weight_functions" a && String.eqb b probe
                | _ => fits probe q
                end
    end.
  Definition groups (h : hfile F) : list path := flat_map (fun kv => match snd kv with EG _ => [fst kv] | ED _ => [] end) h.
  (** Without a match the visit gives None, and None[0] raises. *)
  Definition find_weight (h : hfile F) (probe : string) : res path :=
    match filter (fits probe) (isort path_leb (groups h)) with p :: _ => Ok p | [] => Err ETypeError end.
  (** 447-472. *)
  Definition spectrum_rd (p1 p2 : string) (h : hfile F) (r : path) : res spectrum :=
    let g := r ++ [comb_key p1 p2] in
    c <- rd_data h (g ++ ["c_lij"%string]) ;; l <- rd_data h (g ++ ["l_bin_centers"%string]) ;;
    w <- (if present h (g ++ ["l_bin_widths"%string]) then rd_data h (g ++ ["l_bin_widths"%string]) else Ok VNone) ;;
    if present h (g ++ ["kernel"%string]) then
      k <- load kernel_rd (g ++ ["kernel"%string]) (Some h) ;;
      q1 <- find_weight h p1 ;; q2 <- find_weight h p2 ;;
      w1 <- load weight_rd q1 (Some h) ;; w2 <- load weight_rd q2 (Some h) ;;
      Ok (mkSpectrum p1 p2 c l w (Some (k, (Some w1, Some w2))))
    else Ok (mkSpectrum p1 p2 c l w None).
  (** 524-528: p1 not in obj.weight_dict. *)
  Definition note_weight (d : dict string (weight F)) (p : string) (w : res (weight F)) : res (dict string (weight F)) :=
    if dmem String.eqb d p then Ok d else x <- w ;; Ok (dset String.eqb d p x).
  Definition the_weight (s : spectrum) (second : bool) : res (weight F) :=
    match s_kernel s with
    | Some (_, (Some w1, Some w2)) => Ok (if second then w2 else w1)
    | _ => Err EAttributeError
    end.
  (** 501-530; the weights read first (508-513) are thrown away in 519. *)
  Definition spectra_rd (h : hfile F) (r : path) : res spectra :=
    z <- (if present h (r ++ ["z_grid"%string]) then rd_data h (r ++ ["z_grid"%string])
          else if present h (r ++ ["z_array"%string]) then rd_data h (r ++ ["z_array"%string]) else Ok VNone) ;;
    _ <- (if present h (r ++ ["weight_functions"%string])
          then rmapM (fun n => load weight_rd (weight_place r n) (Some h)) (children h (r ++ ["weight_functions"%string])) else Ok []) ;;
    match hget h (r ++ ["cls"%string]) with
    | Some (EG _) =>
        x <- fold_left (fun (acc : res (dict string spectrum * dict string (weight F))) n =>
               a <- acc ;;
               match comb_probes n with
               | [p1; p2] =>
                   s <- load (spectrum_rd p1 p2) (r ++ ["cls"%string]) (Some h) ;;
                   d <- note_weight (snd a) p1 (the_weight s false) ;;
                   d <- note_weight d p2 (the_weight s true) ;;
                   Ok (dset String.eqb (fst a) n s, d)
               | _ => Err EValueError
               end) (children h (r ++ ["cls"%string])) (Ok ([], [])) ;;
        Ok (mkSpectra z (fst x) (snd x))
    | _ => Err EKeyError
    end.

  (** ** Comparison: 285-291, 426-427 *)
  Definition spectrum_eq (a b : spectrum) : res bool :=
    x <- veq (s_cl a) (s_cl b) ;; y <- veq (s_ells a) (s_ells b) ;; z <- veq (s_widths a) (s_widths b) ;; Ok (x && y && z).
  Definition spectra_eq (a b : spectra) : res bool :=
    conds <- rmapM (fun ks => match dget String.eqb (cs_cls b) (fst ks) with Some t => spectrum_eq (snd ks) t | None => Err EKeyError end) (cs_cls a) ;;
    Ok (all_ok conds).
End Spectra.
Arguments spectrum : clear implicits. Arguments spectra : clear implicits. Arguments step : clear implicits.
