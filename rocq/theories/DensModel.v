(** Model of seyfert/cosmology/redshift_density.py (class RedshiftDensity
    without its files, which are in H5Model, and the photometric times
    spectroscopic shot noise) and of seyfert/main/cl_core.py:42-52.

    scipy's interpolation and quadrature, exp and the constants are parameters
    of the model (record [numerics]); what the theorems assume of them is in
    DensSpec.  numpy numbers that are not finite (nan, inf from a division by
    zero) are [None].  Redshifts are assumed different from -1: the division by
    1 + z is not checked.  Logging is left out. *)
From Verif Require Import Base SortLib ParamModel OrdLib EvalModel NumModel.
Open Scope string_scope.
Open Scope list_scope.

Section Dens.
  Context {F : Type} {K : Fld F} {O : OFld (F := F)}.
  Open Scope fld_scope.

  Record numerics := mkNum {
    spline : list F -> list F -> F -> F;     (* InterpolatedUnivariateSpline(x, y, ext='zeros', k=3) *)
    quad : (F -> F) -> F -> F -> F;          (* integrate.quad(f, a, b)[0] *)
    simps : list F -> list F -> F;           (* integrate.simps(x=x, y=y) *)
    nexp : F -> F; root2pi : F; npi : F      (* np.exp, np.sqrt(2 * np.pi), np.pi *)
  }.
  Context (N : numerics).

  (** The dictionaries good_fraction_params and catastrophic_fraction_params:
      empty, or with these four entries. *)
  Record params := mkPar { amplitude : F; z_mean : F; sigma : F; cscale : F }.
  (** 30-51; [input_file] and the attribute list of __eq__ are left out. *)
  Record density := mkDens {
    dprobe : string;
    dz_grid : option (list F);
    dniz : option (list (list (option F)));         (* norm_density_iz *)
    ddom : list F;                                  (* input_z_domain *)
    dnorms : option (list F);                       (* bin_norm_factors *)
    dbins : option (list F);                        (* dN_dOmega_bins *)
    dedges : list F;                                (* z_bin_edges *)
    dresp : dict string F;                          (* instrument_response *)
    dgood : option params; dcat : option params;
    dhas : bool;                                    (* has_niz_from_input *)
    dinput : option (list F);                       (* input_dN_dz_dOmega *)
    dspl : option (F -> F);                         (* dN_dz_dOmega_spline *)
    dnspl : option (list (F -> F));                 (* n_iz_splines *)
    diniz : option (list (list F));                 (* input_n_iz *)
    dfsky : F;                                      (* catalog_f_sky *)
    dready : bool                                   (* ready_to_evaluate *)
  }.
  Definition with_splines (d : density) s ns : density :=
    mkDens (dprobe d) (dz_grid d) (dniz d) (ddom d) (dnorms d) (dbins d) (dedges d) (dresp d) (dgood d) (dcat d) (dhas d) (dinput d) s ns (diniz d) (dfsky d) (dready d).
  Definition with_params (d : density) g c : density :=
    mkDens (dprobe d) (dz_grid d) (dniz d) (ddom d) (dnorms d) (dbins d) (dedges d) (dresp d) g c (dhas d) (dinput d) (dspl d) (dnspl d) (diniz d) (dfsky d) (dready d).
  Definition with_norms (d : density) n : density :=
    mkDens (dprobe d) (dz_grid d) (dniz d) (ddom d) n (dbins d) (dedges d) (dresp d) (dgood d) (dcat d) (dhas d) (dinput d) (dspl d) (dnspl d) (diniz d) (dfsky d) (dready d).
  Definition with_ready (d : density) b : density :=
    mkDens (dprobe d) (dz_grid d) (dniz d) (ddom d) (dnorms d) (dbins d) (dedges d) (dresp d) (dgood d) (dcat d) (dhas d) (dinput d) (dspl d) (dnspl d) (diniz d) (dfsky d) b.
  Definition with_bins (d : density) b : density :=
    mkDens (dprobe d) (dz_grid d) (dniz d) (ddom d) (dnorms d) b (dedges d) (dresp d) (dgood d) (dcat d) (dhas d) (dinput d) (dspl d) (dnspl d) (diniz d) (dfsky d) (dready d).
  Definition with_values (d : density) z v : density :=
    mkDens (dprobe d) z v (ddom d) (dnorms d) (dbins d) (dedges d) (dresp d) (dgood d) (dcat d) (dhas d) (dinput d) (dspl d) (dnspl d) (diniz d) (dfsky d) (dready d).

  Definition index {A} (l : list A) (i : nat) : res A := match nth_error l i with Some x => Ok x | None => Err EIndexError end.
  Definition attr {A} (o : option A) : res A := match o with Some x => Ok x | None => Err ETypeError end.
  (** 67-69 z_min, 71-73 z_max. *)
  Definition z_min (d : density) : res F := match ddom d with [] => Err EIndexError | x :: _ => Ok x end.
  Definition z_max (d : density) : res F := match ddom d with [] => Err EIndexError | x :: r => Ok (last r x) end.
  (** 75-81 z_bin_centers, n_bins (z_bin_edges is an array). *)
  Definition z_bin_centers (d : density) : list F :=
    map (fun p => (fst p + snd p) / fnat 2) (combine (removelast (dedges d)) (tl (dedges d))).
  Definition n_bins (d : density) : nat := length (z_bin_centers d).
  (** 83-85 shot_noise. *)
  Definition shot_noise (d : density) : res (list (option F)) :=
    b <- attr (dbins d) ;; Ok (map (fun x => if fdec x 0 then None else Some (1 / x)) b).

  (** The constructor of the spline: increasing abscissae, more than three, as
      many as the ordinates; its exceptions are not told apart. *)
  Fixpoint increasingb (l : list F) : bool :=
    match l with x :: ((y :: _) as r) => fltb x y && increasingb r | _ => true end.
  Definition make_spline (x y : list F) : res (F -> F) :=
    if increasingb x && (3 <? length x)%nat && Nat.eqb (length x) (length y) then Ok (spline N x y) else Err EValueError.
  (** 118-127 interpolateInput. *)
  Definition interpolate_input (d : density) : density * res unit :=
    if dhas d then
      match diniz d with
      | None => (d, Err EAttributeError)
      | Some rows => match rmapM (make_spline (ddom d)) rows with
                     | Ok ss => (with_splines d (dspl d) (Some ss), Ok tt)
                     | Err e => (d, Err e)
                     end
      end
    else
      match dinput d with
      | None => (d, Err ETypeError)
      | Some y => match make_spline (ddom d) y with
                  | Ok s => (with_splines d (Some s) (dnspl d), Ok tt)
                  | Err e => (d, Err e)
                  end
      end.

  (** 142-148 modifiedGaussianResponse. *)
  Definition gaussian_response (p : params) (z_p z : F) : F :=
    (amplitude p / (root2pi N * sigma p * (1 + z))) *
    nexp N (- (((z - cscale p * z_p - z_mean p) * (z - cscale p * z_p - z_mean p)) / (fnat 2 * ((sigma p * (1 + z)) * (sigma p * (1 + z)))))).
  (** 150-158 computeInstrumentResponse as a function of (z_p, z): without
      parameters numba cannot type the call (DensityError), a zero width makes
      it divide by zero. *)
  Definition instrument_response (d : density) : res (F -> F -> F) :=
    match dgood d, dcat d with
    | Some g, Some c =>
        if fdec (sigma g) 0 then Err EZeroDivision
        else if fdec (sigma c) 0 then Err EZeroDivision
        else Ok (fun z_p z => gaussian_response g z_p z + gaussian_response c z_p z)
    | _, _ => Err EDomain
    end.
  (** 160-173 convolvedNdzdOmegaWithInstrumentResponse at bin i, as a function
      of z (a float, or an array entry by entry). *)
  Definition convolved (d : density) (i : nat) : res (F -> F) :=
    if dhas d then Err EDomain
    else
      a <- index (dedges d) i ;; b <- index (dedges d) (i + 1) ;;
      r <- instrument_response d ;;
      s <- attr (dspl d) ;;
      Ok (fun z => quad N (fun z_p => r z_p z) a b * s z).
  (** 175-177 computeBinNormFactor. *)
  Definition norm_factor (d : density) (i : nat) : res F :=
    a <- z_min d ;; b <- z_max d ;; f <- convolved d i ;; Ok (quad N f a b).
  (** 179-180 evaluateBinNormFactors. *)
  Definition evaluate_norms (d : density) : density * res unit :=
    match rmapM (norm_factor d) (seq 0 (n_bins d)) with
    | Ok l => (with_norms d (Some l), Ok tt)
    | Err e => (d, Err e)
    end.
  Definition resp_params (d : density) (amp : F -> F) (zk sk ck : string) : res params :=
    f <- dget_str (dresp d) "f_out" ;; m <- dget_str (dresp d) zk ;; s <- dget_str (dresp d) sk ;; c <- dget_str (dresp d) ck ;;
    Ok (mkPar (amp f) m s c).
  (** 87-105 setUp. *)
  Definition set_up (d : density) : density * res unit :=
    match interpolate_input d with
    | (d1, Err e) => (d1, Err e)
    | (d1, Ok _) =>
        if dhas d1 then (with_ready d1 true, Ok tt)
        else
          match resp_params d1 (fun f => 1 - f) "z_b" "sigma_b" "c_b" with
          | Err e => (d1, Err e)
          | Ok g =>
              let d2 := with_params d1 (Some g) (dcat d1) in
              match resp_params d2 (fun f => f) "z_o" "sigma_o" "c_o" with
              | Err e => (d2, Err e)
              | Ok c =>
                  let d3 := with_params d2 (dgood d2) (Some c) in
                  match evaluate_norms d3 with
                  | (d4, Err e) => (d4, Err e)
                  | (d4, Ok _) => (with_ready d4 true, Ok tt)
                  end
              end
          end
    end.

  (** 182-193 computeNormalizedDensityAtBinAndRedshift at bin i, as a function
      of z. *)
  Definition normalized (d : density) (i : nat) : res (F -> option F) :=
    if dhas d then s <- attr (dnspl d) ;; f <- index s i ;; Ok (fun z => Some (f z))
    else
      f <- convolved d i ;; l <- attr (dnorms d) ;; n <- index l i ;;
      Ok (fun z => if fdec n 0 then None else Some (f z / n)).
  (** One row of 110-116: np.vectorize refuses an empty array. *)
  Definition density_row (d : density) (zs : list F) (i : nat) : res (list (option F)) :=
    f <- normalized d i ;;
    if negb (dhas d) && Nat.eqb (length zs) 0 then Err EValueError else Ok (map f zs).
  (** 110-116 evaluate: the rows are filled one after the other. *)
  Fixpoint fill_rows (d : density) (zs : list F) (n i : nat) : list (list (option F)) * res unit :=
    match n with
    | 0%nat => ([], Ok tt)
    | Datatypes.S m =>
        match density_row d zs i with
        | Err e => (repeat (map (fun _ => Some 0) zs) n, Err e)
        | Ok r => let (rows, e) := fill_rows d zs m (Datatypes.S i) in (r :: rows, e)
        end
    end.
  Definition evaluate (zs : list F) (d : density) : density * res unit :=
    if negb (dready d) then (d, Err EDomain)
    else
      let d1 := with_values d (Some zs) (dniz d) in
      let (rows, e) := fill_rows d1 zs (n_bins d1) 0 in
      (with_values d1 (Some zs) (Some rows), e).

  (** 195-200 computeSurfaceDensityAtBin. *)
  Definition surface_at (d : density) (i : nat) : res F :=
    if dhas d then b <- attr (dbins d) ;; index b i
    else
      a <- index (dedges d) i ;; b <- index (dedges d) (i + 1) ;; s <- attr (dspl d) ;;
      Ok (quad N s a b).
  (** 107-108 evaluateSurfaceDensity. *)
  Definition evaluate_surface (d : density) : density * res unit :=
    match rmapM (surface_at d) (seq 0 (n_bins d)) with
    | Ok l => (with_bins d (Some l), Ok tt)
    | Err e => (d, Err e)
    end.
  (** 129-140 computeTotalGalaxyNumber. *)
  Definition total_number (method : string) (d : density) : res F :=
    if negb (dready d) then Err EDomain
    else
      n <- (if String.eqb method "simps" then y <- attr (dinput d) ;; Ok (simps N (ddom d) y)
            else if String.eqb method "quad" then a <- z_min d ;; b <- z_max d ;; s <- attr (dspl d) ;; Ok (quad N s a b)
            else Err EKeyError) ;;
      Ok (n * fnat 4 * npi N * dfsky d).

  (** 271-284 compute_photoXspectro_shotnoise_ij; [None] is a number that is
      not finite.  The spectroscopic density gets a new spline. *)
  Definition phsp_cell (nph nsp : density) (i j : nat) : res (option F) :=
    a <- index (dedges nph) i ;; b <- index (dedges nph) (i + 1) ;; c <- index (dedges nsp) j ;; e <- index (dedges nsp) (j + 1) ;;
    o <- bins_overlap a b c e ;;
    match o with
    | None => Ok (Some 0)
    | Some (l, r) =>
        s <- attr (dspl nsp) ;;
        bp <- attr (dbins nph) ;; np <- index bp i ;; bs <- attr (dbins nsp) ;; ns <- index bs j ;;
        Ok (if fdec (np * ns) 0 then None else Some (quad N s l r / (np * ns)))
    end.
  Definition phsp_noise (nph nsp : density) : density * res (list (list (option F))) :=
    if negb (String.eqb (dprobe nph) "PhotometricGalaxy") then (nsp, Err EAssertion)
    else if negb (String.eqb (dprobe nsp) "SpectroscopicGalaxy") then (nsp, Err EAssertion)
    else
      match interpolate_input nsp with
      | (nsp1, Err e) => (nsp1, Err e)
      | (nsp1, Ok _) =>
          (nsp1, rmapM (fun i => rmapM (phsp_cell nph nsp1 i) (seq 0 (n_bins nsp1))) (seq 0 (n_bins nph)))
      end.

  (** 61-65 loadFromHDF5 into an existing object, 206-214 writeToObject; [n] is
      the density the file was written from (H5Model has the files): what the
      file does not hold stays as it is in the object. *)
  Definition orelse {A} (a b : option A) : option A := match a with Some x => Some x | None => b end.
  Definition load_into (n d : density) : density :=
    mkDens (dprobe n) (orelse (dz_grid n) (dz_grid d)) (orelse (dniz n) (dniz d)) (ddom n) (dnorms d) (orelse (dbins n) (dbins d)) (dedges n)
      (if dhas n then dresp d else dresp n) (dgood d) (dcat d) (dhas n) (if dhas n then dinput d else dinput n) (dspl d) (dnspl d)
      (if dhas n then diniz n else diniz d) (dfsky n) (dready d).

  (** cl_core.py:42-52 compute_densities; [init] are the densities as read from
      the files of the probes' configurations. *)
  Definition compute_density (zs : list F) (d : density) : res density :=
    match set_up d with
    | (_, Err e) => Err e
    | (d1, Ok _) =>
        match evaluate zs d1 with
        | (_, Err e) => Err e
        | (d2, Ok _) => match evaluate_surface d2 with (_, Err e) => Err e | (d3, Ok _) => Ok d3 end
        end
    end.
  Definition compute_densities (zs : list F) (init : dict string density) : res (dict string density) :=
    rmapM (fun pd : string * density => d <- compute_density zs (snd pd) ;; Ok (fst pd, d)) init.
End Dens.
Arguments numerics : clear implicits.
Arguments density : clear implicits.
Arguments params : clear implicits.
