(** Model of the noisy spectra: seyfert/fisher/delta_cl.py (DeltaCl 33-118,
    DeltaClCollection 136-231), seyfert/fisher/fisher_utils.py:21-78 and the parts
    of seyfert/cosmology/redshift_density.py (84-86, 107-108, 129-140, 194-199)
    and weight_functions.py (35-39, 107-110, 127-131) they use; with
    main/cl_core.py:102-118 compute_delta_cls.

    Spectra are cubes (EvalModel).  Left out: logging; the state of the objects
    after an exception; NaN and infinities (a bin without galaxies).  The HDF5
    form of these objects is in H5Model. *)
From Verif Require Import Base SortLib StrLib MatInv LinalgModel FrameModel KeyModel ParamModel EvalModel NameModel.
Open Scope string_scope.

Section Delta.
  Context {F : Type} {K : Fld F} {O : OFld (F := F)} {SQ : SqrtFld F}.
  Open Scope fld_scope.

  (** ** Galaxy densities *)
  (** A density after setUp(): the integral of the interpolated dN/dz/dOmega
      between two redshifts (integrate.quad, taken as exact and as a function of
      its limits), and Simpson's rule on the input table (None when the input
      has no table because the binned densities were given instead). *)
  Record density := mkDens {
    dn_niz : bool; dn_edges : list F; dn_bins : option (list F);
    dn_quad : F -> F -> F; dn_simps : option F; dn_fsky : F }.
  (** 76-82 n_bins: one less than the edges. *)
  Definition n_bins (d : density) : nat := pred (length (dn_edges d)).
  (** 194-199 computeSurfaceDensityAtBin. *)
  Definition surface_at (d : density) (i : nat) : res F :=
    if dn_niz d then
      match dn_bins d with
      | None => Err ETypeError
      | Some l => match nth_error l i with Some x => Ok x | None => Err EIndexError end
      end
    else Ok (dn_quad d (nth i (dn_edges d) 0) (nth (Datatypes.S i) (dn_edges d) 0)).
  (** 107-108 evaluateSurfaceDensity. *)
  Definition surface (d : density) : res (list F) := rmapM (surface_at d) (seq 0 (n_bins d)).
  (** 129-140 computeTotalGalaxyNumber with its default method; [fourpi] is 4*np.pi. *)
  Definition total_number (fourpi : F) (d : density) : res F :=
    match dn_simps d with None => Err EIndexError | Some s => Ok (s * fourpi * dn_fsky d) end.

  (** weight_functions.py:35-39, 127-131, 296-306: the class for a probe and its
      shot_noise_factor, sigma_epsilon = 0.3 squared for lensing.  (The names of
      the abstract classes give TypeError in Python.) *)
  Definition fn (n : nat) : F := Nat.iter n (fadd 1) 0.
  Definition noise_factor (p : string) : res F :=
    if String.eqb p "Lensing" then Ok ((fn 3 / fn 10) * (fn 3 / fn 10))
    else if smem p ["PhotometricGalaxy"; "SpectroscopicGalaxy"; "Void"] then Ok 1
    else Err EAttributeError.

  (** The parts of ForecastConfig used: probe_configs with the density each one
      leads to, survey_f_sky, shot_noise_sp_reduced, shot_noise_file. *)
  Record fconf := mkFc { fc_probes : dict string density; fc_fsky : F; fc_reduced : bool; fc_fourpi : F }.

  (** ** numpy broadcasting of arrays of three dimensions *)
  Definition bdim (x y : nat) : res nat :=
    if Nat.eqb x y then Ok x else if Nat.eqb x 1 then Ok y else if Nat.eqb y 1 then Ok x else Err EValueError.
  Definition bix (n i : nat) : nat := if Nat.eqb n 1 then 0%nat else i.
  Definition cell (c : cube F) (t i j : nat) : F :=
    nth (bix (length (crows c)) t) (crows c) (fun _ _ => 0) (bix (cnr c) i) (bix (cnc c) j).
  Definition cop (f : F -> F -> F) (a b : cube F) : res (cube F) :=
    e <- bdim (length (crows a)) (length (crows b)) ;;
    r <- bdim (cnr a) (cnr b) ;;
    c <- bdim (cnc a) (cnc b) ;;
    Ok (mkCube r c (map (fun t i j => f (cell a t i j) (cell b t i j)) (seq 0 e))).
  (** np.repeat(m[np.newaxis, :, :], n, axis=0). *)
  Definition crepeat (r c n : nat) (m : nat -> nat -> F) : cube F := mkCube r c (repeat m n).

  (** ** DeltaCl *)
  Record block := mkBlock {
    b_name : string; b_p1 : option string; b_p2 : option string;
    b_c : option (cube F); b_ells : list F; b_widths : option (list F);
    b_noise : option (cube F); b_delta : option (cube F); b_inv : option (list (nat -> nat -> F)) }.
  Definition oseqb (a b : option string) : bool :=
    match a, b with Some x, Some y => String.eqb x y | None, None => true | _, _ => false end.
  (** 68-70. *)
  Definition is_auto_block (b : block) : bool :=
    match b_p1 b, b_p2 b with Some p, Some q => String.eqb p q | _, _ => false end.
  (** 84-105 computeNoise. *)
  Definition compute_noise (fc : fconf) (b : block) : res (cube F) :=
    match b_c b with
    | None => Err EAttributeError
    | Some c =>
        if negb (oseqb (b_p1 b) (b_p2 b)) then Ok (crepeat (cnr c) (cnc c) (length (crows c)) (fun _ _ => 0))
        else match b_p1 b with
             | None => Err EKeyError
             | Some p =>
                 d <- dget_str (fc_probes fc) p ;;
                 f <- noise_factor p ;;
                 s <- surface d ;;
                 let n := length s in
                 let m i j := if Nat.eqb i j then f * (1 / nth i s 0) else 0 in
                 if String.eqb p "SpectroscopicGalaxy" && fc_reduced fc then
                   dph <- dget_str (fc_probes fc) "PhotometricGalaxy" ;;
                   nph <- total_number (fc_fourpi fc) dph ;;
                   nsp <- total_number (fc_fourpi fc) d ;;
                   Ok (crepeat n n (length (crows c)) (fun i j => m i j * (nsp / nph)))
                 else Ok (crepeat n n (length (crows c)) m)
             end
    end.
  (** 107-118 evaluate. *)
  Definition b_set_noise (b : block) (n : cube F) : block :=
    mkBlock (b_name b) (b_p1 b) (b_p2 b) (b_c b) (b_ells b) (b_widths b) (Some n) (b_delta b) (b_inv b).
  Definition b_set_delta (b : block) (d : cube F) : block :=
    mkBlock (b_name b) (b_p1 b) (b_p2 b) (b_c b) (b_ells b) (b_widths b) (b_noise b) (Some d) (b_inv b).
  Definition b_set_inv (b : block) (i : list (nat -> nat -> F)) : block :=
    mkBlock (b_name b) (b_p1 b) (b_p2 b) (b_c b) (b_ells b) (b_widths b) (b_noise b) (b_delta b) (Some i).
  Definition norm_cube (f : F) (ws : list F) : cube F := mkCube 1 1 (map (fun w _ _ => fsqrt (1 / (w * f))) ws).
  Definition evaluate (fc : fconf) (f_sky : option F) (b : block) : res block :=
    b1 <- match b_noise b with Some _ => Ok b | None => n <- compute_noise fc b ;; Ok (b_set_noise b n) end ;;
    let f := match f_sky with Some x => x | None => fc_fsky fc end in
    match b_widths b1, b_c b1, b_noise b1 with
    | Some ws, Some c, Some n =>
        s <- cop fadd c n ;;
        d <- cop fmul (norm_cube f ws) s ;;
        let b2 := b_set_delta b1 d in
        if is_auto_block b2 then i <- cube_inv d ;; Ok (b_set_inv b2 i) else Ok b2
    | _, _, _ => Err ETypeError
    end.

  (** ** DeltaClCollection *)
  (** Blocks are objects: the same one may be a single block and an entry of the
      collection.  Both dictionaries hold references into [heap]. *)
  Record dcoll := mkColl { heap : list block; singles : dict string nat; entries : dict string nat }.
  Definition empty_coll : dcoll := mkColl [] [] [].
  Definition no_block : block := mkBlock "" None None None [] None None None None.
  Definition deref (cl : dcoll) (r : nat) : block := nth r (heap cl) no_block.
  Definition update_nth {A} (l : list A) (n : nat) (x : A) : list A := (firstn n l ++ x :: skipn (Datatypes.S n) l)%list.
  Definition store (cl : dcoll) (r : nat) (b : block) : dcoll := mkColl (update_nth (heap cl) r b) (singles cl) (entries cl).
  (** An AngularCoefficient. *)
  Record acl := mkAcl { a_p1 : string; a_p2 : string; a_c : cube F; a_ells : list F; a_widths : list F }.
  (** 50-66 fromCl, 177-183 loadFiducialCls. *)
  Definition from_cl (name : string) (c : acl) : block :=
    mkBlock name (Some (a_p1 c)) (Some (a_p2 c)) (Some (a_c c)) (a_ells c) (Some (a_widths c)) None None None.
  Definition load_cl (cl : dcoll) (kc : string * acl) : res dcoll :=
    match comb_probes (fst kc) with
    | [p1; p2] =>
        let name := if String.eqb p1 p2 then p1 else fst kc in
        Ok (mkColl (heap cl ++ [from_cl name (snd kc)]) (dset String.eqb (singles cl) (fst kc) (length (heap cl))) (entries cl))
    | _ => Err EValueError
    end.
  Definition load_fiducials (cls : dict string acl) (cl : dcoll) : res dcoll := rfold load_cl cls cl.

  (** A shot-noise file: one two-dimensional array per pair (None: no such file). *)
  Definition noise_file := dict string (nat * nat * (nat -> nat -> F)).
  (** 185-195 loadShotNoiseFromFile. *)
  Definition load_noise (file : option noise_file) (cl : dcoll) : res dcoll :=
    match file with
    | None => Err EOSError
    | Some nf =>
        rfold (fun cl (kr : string * nat) =>
                 m <- dget_str nf (fst kr) ;;
                 let '(r, c, v) := m in
                 let b := deref cl (snd kr) in
                 Ok (store cl (snd kr) (b_set_noise b (crepeat r c (length (b_ells b)) v)))) (singles cl) cl
    end.
  (** 197-204 writeShotNoiseToFile: mode "w" empties an existing file first. *)
  Definition write_noise (cl : dcoll) : res noise_file :=
    rmapM (fun kr : string * nat =>
             match b_noise (deref cl (snd kr)) with
             | None => Err ETypeError
             | Some n => match crows n with [] => Err EIndexError | m :: _ => Ok (fst kr, (cnr n, cnc n, m)) end
             end) (singles cl).
  (** 206-211 evaluateSingleBlocks. *)
  Definition evaluate_one (fc : fconf) (f_sky : option F) (cl : dcoll) (kr : string * nat) : res dcoll :=
    b <- evaluate fc f_sky (deref cl (snd kr)) ;;
    let cl1 := store cl (snd kr) b in
    Ok (if is_auto_block b then mkColl (heap cl1) (singles cl1) (dset String.eqb (entries cl1) (b_name b) (snd kr)) else cl1).
  Definition evaluate_singles (fc : fconf) (f_sky : option F) (cl : dcoll) : res dcoll :=
    rfold (evaluate_one fc f_sky) (singles cl) cl.

  (** ** Blocks of several probes: fisher_utils.py *)
  (** 56-62 get_probes_xc_fisher_name, 65-69 get_probes_from_fisher_name
      (list.remove takes away the first occurrence). *)
  Definition xc_name (probes : list string) : string :=
    match probes with [p] => p | _ => join "+" (probes ++ ["XC"]) end.
  Fixpoint remove_first (x : string) (l : list string) : list string :=
    match l with [] => [] | y :: l' => if String.eqb y x then l' else y :: remove_first x l' end.
  Definition probes_of_name (name : string) : list string :=
    let parts := split_char "+" name in
    if smem "XC" parts then remove_first "XC" parts else parts.
  (** 24-32: the stored orientation of each pair. *)
  Definition relevant (md : dict string (option (cube F))) (pq : string * string) : res string :=
    if dmem String.eqb md (comb_key (fst pq) (snd pq)) then Ok (comb_key (fst pq) (snd pq))
    else if dmem String.eqb md (comb_key (snd pq) (fst pq)) then Ok (comb_key (snd pq) (fst pq))
    else Err EKeyError.
  (** {key: d[key] for key in keys}. *)
  Definition subdict {V} (d : dict string V) (keys : list string) : res (dict string V) :=
    rfold (fun acc k => v <- dget_str d k ;; Ok (dset String.eqb acc k v)) keys [].
  (** 21-53 buildXCBlockMatrixForProbes.  A block that is still None makes the
      indexing fail. *)
  Definition xc_matrix (probes : list string) (md : dict string (option (cube F))) (ld : dict string (list F))
    : res (list F * cube F) :=
    rel <- rmapM (relevant md) (pairs2 probes) ;;
    sel <- subdict md rel ;;
    sel_l <- subdict ld rel ;;
    common <- arrays_intersection (map snd sel_l) ;;
    rows <- rmapM (fun p =>
              r <- rmapM (fun q =>
                     kb <- (if dmem String.eqb sel (comb_key p q)
                            then b <- dget_str sel (comb_key p q) ;; Ok (comb_key p q, b)
                            else b <- dget_str sel (comb_key q p) ;; Ok (comb_key q p, option_map ctransp b)) ;;
                     l <- dget_str ld (fst kb) ;;
                     match snd kb with None => Err ETypeError | Some b => cmask common l b end) probes ;;
              cat hcat2 r) probes ;;
    m <- cat vcat2 rows ;;
    Ok (common, m).

  (** itertools.combinations(l, 2). *)
  Fixpoint pairs_lt {A} (l : list A) : list (A * A) :=
    match l with [] => [] | x :: l' => map (pair x) l' ++ pairs_lt l' end.
  (** 33-48 the constructor inverts the matrix it is given. *)
  Definition new_block (name : string) (d : cube F) (ells : list F) : res block :=
    i <- cube_inv d ;; Ok (mkBlock name None None None ells None None (Some d) (Some i)).
  Definition add_xc (md : dict string (option (cube F))) (ld : dict string (list F)) (cl : dcoll) (probes : list string) : res dcoll :=
    em <- xc_matrix probes md ld ;;
    b <- new_block (xc_name probes) (snd em) (fst em) ;;
    Ok (mkColl (heap cl ++ [b]) (singles cl) (dset String.eqb (entries cl) (xc_name probes) (length (heap cl)))).
  (** 152-162 ell_dict, delta_c_lij_array_dict. *)
  Definition ell_arrays (cl : dcoll) : dict string (list F) := map (fun kr => (fst kr, b_ells (deref cl (snd kr)))) (singles cl).
  Definition delta_arrays (cl : dcoll) : dict string (option (cube F)) := map (fun kr => (fst kr, b_delta (deref cl (snd kr)))) (singles cl).
  (** The groups of probes 213-231 buildXCBlocks makes a matrix for. *)
  Definition xc_groups (probes : list string) : list (list string) :=
    if Nat.leb (length probes) 1 then []
    else probes :: (if Nat.ltb 2 (length probes) then map (fun pq => [fst pq; snd pq]) (pairs_lt probes) else []).
  Definition build_xc (fc : fconf) (cl : dcoll) : res dcoll :=
    rfold (add_xc (delta_arrays cl) (ell_arrays cl)) (xc_groups (dkeys (fc_probes fc))) cl.

  (** cl_core.py:102-118 compute_delta_cls with delta_cl.py:164-169
      loadInpuDataFromWorkspace: the noise file, if configured, is read twice. *)
  Definition compute_delta_cls (fc : fconf) (noise : option (option noise_file)) (cls : dict string acl) : res dcoll :=
    c1 <- load_fiducials cls empty_coll ;;
    c2 <- match noise with None => Ok c1 | Some f => load_noise f c1 end ;;
    c3 <- match noise with None => Ok c2 | Some f => load_noise f c2 end ;;
    c4 <- evaluate_singles fc None c3 ;;
    build_xc fc c4.
End Delta.
Arguments density : clear implicits.
Arguments fconf : clear implicits.
Arguments block : clear implicits.
Arguments dcoll : clear implicits.
Arguments acl : clear implicits.
Arguments noise_file : clear implicits.
