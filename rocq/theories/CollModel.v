(** Model of the computation of all angular spectra of a forecast from its inputs:
    AngularCoefficientsCollector.setUp and evaluateAngularCoefficients
    (seyfert/cosmology/c_ells.py:370-409), the weight functions with their biases
    (cosmology/weight_functions.py:209-265, 350-360; cosmology/bias.py:64-98,
    139-149, 239-280), the Limber power spectrum (c_ells.py:227-262) and
    compute_cls (main/cl_core.py:55-79).

    Simplifications: arrays over redshift are functions of the index of the grid;
    the densities are evaluated on the grid of the cosmology; the splines (of the
    power spectrum, of the biases in the bin centres, of the luminosities), the
    logistic curve of the photometric bias and the void size function are
    arguments of the model; logging is left out. *)
From Verif Require Import Base SortLib StrLib NameModel KeyModel ParamModel EvalModel OrdLib NumModel BiasModel ConfigModel ClModel WeightModel.
Open Scope list_scope.

(** t in s. *)
Fixpoint inside (t s : string) : bool :=
  starts t s || match s with EmptyString => false | String _ r => inside t r end.

Section Coll.
  Context {F : Type} {K : Fld F} {O : OFld (F := F)}.
  Open Scope fld_scope.

  (** What the computation reads of an evaluated cosmology: grid, Hubble rate,
      distances, growth factor, numbers; [co_pk z k] is the power spectrum at
      the z-th redshift, 10 ** pmm_logspline(z, log10(k)). *)
  Record cosmology := mkCo {
    co_zs : list F; co_H : nat -> F; co_r : nat -> F; co_rt : nat -> F; co_D : nat -> F;
    co_Omm : F; co_H0 : F; co_c : F; co_pk : nat -> F -> F }.
  Record density := mkDe { de_bins : nat; de_edges : list F; de_n : nat -> nat -> F }.
  (** Content of a bias file, bias.py:124-137. *)
  Record bfile := mkBf { bf_edges : option (list F); bf_model : string; bf_nuis : dict string F; bf_add : dict string F }.
  (** main_config.AngularConfig: the two integration methods. *)
  Record angular := mkAn { an_cl : string; an_eff : string }.

  (** scipy's quadratures (simps of values and points); the adaptive quadrature of the lensing efficiency; the
      photometric bias as a function of Aph, Bph, Cph, Dph and z; splines through
      points; the void bias of Verza et al. in the bin centres; F_IA_z of etaIA,
      betaIA and z. *)
  Record numerics := mkNu {
    nu_simps : list F -> list F -> F; nu_quad : list F -> list F -> F; nu_romb : list F -> F -> F;
    nu_eff : cosmology -> density -> nat -> nat -> F;
    nu_flagship : F -> F -> F -> F -> F -> F;
    nu_spline : list F -> list F -> F -> F;
    nu_vdn : cosmology -> dict string F -> list F -> res (list F);
    nu_fia : F -> F -> F -> F }.
  Context (N : numerics).

  (** h5py lists the members of a group in alphabetical order. *)
  Definition name_leb {A} (x y : string * A) : bool := String.leb (fst x) (fst y).
  Definition by_name {A} (d : dict string A) : dict string A := isort name_leb d.
  (** bias.py:174-176 z_bin_centers. *)
  Definition centres (edges : list F) : list F := map (fun i => (at_ edges i + at_ edges (i + 1)) / (1 + 1)) (seq 0 (length edges - 1)).

  (** bias.py:64-94; the class of the model. *)
  Inductive bmodel := Piecewise | Constant | Flagship | Vdn | Growth.
  (** weight_functions.py:235-243 setupBias: the parameters named in the file take
      their current values; 258-265 for voids. *)
  Definition setup_bias (void : bool) (f : bfile) (nuis : dict string (param F)) : res (option bmodel * dict string F) :=
    vals <- rmapM (fun kv => match dget String.eqb nuis (fst kv) with Some p => Ok (fst kv, current p) | None => Err EKeyError end) (by_name (bf_nuis f)) ;;
    let m :=
      if String.eqb (bf_model f) "piecewise" then Some Piecewise
      else if String.eqb (bf_model f) "constant" then Some Constant
      else if String.eqb (bf_model f) "euclid_flagship_photo" then Some Flagship
      else None in
    if void then
      if String.eqb (bf_model f) "vdn_void" then Ok (Some Vdn, vals)
      else if String.eqb (bf_model f) "fiducial_growth_void" then Ok (Some Growth, vals)
      else Err ENotImplemented
    else Ok (m, vals).
  (** bias.py:96-98 evaluateBias and the computeBias of the models: 194-236 (in
      BiasModel), 259-263, 270-280, 311-335.  The grid is that of [co]. *)
  Definition evaluate_bias (m : option bmodel) (vals add : dict string F) (edges : list F) (co : cosmology) (fid : option cosmology) : res (list (list F)) :=
    let nz := length (co_zs co) in
    match m with
    | None => Err EAttributeError
    | Some Piecewise => piecewise_bias vals edges (co_zs co)
    | Some Constant => constant_bias vals edges (co_zs co)
    | Some Flagship =>
        a <- dgetr vals "Aph" ;; b <- dgetr vals "Bph" ;; c <- dgetr vals "Cph" ;; d <- dgetr vals "Dph" ;;
        Ok (repeat (map (nu_flagship N a b c d) (co_zs co)) (length edges - 1))
    | Some Vdn => b <- nu_vdn N co add (centres edges) ;; Ok (map (fun v => repeat v nz) b)
    | Some Growth =>
        match fid with
        | None => Err EAttributeError
        | Some f =>
            if negb (leqb (co_zs co) (co_zs f)) then Err EDomain
            else
              v <- dgetr vals "voidbias0" ;;
              let y := map (fun z => v / co_D f z) (seq 0 nz) in
              Ok (map (fun c => repeat (nu_spline N (co_zs co) y c) nz) (centres edges))
        end
    end.
  (** weight_functions.py:227-249 for one probe: setUp, then evaluate, which sets the
      bias up again.  bias.py:143-144: bin edges in the file replace those of the
      density.  [files] are the bias files that can be opened.  The product
      broadcasts a single row of biases or densities. *)
  Definition biased (void : bool) (cfg : pcfg F) (files : dict string bfile) (nuis : dict string (param F)) (d : density) (co : cosmology) (fid : option cosmology)
      : res (nat -> nat -> F) :=
    path <- match pc_bias cfg with Some p => Ok p | None => Err ETypeError end ;;
    f <- match dget String.eqb files path with Some f => Ok f | None => Err EOSError end ;;
    _ <- setup_bias void f nuis ;;
    mv <- setup_bias void f nuis ;;
    rows <- evaluate_bias (fst mv) (snd mv) (bf_add f) (match bf_edges f with Some e => e | None => de_edges d end) co fid ;;
    let nb := length rows in
    if Nat.eqb nb (de_bins d) || Nat.eqb nb 1 || Nat.eqb (de_bins d) 1 then
      Ok (biased_weight (co_H co) (co_c co) (de_n d) (fun i => rows_fun rows (if Nat.eqb nb 1 then 0%nat else i)))
    else Err EValueError.

  (** Truth of a configuration value. *)
  Definition sv_true (v : sval F) : bool :=
    match v with
    | SNull => false | SBool b => b | SInt z => negb (Z.eqb z 0) | SFloat x => truthy x | SStr s => negb (String.eqb s "")
    end.
  (** weight_functions.py:185-218, LensingWeightFunction. *)
  Definition par_now (nuis : dict string (param F)) (n : string) : res F := p <- dgetr nuis n ;; Ok (current p).
  Definition lensing (an : angular) (cfg : pcfg F) (nuis : dict string (param F)) (d : density) (co : cosmology) : res (nat -> nat -> F) :=
    eff <- efficiency (nu_simps N) (nu_eff N co d) (an_eff an) (de_bins d) (co_zs co) (de_n d) (co_r co) ;;
    inc <- dgetr (pc_specific cfg) "include_IA" ;;
    ia <- (if sv_true inc then
             a <- par_now nuis "aIA" ;; c <- par_now nuis "cIA" ;; e <- par_now nuis "etaIA" ;; b <- par_now nuis "betaIA" ;;
             Ok (Some (ia_weight a c (co_Omm co) (co_c co) (fun z => nu_fia N e b (at_ (co_zs co) z)) (co_H co) (co_D co) (de_n d)))
           else Ok None) ;;
    Ok (lensing_weight (co_Omm co) (co_H0 co) (co_c co) (at_ (co_zs co)) (co_rt co) eff ia).

  (** c_ells.py:387-398, one probe: parameters, class, density, weight. *)
  Definition weight_of (an : angular) (files : dict string bfile) (pp : coll F) (dens : dict string density) (co : cosmology) (fid : option cosmology)
      (probe : string) (cfg : pcfg F) : res (density * (nat -> nat -> F)) :=
    let nuis := nuisance_for probe pp in
    if negb (smem probe long_names) then Err EAttributeError
    else
      d <- dgetr dens probe ;;
      w <- (if String.eqb probe "Lensing" then lensing an cfg nuis d co
            else biased (String.eqb probe "Void") cfg files nuis d co fid) ;;
      Ok (d, w).

  (** A spectrum that is set up: multipoles, widths, numbers of bins, Limber power
      spectrum and kernel. *)
  Record ready := mkRd { rd_p : string; rd_q : string; rd_ells : list F; rd_widths : list F; rd_ni : nat; rd_nj : nat; rd_P : nat -> nat -> F; rd_k : arr3 (F := F) }.
  Definition setting_num (cfg : pcfg F) (n : string) : res F :=
    v <- dgetr (pc_specific cfg) n ;; match sv_num v with Some x => Ok x | None => Err ETypeError end.
  (** c_ells.py:237-262: k = (l + 1/2) / r(z); the cut for voids. *)
  Definition limber (cfgs : dict string (pcfg F)) (key : string) (co : cosmology) (ells : list F) : res (nat -> nat -> F) :=
    let kl := fun l z => (at_ ells l + 1 / (1 + 1)) / co_r co z in
    let P := fun l z => co_pk co z (kl l z) in
    if inside "Void" key then
      cfg <- dgetr cfgs "Void" ;;
      kc <- setting_num cfg "void_kcut_invMpc" ;; kw <- setting_num cfg "void_kcut_width_invMpc" ;;
      Ok (void_cut kc kw kl P)
    else Ok P.
  (** c_ells.py:399-407 with 62-87 (the constructor asks for the common multipoles of
      any pair) and 227-235. *)
  Definition setup_spectrum (cfgs : dict string (pcfg F)) (ws : dict string (density * (nat -> nat -> F))) (co : cosmology) (pq : string * string) : res (string * ready) :=
    let '(p, q) := pq in
    let key := comb_key p q in
    w1 <- dgetr ws p ;; w2 <- dgetr ws q ;;
    m0 <- comb_multipoles cfgs key ;;
    m <- (if negb (String.eqb p q) then comb_multipoles cfgs key
          else cfg <- dgetr cfgs p ;; Ok (pc_ells cfg, pc_widths cfg)) ;;
    P <- limber cfgs key co (fst m) ;;
    Ok (key, mkRd p q (fst m) (snd m) (de_bins (fst w1)) (de_bins (fst w2)) P
               (kernel (String.eqb p q) (snd w1) (snd w2) (co_c co) (co_H co) (co_r co))).
  Definition setup (an : angular) (cfgs : dict string (pcfg F)) (files : dict string bfile) (pp : coll F) (dens : dict string density) (co : cosmology) (fid : option cosmology)
      : res (dict string ready) :=
    ws <- rmapM (fun kc => w <- weight_of an files pp dens co fid (fst kc) (snd kc) ;; Ok (fst kc, w)) cfgs ;;
    rfold (fun d pq => kr <- setup_spectrum cfgs ws co pq ;; Ok (dset String.eqb d (fst kr) (snd kr))) (combinations cfgs) [].

  (** One evaluated spectrum, c_ells.py:164-194 (ClModel). *)
  Record spectrum := mkSp { sp_ells : list F; sp_widths : list F; sp_ni : nat; sp_nj : nat; sp_c : arr3 (F := F) }.
  Definition evaluate_one (an : angular) (cfgs : dict string (pcfg F)) (co : cosmology) (r : ready) : res spectrum :=
    let integ := integrator (fun x y => nu_simps N y x) (nu_quad N) (nu_romb N) (an_cl an) (co_zs co) in
    let offdiag := cfg <- dgetr cfgs "SpectroscopicGalaxy" ;; v <- dgetr (pc_specific cfg) "compute_gcsp_cl_offdiag" ;; Ok (sv_true v) in
    c <- evaluate integ (length (co_zs co)) (rd_P r) (rd_k r) (rd_p r) (rd_q r) offdiag (rd_ni r) (rd_nj r) ;;
    Ok (mkSp (rd_ells r) (rd_widths r) (rd_ni r) (rd_nj r) (fst c)).
  (** cl_core.py:55-79 compute_cls. *)
  Definition compute_cls (an : angular) (cfgs : dict string (pcfg F)) (files : dict string bfile) (pp : coll F) (dens : dict string density) (co : cosmology) (fid : option cosmology)
      : res (dict string spectrum) :=
    d <- setup an cfgs files pp dens co fid ;;
    rmapM (fun kr => s <- evaluate_one an cfgs co (snd kr) ;; Ok (fst kr, s)) d.
End Coll.
Arguments cosmology F : clear implicits.
Arguments density F : clear implicits.
Arguments bfile F : clear implicits.
Arguments numerics F : clear implicits.
Arguments spectrum F : clear implicits.
Arguments ready F : clear implicits.
