(** Model of forecast configurations: probe names (seyfert/utils/shortcuts.py:
    269-329), probe configurations (config/probe_config.py), the forecast
    configuration and its editor (config/forecast_config.py) and the
    configuration identifier (file_io/json_io.py:100-114).

    Simplifications: configuration files are already parsed JSON; a probe entry
    has all the keys that are read; the input files named in it exist in the
    directory that is looked at; numbers are field elements. *)
From Verif Require Import Base SortLib StrLib KeyModel ParamModel EvalModel NameModel.
Open Scope string_scope.

(** ** Probe names *)
(** shortcuts.py:279-307 ProbeName.__init__ / inferKind. *)
Record pname := mkPn { pn_name : string; pn_kind : kind }.
Definition probe_name (s : string) : res pname :=
  if smem s long_names then Ok (mkPn s Long)
  else if smem s short_names then Ok (mkPn s Short)
  else if smem s alias_names then Ok (mkPn s Alias)
  else Err EValueError.
(** 309-317 transformTo. *)
Definition pn_to (k : kind) (p : pname) : res pname :=
  if kind_eqb k (pn_kind p) then Ok p
  else n <- dgetr (transl (pn_kind p) k) (pn_name p) ;; probe_name n.
(** 326-329 equivalentTo, 283-284 __eq__. *)
Definition pn_equiv (a b : pname) : res bool :=
  t <- pn_to (pn_kind a) b ;; Ok (String.eqb (pn_name a) (pn_name t)).

Section Config.
  Context {F : Type} {K : Fld F} {O : OFld (F := F)}.
  Open Scope fld_scope.

  (** A scalar JSON value of an option or of specific_settings. *)
  Inductive sval := SNull | SBool (b : bool) | SInt (z : Z) | SFloat (x : F) | SStr (s : string).
  Fixpoint fpos (p : positive) : F := match p with xH => 1 | xO p => (1 + 1) * fpos p | xI p => (1 + 1) * fpos p + 1 end.
  Definition fzed (z : Z) : F := match z with Z0 => 0 | Zpos p => fpos p | Zneg p => - fpos p end.
  Definition sv_num (v : sval) : option F :=
    match v with SBool b => Some (if b then 1 else 0) | SInt z => Some (fzed z) | SFloat x => Some x | _ => None end.
  (** Python ==: True == 1 == 1.0. *)
  Definition sv_eqb (a b : sval) : bool :=
    match sv_num a, sv_num b with
    | Some x, Some y => if fdec x y then true else false
    | None, None => match a, b with SNull, SNull => true | SStr s, SStr t => String.eqb s t | _, _ => false end
    | _, _ => false
    end.
  (** Equality of two Python dictionaries. *)
  Definition dict_eqM {V} (veq : V -> V -> res bool) (d e : dict string V) : res bool :=
    if Nat.eqb (length d) (length e) then
      fold_left (fun (acc : res bool) (kv : string * V) =>
        b <- acc ;;
        if b then match dget String.eqb e (fst kv) with None => Ok false | Some w => veq (snd kv) w end
        else Ok false) d (Ok true)
    else Ok false.

  (** ** Probe configurations *)
  Record pcfg := mkPc {
    pc_name : string; pc_ells : list F; pc_widths : list F; pc_density : string;
    pc_bias : option string; pc_marg : bool; pc_nuis : dict string (param F); pc_specific : dict string sval }.
  (** numpy 1.19: a == b for one-dimensional arrays, then numpy.all; lengths that
      do not broadcast compare unequal. *)
  Definition all_eq (x : F) (l : list F) : bool := forallb (fun y => if fdec x y then true else false) l.
  Definition arr_eqb (a b : list F) : bool :=
    if Nat.eqb (length a) (length b) then leqb a b
    else match a, b with [x], _ => all_eq x b | _, [y] => all_eq y a | _, _ => false end.
  (** 122-136 ProbeConfig.__eq__. *)
  Definition pcfg_eq (a b : pcfg) : res bool :=
    pa <- probe_name (pc_name a) ;; pb <- probe_name (pc_name b) ;;
    ne <- pn_equiv pa pb ;;
    nu <- dict_eqM (fun p q => Ok (par_eq p q)) (pc_nuis a) (pc_nuis b) ;;
    sp <- dict_eqM (fun p q => Ok (sv_eqb p q)) (pc_specific a) (pc_specific b) ;;
    Ok (ne && arr_eqb (pc_ells a) (pc_ells b) && arr_eqb (pc_widths a) (pc_widths b) &&
        String.eqb (pc_density a) (pc_density b) && Bool.eqb (pc_marg a) (pc_marg b) && nu && sp &&
        match pc_bias a, pc_bias b with Some f, Some g => String.eqb f g | _, _ => true end).

  (** A probe entry of the JSON configuration; [j_grid] is the outcome of
      getProbeMultipoleBinning (104-120; the grids are EllGridModel's). *)
  Record jprobe := mkJp {
    j_present : bool; j_grid : res (list F * list F); j_density : string; j_bias : string;
    j_marg : bool; j_specific : dict string sval }.
  (** 71-85 loadFromJSONConfig: the entry is looked up under the alias. *)
  Definition load_pcfg (probes : dict string jprobe) (long : string) : res pcfg :=
    p <- probe_name long ;;
    al <- pn_to Alias p ;;
    j <- dgetr probes (pn_name al) ;;
    g <- j_grid j ;;
    let lens := String.eqb long "Lensing" in
    Ok (mkPc long (fst g) (snd g) (j_density j) (if lens then None else Some (j_bias j))
          (if lens then false else j_marg j) [] (j_specific j)).
  (** forecast_config.py:113-121 loadProbeConfigurationsFromJSONConfig. *)
  Definition load_probes (probes : dict string jprobe) : res (dict string pcfg) :=
    fold_left (fun (acc : res (dict string pcfg)) (kv : string * jprobe) =>
      d <- acc ;;
      if j_present (snd kv) then
        p <- probe_name (fst kv) ;;
        l <- pn_to Long p ;;
        c <- load_pcfg probes (pn_name l) ;;
        Ok (dset String.eqb d (pn_name l) c)
      else Ok d) probes (Ok []).
  (** 78-80, 121: itertools.combinations_with_replacement(present_probes, 2). *)
  Definition combinations (d : dict string pcfg) : list (string * string) := pairs2 (dkeys d).

  (** 151-162 getMultipoleArraysForProbeComb. *)
  Definition comb_multipoles (d : dict string pcfg) (key : string) : res (list F * list F) :=
    match comb_probes key with
    | [p; q] =>
        a <- dgetr d p ;; b <- dgetr d q ;;
        let com := intersect1d (pc_ells a) (pc_ells b) in
        if Nat.eqb (length (pc_ells a)) (length (pc_widths a)) then
          match com with
          | [] => Err EException
          | _ => Ok (com, select com (pc_ells a) (pc_widths a))
          end
        else Err EIndexError
    | _ => Err EValueError
    end.
  (** 143-149 checkProbesMultipoles. *)
  Fixpoint check_multipoles (d : dict string pcfg) (ps : list (string * string)) : res unit :=
    match ps with
    | [] => Ok tt
    | (p, q) :: ps' =>
        a <- dgetr d p ;; b <- dgetr d q ;;
        i <- arrays_intersection [pc_ells a; pc_ells b] ;;
        match i with [] => Err EValueError | _ => check_multipoles d ps' end
    end.

  (** ** Forecast configurations *)
  (** 27-91; [fc_opts] is synthetic_opts, [fc_shot] the shot noise file. *)
  Record fcfg := mkFc {
    fc_pars : option (coll F); fc_flat : bool; fc_probes : dict string pcfg; fc_fsky : F;
    fc_combs : list (string * string); fc_opts : dict string sval; fc_shot : option string }.
  Definition pairs_eqb (a b : list (string * string)) : bool :=
    if list_eq_dec (fun x y => match string_dec (fst x) (fst y), string_dec (snd x) (snd y) with
        | left e, left f => left (injective_projections x y e f)
        | right n, _ => right (fun E => n (f_equal fst E))
        | _, right n => right (fun E => n (f_equal snd E)) end) a b then true else false.
  (** Comparing a collection with None looks up an attribute of None
      (base_structs/generic_dict.py:38-39). *)
  Definition pars_eq (a b : option (coll F)) : res bool :=
    match a, b with
    | None, None => Ok true
    | Some c, Some e => dict_eqM (fun p q => Ok (par_eq p q)) (params c) (params e)
    | _, _ => Err EAttributeError
    end.
  (** 167-174 __eq__: all([...]) on a list with both sky fractions as elements. *)
  Definition truthy (x : F) : bool := if fdec x 0 then false else true.
  Definition fcfg_eq (a b : fcfg) : res bool :=
    pe <- pars_eq (fc_pars a) (fc_pars b) ;;
    pr <- dict_eqM pcfg_eq (fc_probes a) (fc_probes b) ;;
    Ok (pe && Bool.eqb (fc_flat a) (fc_flat b) && pr && truthy (fc_fsky a) && truthy (fc_fsky b) &&
        pairs_eqb (fc_combs a) (fc_combs b)).

  (** ** The editor *)
  Definition opts := dict string sval.
  Definition opt_names := ["scenario"; "n_sp_bins"; "gcph_minus_gcsp"; "shot_noise_sp_reduced"; "gcph_only_bins_in_spectro_range"].
  Definition scenarios := ["optimistic"; "pessimistic"].
  Definition bin_numbers : list Z := [4; 12; 24; 40]%Z.
  Definition is_bool (v : sval) : bool := match v with SBool _ => true | _ => false end.
  (** 208-226 checkOpts. *)
  Definition check_opts (o : opts) : res unit :=
    if negb (forallb (fun n => dmem String.eqb o n) opt_names) then Err EException
    else if negb (forallb (fun n => smem n opt_names) (dkeys o)) then Err EException
    else
      sc <- dgetr o "scenario" ;;
      if negb (existsb (fun s => sv_eqb sc (SStr s)) scenarios) then Err EException else
      nb <- dgetr o "n_sp_bins" ;;
      if negb (existsb (fun n => sv_eqb nb (SInt n)) bin_numbers) then Err EException else
      f1 <- dgetr o "gcph_minus_gcsp" ;;
      if negb (is_bool f1) then Err ETypeError else
      f2 <- dgetr o "shot_noise_sp_reduced" ;;
      if negb (is_bool f2) then Err ETypeError else
      f3 <- dgetr o "gcph_only_bins_in_spectro_range" ;;
      if negb (is_bool f3) then Err ETypeError else Ok tt.

  (** f"{value}"; [ftext] is the text of a float. *)
  Context (ftext : F -> string).
  Definition ztext (z : Z) : string := if Z.ltb z 0 then "-" ++ dec (Z.abs_nat z) else dec (Z.to_nat z).
  Definition sv_text (v : sval) : string :=
    match v with
    | SNull => "None" | SBool true => "True" | SBool false => "False"
    | SInt z => ztext z | SFloat x => ftext x | SStr s => s
    end.
  (** 248-252, 258-270 bool_opts and createFileName; [date] is the formatted
      creation date, if it is added. *)
  Definition true_opts (o : opts) : list string :=
    map fst (filter (fun kv => match snd kv with SBool true => true | _ => false end) o).
  Definition file_name (date : option string) (o : opts) : res string :=
    sc <- dgetr o "scenario" ;; nb <- dgetr o "n_sp_bins" ;;
    Ok (fold_left (fun s n => s ++ "_" ++ n) (true_opts o) (sv_text sc ++ "_" ++ sv_text nb ++ "_sp_bins") ++
        match date with None => "" | Some d => "_" ++ d end ++ ".json").
  (** json_io.py:100-114 getConfigID. *)
  Definition id_parts (o : opts) : list string :=
    flat_map (fun kv => match snd kv with
                        | SBool true => [fst kv] | SBool false => []
                        | v => [fst kv ++ "_" ++ sv_text v] end) o.
  Definition config_id (o : opts) : option string :=
    match id_parts o with [] => None | l => Some (join "__" l) end.

  (** 272-301 updateData on the probe entries (a dictionary of dictionaries). *)
  Definition entry := dict string sval.
  Definition entries := dict string entry.
  Definition set_in (es : entries) (probe key : string) (v : sval) : res entries :=
    e <- dgetr es probe ;; Ok (dset String.eqb es probe (dset String.eqb e key v)).
  Fixpoint set_all (es : entries) (l : list (string * string * sval)) : entries * res unit :=
    match l with
    | [] => (es, Ok tt)
    | (p, k, v) :: l' => match set_in es p k v with Ok es' => set_all es' l' | Err e => (es, Err e) end
    end.
  Definition pessimistic (o : opts) : bool :=
    match dget String.eqb o "scenario" with Some v => sv_eqb v (SStr "pessimistic") | None => false end.
  Definition flag (o : opts) (n : string) : bool :=
    match dget String.eqb o n with Some (SBool b) => b | _ => false end.
  Definition bins_text (o : opts) : string := match dget String.eqb o "n_sp_bins" with Some v => sv_text v | None => "" end.
  Definition multipole_sets (o : opts) : list (string * string * sval) :=
    flat_map (fun p => [(p, "l_min", SInt 10); (p, "l_max", SInt (if pessimistic o then 750 else 3000));
                        (p, "log_l_number", SInt 100); (p, "ell_log_selection", SBool true)]) ["GCph"; "GCsp"] ++
    [("WL", "ell_external_filename", SStr (if pessimistic o then "wl_pess_ells_10_750_log_nell_100_and_750_1500_lin.txt"
                                           else "wl_optm_ells_10_3000_log_nell_100_and_3000_5000_lin.txt"))]%list.
  Definition gcph_sets (o : opts) : list (string * string * sval) :=
    if flag o "gcph_minus_gcsp" then [("GCph", "density_file", SStr "gcph_dndz_redbook_gcsp_subtracted.h5")]
    else if flag o "gcph_only_bins_in_spectro_range" then
      [("GCph", "density_file", SStr "gcph_dndz_redbook_only_bins_in_spectro_range.h5");
       ("GCph", "bias_file", SStr "gcph_bias_piecewise_only_bins_in_spectro_range.h5")]
    else [("GCph", "density_file", SStr "gcph_dndz_redbook.h5"); ("GCph", "bias_file", SStr "gcph_bias_piecewise.h5")].
  Definition gcsp_sets (o : opts) : list (string * string * sval) :=
    [("GCsp", "density_file", SStr ("gcsp_dndz_" ++ bins_text o ++ "_bins.h5"));
     ("GCsp", "bias_file", SStr ("gcsp_bias_piecewise_" ++ bins_text o ++ "_bins.h5"))].
  Definition update_data (o : opts) (es : entries) : entries * res unit :=
    let (es1, r1) := set_all es (multipole_sets o) in
    match r1 with
    | Err e => (es1, Err e)
    | Ok _ =>
        if flag o "gcph_minus_gcsp" && flag o "gcph_only_bins_in_spectro_range" then (es1, Err ENotImplemented)
        else set_all es1 (gcph_sets o ++ gcsp_sets o)%list
    end.
End Config.
Arguments sval : clear implicits.
Arguments pcfg : clear implicits.
Arguments jprobe : clear implicits.
Arguments fcfg : clear implicits.
