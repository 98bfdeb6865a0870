(** Model of the configuration window: what is saved, seyfert/gui/interface_window.py:44-55
    and 58-210 (with the names of the widgets in seyfert/gui/gui_core.py:839-953), and
    what is loaded from it, seyfert/config/forecast_config.py:113-142 and
    seyfert/config/probe_config.py:71-120.

    Simplifications: a widget has the one getter of its kind (a line its text, a check
    box its state, a spin box its value, a choice its current text); asking for another
    one is AttributeError.  [to_float] is float(text), None for ValueError.  Loading
    stops at the names of files: whether they exist and their contents are left out,
    but for the nuisance parameters in bias files, given by [bias_pars].  A loaded
    value of a type that the window does not save is TypeError.  The metadata that
    toJSON adds and the dialog are left out.  In the expression for the names of
    nuisance parameters a line break at the end is not accepted. *)
From Verif Require Import Base SortLib StrLib KeyModel ParamModel NameModel ConfigModel ParamFileModel TimeModel BatchModel.
Open Scope string_scope.
Open Scope list_scope.

Section Gui.
  Context {F : Type} {K : Fld F} {O : OFld (F := F)}.
  Context (to_float : string -> option F).

  Inductive widget := Text (s : string) | Box (state : nat) | Spin (z : Z) | DSpin (x : F) | Combo (s : string).
  (** A page of the window: whatsThis() and widget, in the order of findChildren. *)
  Record window := mkWin {
    w_fsky : string; w_model : string; w_flat : nat; w_pars : list (string * list string);
    w_disps : list string; w_pages : list (string * list (string * widget)) }.
  Definition floatr (s : string) : res F := match to_float s with Some x => Ok x | None => Err EValueError end.
  Definition checked (n : nat) : bool := negb (Nat.eqb n 0).
  Definition options := dict string widget.
  Definition text_of (d : options) (k : string) : res string := w <- dgetr d k ;; match w with Text s => Ok s | _ => Err EAttributeError end.
  Definition box_of (d : options) (k : string) : res bool := w <- dgetr d k ;; match w with Box n => Ok (checked n) | _ => Err EAttributeError end.
  Definition value_of (d : options) (k : string) : res (json F) :=
    w <- dgetr d k ;; match w with Spin z => Ok (JInt z) | DSpin x => Ok (JNum x) | _ => Err EAttributeError end.
  Definition choice_of (d : options) (k : string) : res string := w <- dgetr d k ;; match w with Combo s => Ok s | _ => Err EAttributeError end.

  (** 89-107 readCosmoParsFromUI: five columns. *)
  Definition par_json (nr : string * list string) : res (json F) :=
    match snd nr with
    | [f; free; units; stem; method] =>
        x <- floatr f ;; y <- floatr f ;; b <- str_to_bool free ;; s <- floatr stem ;;
        Ok (JObj [("name", JStr (fst nr)); ("fiducial", JNum x); ("current_value", JNum y); ("kind", JStr "CosmologicalParameter");
                  ("is_free_parameter", JBool b); ("units", JStr units); ("stem_factor", JNum s); ("derivative_method", JStr method)])
    | _ => Err EIndexError
    end.
  (** 125-136 readProbesInfoFromUI. *)
  Definition children (l : list (string * widget)) : options :=
    fold_left (fun d kw => if String.eqb (fst kw) "" then d else dset String.eqb d (fst kw) (snd kw)) l [].
  Definition read_pages (w : window) : res (dict string options) :=
    fold_left (fun (acc : res (dict string options)) np =>
      d <- acc ;; p <- probe_name (fst np) ;; a <- pn_to Alias p ;; Ok (dset String.eqb d (pn_name a) (children (snd np)))) (w_pages w) (Ok []).
  (** 181-192 buildProbeJSONSpecificSettings. *)
  Definition specific (name : string) (d : options) : res (list (string * json F)) :=
    if String.eqb name "WL" then b <- box_of d "include_IA" ;; Ok [("include_IA", JBool b)]
    else if String.eqb name "V" then
      k <- value_of d "void_kcut_invMpc" ;; w <- value_of d "void_kcut_width_invMpc" ;; Ok [("void_kcut_invMpc", k); ("void_kcut_width_invMpc", w)]
    else if String.eqb name "GCsp" then b <- box_of d "compute_gcsp_cl_offdiag" ;; Ok [("compute_gcsp_cl_offdiag", JBool b)]
    else Ok [].
  (** 194-210 buildProbeJSONExtraNuisanceParameters. *)
  Fixpoint all_alnum (s : string) : bool := match s with EmptyString => true | String a r => is_alnum a && all_alnum r end.
  Definition nuis_name (k : string) : option string :=
    if starts "nuis_param_" k then
      let r := substring 11 (String.length k - 11) k in if negb (String.eqb r "") && all_alnum r then Some r else None
    else None.
  Definition extra (name : string) (d : options) : res (list (json F)) :=
    if String.eqb name "WL" then
      ia <- box_of d "include_IA" ;;
      rmapM (fun n =>
        t <- text_of d ("nuis_param_" ++ n)%string ;; x <- floatr t ;;
        Ok (JObj [("name", JStr n); ("fiducial", JNum x); ("kind", JStr "NuisanceParameter"); ("units", JStr "None"); ("probe", JStr name);
                  ("is_free_parameter", JBool (negb (String.eqb n "cIA") && ia))]))
        (flat_map (fun k => match nuis_name k with Some n => [n] | None => [] end) (dkeys d))
    else Ok [].
  (** 146-179 buildGenericProbeJSONOpts. *)
  Definition ells_json (d : options) : res (list (string * json F)) :=
    f <- text_of d "ell_external_filename" ;;
    if negb (String.eqb f "") then Ok [("ell_external_filename", JStr f)]
    else
      lo <- value_of d "l_min" ;; hi <- value_of d "l_max" ;; b <- box_of d "ell_log_selection" ;;
      n <- (if b : bool then n <- value_of d "log_l_number" ;; Ok [("log_l_number", n)] else Ok []) ;;
      Ok ([("l_min", lo); ("l_max", hi); ("ell_log_selection", JBool b)] ++ n).
  Definition optional {A} (d : options) (k : string) (get : options -> string -> res A) (f : A -> json F) : res (list (string * json F)) :=
    if dmem String.eqb d k then a <- get d k ;; Ok [(k, f a)] else Ok [].
  Definition probe_json (name : string) (d : options) : res (json F) :=
    p <- probe_name name ;; a <- pn_to Alias p ;; l <- pn_to Long p ;;
    pres <- box_of d "presence_flag" ;;
    ells <- ells_json d ;;
    dens <- text_of d "density_file" ;;
    bf <- optional d "bias_file" text_of JStr ;;
    bm <- optional d "bias_derivative_method" choice_of JStr ;;
    mb <- optional d "marginalize_bias_flag" box_of JBool ;;
    sp <- specific (pn_name a) d ;;
    ex <- extra (pn_name a) d ;;
    Ok (JObj ([("long_name", JStr (pn_name l)); ("presence_flag", JBool pres)] ++ ells ++ [("density_file", JStr dens)] ++ bf ++ bm ++ mb ++
              [("specific_settings", JObj sp); ("extra_nuisance_parameters", JList ex)])).
  (** 138-144 buildJSONProbeOpts, 72-87 dumpGUIToJSON. *)
  Definition aliases : list string := ["WL"; "GCph"; "GCsp"; "V"].
  Definition probes_json (w : window) : res (list (string * json F)) :=
    ps <- read_pages w ;;
    rmapM (fun n => d <- dgetr ps n ;; j <- probe_json n d ;; Ok (n, j)) aliases.
  Definition dump (w : window) : res (list (string * json F)) :=
    fsky <- floatr (w_fsky w) ;;
    pars <- rmapM par_json (w_pars w) ;;
    probes <- probes_json w ;;
    Ok [("metadata", JObj []); ("synthetic_opts", JObj []); ("survey", JObj [("f_sky", JNum fsky); ("shot_noise_file", JNull)]);
        ("cosmology", JObj [("model", JStr (w_model w)); ("flat", JBool (checked (w_flat w))); ("parameters", JList pars)]);
        ("probes", JObj probes); ("derivative_settings", JObj [("base_stem_disps", JList (map JStr (w_disps w)))])].
  (** 49-54: the name of the file; [stamp] is the version and the date unless left
      out.  Path.suffixes are the pieces after the first dot of the name without
      dots at its beginning; a name that ends with a dot has none. *)
  Fixpoint lstrip_dots (s : string) : string := match s with String a r => if Ascii.eqb a "." then lstrip_dots r else s | EmptyString => s end.
  Definition suffixes (n : string) : list string :=
    if String.eqb (last (split_char "." n) "") "" then [] else map (fun s => ("." ++ s)%string) (tl (split_char "." (lstrip_dots n))).
  Definition out_name (n : string) (stamp : option string) : string :=
    let n := match stamp with Some t => (n ++ "_" ++ t)%string | None => n end in
    if smem ".json" (suffixes n) then n else (n ++ ".json")%string.

  (** ** Loading *)
  (** probe_config.py:106-120: where the multipoles come from. *)
  Inductive source := FromFile (f : string) | Grid (lo hi : F) (log : bool) (n : option Z).
  Record loaded := mkLd { ld_ells : source; ld_density : string; ld_bias : option (string * bool * string); ld_specific : list (string * json F) }.
  Definition as_str (j : json F) : res string := match j with JStr s => Ok s | _ => Err ETypeError end.
  Definition sfield (o : list (string * json F)) (k : string) : res string := j <- jfield o k ;; as_str j.
  Definition load_ells (o : list (string * json F)) : res source :=
    match jget o "ell_external_filename" with
    | Some (JStr f) => Ok (FromFile f)
    | None | Some JNull =>
        lo <- jfield o "l_min" ;; lo <- as_num lo ;; hi <- jfield o "l_max" ;; hi <- as_num hi ;;
        b <- jfield o "ell_log_selection" ;; b <- as_flag b ;;
        n <- match jget o "log_l_number" with Some (JInt z) => Ok (Some z) | None => Ok None | Some _ => Err ETypeError end ;;
        Ok (Grid lo hi b n)
    | Some _ => Err ETypeError
    end.
  (** 71-83 loadFromJSONConfig. *)
  Definition load_probe (long : string) (o : list (string * json F)) : res loaded :=
    e <- load_ells o ;;
    d <- sfield o "density_file" ;;
    b <- (if String.eqb long "Lensing" then Ok None
          else f <- sfield o "bias_file" ;; m <- jfield o "marginalize_bias_flag" ;; m <- as_flag m ;; t <- sfield o "bias_derivative_method" ;; Ok (Some (f, m, t))) ;;
    s <- jfield o "specific_settings" ;; s <- as_obj s ;;
    Ok (mkLd e d b s).
  (** forecast_config.py:113-119. *)
  Definition load_probes (j : list (string * json F)) : res (dict string loaded) :=
    ps <- jfield j "probes" ;; ps <- as_obj ps ;;
    fold_left (fun (acc : res (dict string loaded)) np =>
      d <- acc ;; o <- as_obj (snd np) ;; f <- jfield o "presence_flag" ;; b <- as_flag f ;;
      if b then p <- probe_name (fst np) ;; l <- pn_to Long p ;; x <- load_probe (pn_name l) o ;; Ok (dset String.eqb d (pn_name l) x) else Ok d) ps (Ok []).
  (** probe_config.py:86-104 loadAllNuisanceParameters; [o] is the entry of the probe. *)
  Definition load_nuis (bias_pars : string -> res (dict string F)) (long : string) (x : loaded) (o : list (string * json F)) : res (dict string (param F)) :=
    bs <- match ld_bias x with
          | Some (f, m, t) => d <- bias_pars f ;; Ok (map (fun kv => (fst kv, mkPar (fst kv) (snd kv) (snd kv) false (Some long) fo m "" "None" t)) d)
          | None => Ok []
          end ;;
    ex <- match jget o "extra_nuisance_parameters" with
          | None => Ok []
          | Some (JList l) => rmapM (fun j => q <- as_obj j ;; from_dict q) l
          | Some _ => Err ETypeError
          end ;;
    Ok (fold_left (fun d p => dset String.eqb d (pp_name p) p) ex bs).
  (** forecast_config.py:129-142 loadPhysicalParametersFromJSONConfig. *)
  Definition as_disp (j : json F) : res F := match j with JStr s => floatr s | _ => as_num j end.
  Definition load_params (bias_pars : string -> res (dict string F)) (j : list (string * json F)) (probes : dict string loaded) : res (coll F) :=
    ds <- jfield j "derivative_settings" ;; ds <- as_obj ds ;; b <- jfield ds "base_stem_disps" ;;
    base <- match b with JList l => rmapM as_disp l | _ => Err ETypeError end ;;
    co <- jfield j "cosmology" ;; co <- as_obj co ;; fl <- jfield co "flat" ;; fl <- as_flag fl ;;
    ps <- jfield co "parameters" ;;
    pars <- match ps with JList l => rmapM (fun j => q <- as_obj j ;; from_dict q) l | _ => Err ETypeError end ;;
    let d0 := fold_left (fun d p => dset String.eqb d (pp_name p) p) pars [] in
    d <- fold_left (fun (acc : res (dict string (param F))) kx =>
           d <- acc ;; p <- probe_name (fst kx) ;; a <- pn_to Alias p ;; ps <- jfield j "probes" ;; ps <- as_obj ps ;; o <- jfield ps (pn_name a) ;; o <- as_obj o ;;
           n <- load_nuis bias_pars (fst kx) (snd kx) o ;; Ok (dupdate String.eqb d n)) probes (Ok d0) ;;
    Ok (load_stem base (mkColl d [] [] fl)).

  (** ** The window of gui_core.py: its pages with their widgets (839-953) *)
  Record ellw := mkEllw { e_n : Z; e_log : nat; e_max : F; e_min : F; e_box : nat; e_file : string }.
  Definition ell_widgets (e : ellw) : list (string * widget) :=
    [("log_l_number", Spin (e_n e)); ("ell_log_selection", Box (e_log e)); ("l_max", DSpin (e_max e)); ("l_min", DSpin (e_min e));
     ("ell_external_checkbox", Box (e_box e)); ("ell_external_filename", Text (e_file e))].
  Record lensw := mkLensw { l_ells : ellw; l_on : nat; l_dens : string; l_a : string; l_c : string; l_eta : string; l_beta : string; l_ia : nat }.
  Definition lens_page (p : lensw) : list (string * widget) :=
    ell_widgets (l_ells p) ++
    [("presence_flag", Box (l_on p)); ("density_file", Text (l_dens p)); ("nuis_param_aIA", Text (l_a p)); ("nuis_param_cIA", Text (l_c p));
     ("nuis_param_etaIA", Text (l_eta p)); ("nuis_param_betaIA", Text (l_beta p)); ("include_IA", Box (l_ia p))].
  Record voidw := mkVoidw { v_ells : ellw; v_on : nat; v_dens : string; v_bias : string; v_marg : nat; v_cut : F; v_width : F }.
  Definition void_page (p : voidw) : list (string * widget) :=
    [("void_kcut_invMpc", DSpin (v_cut p)); ("bias_file", Text (v_bias p)); ("marginalize_bias_flag", Box (v_marg p)); ("void_kcut_width_invMpc", DSpin (v_width p))] ++
    ell_widgets (v_ells p) ++ [("density_file", Text (v_dens p)); ("presence_flag", Box (v_on p))].
  Record galw := mkGalw { g_ells : ellw; g_on : nat; g_dens : string; g_bias : string; g_marg : nat; g_method : string }.
  Definition gal_page (off : list (string * widget)) (p : galw) : list (string * widget) :=
    [("bias_file", Text (g_bias p)); ("marginalize_bias_flag", Box (g_marg p))] ++ off ++ [("bias_derivative_method", Combo (g_method p))] ++
    ell_widgets (g_ells p) ++ [("density_file", Text (g_dens p)); ("presence_flag", Box (g_on p))].
  Definition shipped (fsky model : string) (fl : nat) (pars : list (string * list string)) (disps : list string) (l : lensw) (v : voidw) (ph sp : galw) (off : nat) : window :=
    mkWin fsky model fl pars disps
      [("Lensing", lens_page l); ("Void", void_page v); ("GCph", gal_page [] ph); ("GCsp", gal_page [("compute_gcsp_cl_offdiag", Box off)] sp)].
End Gui.
Arguments widget : clear implicits.
Arguments window : clear implicits.
Arguments source : clear implicits.
Arguments loaded : clear implicits.
Arguments options : clear implicits.
