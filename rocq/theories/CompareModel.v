(** Model of the comparison of two runs: seyfert/utils/run_loader.py:77-84
    (version), 148-167 (Fisher matrices, results), 207-210, 333-349, 380-403,
    seyfert/fisher/fisher_results.py:155-172, called by bin/compare_runs.

    Tables are those of pandas: values found by labels, which are distinct.
    Left out: logging other than the verdicts, the metrics of the cosmologies,
    spectra and derivatives, which are evaluated before but not tested, and the
    Fisher and correlation matrices of the results, which are not compared.  The
    keys common to both runs are in the order of the first run; in Python they
    are a set, which only orders the messages. *)
From Verif Require Import Base SortLib StrLib FrameModel ParamModel OrdLib NumModel NameModel BatchModel.
Open Scope list_scope.

Section Compare.
  Context {F : Type} {K : Fld F} {O : OFld (F := F)}.
  Open Scope fld_scope.

  Record tab := mkTab { t_rows : list string; t_cols : list string; t_val : string -> string -> F }.
  Definition same_set (a b : list string) : bool := forallb (fun x => smem x b) a && forallb (fun x => smem x a) b.
  (** numeric/general.py:37-49 pad of two tables; they are aligned by label. *)
  Definition pad_tab (x y : tab) : res tab :=
    if negb (same_set (t_rows x) (t_rows y)) then Err EException
    else if negb (same_set (t_cols x) (t_cols y)) then Err EException
    else Ok (mkTab (t_rows x) (t_cols x) (fun i j => pad_table (t_val x i j) (t_val y i j))).
  (** 380-384: np.all(pads < threshold). *)
  Definition below (thr : F) (t : tab) : bool :=
    forallb (fun i => forallb (fun j => if fle_dec thr (t_val t i j) then false else true) (t_cols t)) (t_rows t).
  Definition check (thr : F) (d : dict string tab) : dict string bool := map (fun kt => (fst kt, below thr (snd kt))) d.
  (** 390-403 getComparisonKeys. *)
  Definition common (k1 k2 : list string) : list string := filter (fun k => smem k k2) k1.

  (** A missing key raises KeyError. *)
  Definition look {V} (d : dict string V) (k : string) : res V := match dget String.eqb d k with Some v => Ok v | None => Err EKeyError end.
  (** A loaded run: matrix and inverse of each Fisher matrix, and the errors of
      each cosmology of the results (None: no directory results). *)
  Record loaded := mkLoaded { ld_fishers : dict string (tab * tab); ld_results : option (dict string tab) }.
  (** 346-349: the tests of the errors, the matrices and their inverses. *)
  Record verdict := mkVerdict { v_errors : dict string bool; v_fisher : dict string bool; v_inverse : dict string bool }.
  Definition pow10 (n : nat) : F := 1 / fpow (fnat 10) n.
  Definition fisher_metric (a b : loaded) (k : string) : res (string * (tab * tab)) :=
    x <- look (ld_fishers a) k ;;
    y <- look (ld_fishers b) k ;;
    m <- pad_tab (fst x) (fst y) ;;
    i <- pad_tab (snd x) (snd y) ;;
    Ok (k, (m, i)).
  Definition errors_metric (a b : dict string tab) (k : string) : res (string * tab) :=
    x <- look a k ;; y <- look b k ;; m <- pad_tab x y ;; Ok (k, m).
  (** 207-210 evaluateMetricsAndTest with 333-344. *)
  Definition compare (a b : loaded) : res verdict :=
    fs <- rmapM (fisher_metric a b) (common (dkeys (ld_fishers a)) (dkeys (ld_fishers b))) ;;
    match ld_results a, ld_results b with
    | Some ra, Some rb =>
        es <- rmapM (errors_metric ra rb) (common (dkeys ra) (dkeys rb)) ;;
        Ok (mkVerdict (check (pow10 6) es)
                      (check (pow10 5) (map (fun f => (fst f, fst (snd f))) fs))
                      (check (pow10 5) (map (fun f => (fst f, snd (snd f))) fs)))
    | _, _ => Err EAttributeError
    end.

  (** ** Results *)
  (** fisher_results.py:155-172 loadFromResultsDir with run_loader.py:159-167: for
      each cosmology the files of its directory errors. *)
  Definition glob_csv (prefix n : string) : bool := match strip_prefix prefix n with Some r => ends ".csv" r | None => false end.
  Definition one_file (prefix : string) (files : dict string tab) : res tab :=
    match filter (fun f => glob_csv prefix (fst f)) files with [f] => Ok (snd f) | _ => Err EException end.
  Definition load_results (dir : option (list (string * dict string tab))) : res (option (dict string tab)) :=
    match dir with
    | None => Ok None
    | Some l => d <- rmapM (fun cf => e <- one_file "errors" (snd cf) ;; _ <- one_file "relative_errors" (snd cf) ;; Ok (fst cf, e)) l ;; Ok (Some d)
    end.
  (** fisher_analysis.py:313-325: the files of an analysis. *)
  Definition written (name : string) (e r : tab) : dict string tab :=
    [(("marginalized_errors_" ++ name ++ ".xlsx")%string, e); (("marginalized_errors_" ++ name ++ ".csv")%string, e);
     (("relative_marginalized_errors_" ++ name ++ ".xlsx")%string, r); (("relative_marginalized_errors_" ++ name ++ ".csv")%string, r)].
End Compare.
Arguments tab : clear implicits.
Arguments loaded : clear implicits.

(** ** The version of a run *)
Definition is_lower (c : ascii) : bool := N.leb 97 (N_of_ascii c) && N.leb (N_of_ascii c) 122.
(** [0-9]\.[0-9]\.[0-9][a-z]? at the beginning of a text. *)
Definition version_at (s : string) : option string :=
  match s with
  | String a (String p (String b (String q (String c r)))) =>
      if is_digit a && Ascii.eqb p "." && is_digit b && Ascii.eqb q "." && is_digit c
      then Some (String a (String p (String b (String q (String c match r with String l _ => if is_lower l then String l "" else "" | "" => "" end)))))
      else None
  | _ => None
  end.
Fixpoint find_version (s : string) : option string :=
  match version_at s with
  | Some v => Some v
  | None => match s with "" => None | String _ r => find_version r end
  end%string.
(** run_loader.py:83-84: vregex.search(name).groups()[0]. *)
Definition run_version (name : string) : res string := match find_version name with Some v => Ok v | None => Err EAttributeError end.
(** task_runners.py:449-457, 485: the name of a run directory. *)
Definition run_name (id version stamp : string) : string := (id ++ "_" ++ version ++ (if String.eqb stamp "" then "" else "_" ++ stamp))%string.
