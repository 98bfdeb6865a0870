(** Model of the derivative stage: seyfert/derivatives/cl_derivative.py:17-134 (ClDerivative,
    ClDerivativeCollector), bin/compute_derivatives:29-57 (in a run, not standalone) and how
    the Fisher stage reads its files, seyfert/main/fisher_core.py:23-25.

    A file of angular spectra is what it gives for two probes (its multipoles and
    its array, or an error): [read]; loading the cosmology of the fiducial spectrum
    and the analytic derivative (ClModel) are arguments.  A file of derivatives is
    its groups; their names contain no "/".  Simplifications: logging, compression and
    the unused attributes are left out; a file with an error in writing is given with
    what was written before. *)
From Verif Require Import Base SortLib StrLib FrameModel KeyModel ParamModel EvalModel OrdLib NameModel WsModel StemModel.
Open Scope list_scope.

Section Der.
  Context {F : Type} {K : Fld F} {O : OFld (F := F)}.
  Context (degen : list F -> list F -> F * F).
  Context (read : string * string -> string -> string -> res (list F * cube F)).
  Context (load_cosmology : string -> string -> res unit).
  Context (analytic : param F -> string -> string -> cube F -> res (cube F)).

  (** 17-35. *)
  Record derivative := mkDer { d_p1 : string; d_p2 : string; d_ells : option (list F); d_dc : option (cube F) }.
  Definition dcoll := dict string derivative.

  (** 49-60 evaluate, with differentiator.py:31-44, 62-71, 146-160, 167-171; [L] is the
      directory Angular. *)
  Definition evaluate (L : listing) (c : coll F) (p : param F) (d : derivative) : res derivative :=
    let p1 := d_p1 d in let p2 := d_p2 d in
    if String.eqb (dmethod p) "SteM" then
      f0 <- cl_file L "central" 0 ;; fid <- read f0 p1 p2 ;;
      files <- collect_files L (pp_name p) ;;
      cubes <- rmapM (fun f => x <- read f p1 p2 ;; Ok (snd x)) files ;;
      cs <- stack cubes ;;
      dc <- compute_derivative p p1 p2 (snd fid) (fun _ => x <- phys_stem_values (pp_name p) c ;; do_derivative degen true x cs) ;;
      Ok (mkDer p1 p2 (Some (fst fid)) (Some dc))
    else if String.eqb (dmethod p) "Analytic" then
      f0 <- cl_file L "central" 0 ;; fid <- read f0 p1 p2 ;;
      _ <- load_cosmology p1 p2 ;;
      dc <- compute_derivative p p1 p2 (snd fid) (fun _ => analytic p p1 p2 (snd fid)) ;;
      Ok (mkDer p1 p2 (Some (fst fid)) (Some dc))
    else Err ENotImplemented.
  (** 99-103 setUp. *)
  Definition set_up (pairs : list (string * string)) : dcoll :=
    fold_left (fun d pq => dset String.eqb d (comb_key (fst pq) (snd pq)) (mkDer (fst pq) (snd pq) None None)) pairs [].
  (** 94-97 evaluateDerivatives. *)
  Definition evaluate_all (L : listing) (c : coll F) (p : param F) (d : dcoll) : res dcoll :=
    rmapM (fun kv => x <- evaluate L c p (snd kv) ;; Ok (fst kv, x)) d.

  (** 105-113 writeToFile; h5py takes no dataset without data but with compression. *)
  Record group := mkGroup { g_dc : option (cube F); g_ells : option (list F) }.
  Definition hfile := dict string group.
  Fixpoint write_groups (d : dcoll) (h : hfile) : hfile * res unit :=
    match d with
    | [] => (h, Ok tt)
    | (k, x) :: d =>
        if dmem String.eqb h k then (h, Err EValueError) else
        match d_dc x with
        | None => (dset String.eqb h k (mkGroup None None), Err ETypeError)
        | Some dc =>
            match d_ells x with
            | None => (dset String.eqb h k (mkGroup (Some dc) None), Err ETypeError)
            | Some l => write_groups d (dset String.eqb h k (mkGroup (Some dc) (Some l)))
            end
        end
    end.
  Definition write_file (d : dcoll) : hfile * res unit := write_groups d [].
  (** 115-128 loadFromFile: the groups come in alphabetical order. *)
  Definition load_file (h : hfile) : res dcoll :=
    fold_left (fun acc k =>
      d <- acc ;;
      match comb_probes k with
      | [p1; p2] =>
          g <- dgetr h k ;;
          match g_dc g, g_ells g with
          | Some dc, Some l => Ok (dset String.eqb d k (mkDer p1 p2 (Some l) (Some dc)))
          | _, _ => Err EKeyError
          end
      | _ => Err EValueError
      end) (isort String.leb (dkeys h)) (Ok []).

  (** compute_derivatives:45-57: the name of the file and what is in it; [dir] is the
      working directory, [pairs] forecast_config.probes_combinations. *)
  Definition outfile_name (dvar : string) (probes : list string) : string :=
    ("cl_derivatives_" ++ dvar ++ "_" ++ join "_" probes ++ ".h5")%string.
  Definition stage (L : listing) (c : coll F) (dir : string) (probes : list string) (pairs : list (string * string)) : res (string * hfile) :=
    let dvar := parse_derivative_dir dir in
    p <- match pget c dvar with Some p => Ok p | None => Err EKeyError end ;;
    d <- evaluate_all L c p (set_up pairs) ;;
    match write_file d with (h, Ok _) => Ok (outfile_name dvar probes, h) | (_, Err e) => Err e end.

  (** fisher_core.py:23-25: the collectors of all parameters; [content] is what is
      in the files of the directory Derivative. *)
  Definition read_derivatives {SO : SetOrder} (D : entries) (content : string * string -> hfile) : res (dict string dcoll) :=
    rmapM (fun dvar => f <- get_der_file D dvar ;; d <- load_file (content f) ;; Ok (dvar, d)) (der_params D).
End Der.
Arguments derivative : clear implicits.
Arguments dcoll : clear implicits.
Arguments group : clear implicits.
Arguments hfile : clear implicits.
