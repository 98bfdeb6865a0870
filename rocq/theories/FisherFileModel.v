(** Model of Fisher matrix files: seyfert/fisher/fisher_matrix.py:313-393 and
    multiple_regex_replace, seyfert/utils/general_utils.py:215-218. *)
From Verif Require Import Base SortLib StrLib FrameModel FisherModel FsModel.
Open Scope list_scope.

(** re.sub of single characters by single characters (general_utils.py:215-218
    with the dictionary of fisher_matrix.py:314-317). *)
Definition sub_char (a : ascii) : ascii :=
  if existsb (Ascii.eqb a) ["["; "]"; "("; ")"; " "]%char then "_"%char
  else if Ascii.eqb a "," then "-"%char else a.
Fixpoint smap (g : ascii -> ascii) (s : string) : string :=
  match s with EmptyString => EmptyString | String a r => String (g a) (smap g r) end.
(** s.strip("_"). *)
Fixpoint lstrip (c : ascii) (s : string) : string :=
  match s with
  | EmptyString => EmptyString
  | String a r => if Ascii.eqb a c then lstrip c r else s
  end.
Fixpoint rstrip (c : ascii) (s : string) : string :=
  match s with
  | EmptyString => EmptyString
  | String a r => match rstrip c r with
                  | EmptyString => if Ascii.eqb a c then EmptyString else String a EmptyString
                  | r' => String a r'
                  end
  end.
(** re.sub(r"_+", "_", s). *)
Fixpoint squeeze (c : ascii) (s : string) : string :=
  match s with
  | EmptyString => EmptyString
  | String a r =>
      let r' := squeeze c r in
      if Ascii.eqb a c then match r' with
                            | String b _ => if Ascii.eqb b c then r' else String a r'
                            | EmptyString => String a r'
                            end
      else String a r'
  end.
(** fisher_matrix.py:313-321 getFilename. *)
Definition fisher_suffix (name : string) : string :=
  squeeze "_" (rstrip "_" (lstrip "_" (smap sub_char name))).
Definition fisher_filename (name : string) : string :=
  ("fisher_" ++ fisher_suffix name ++ ".hdf5")%string.

Section Files.
  Context {F : Type} {K : Fld F} {SO : SetOrder}.
  Implicit Types f : fisher F.

  (** 341-351: the datasets in the order they are created. *)
  Definition cells f : list (list (option F)) :=
    map (fun a => map (fun b => ce (fmat f) a b) (cx (fmat f))) (ix (fmat f)).
  Definition datasets f : list (string * dval F) :=
    [("name"%string, DText (fname f)); ("indices"%string, DTexts (ix (fmat f)));
     ("fisher_matrix"%string, DMatrix (cells f)); ("cosmological_pars"%string, DTexts (fcosmo f))]
    ++ match fnuis f with [] => [] | _ => [("nuisance_pars"%string, DTexts (fnuis f))] end.

  (** The file operations of a write, in order. *)
  Inductive wop := WUnlink (p : path) | WCreate (p : path) | WData (p : path) (n : string) (v : dval F).
  Definition run_op (o : wop) (s : fs (h5 F)) : fs (h5 F) * res unit :=
    match o with
    | WUnlink p => p_unlink p s
    | WCreate p => p_write p ([] : h5 F) s
    | WData p n v =>
        match p_read s p with
        | Err e => (s, Err e)
        | Ok d => if dmem String.eqb d n then (s, Err EValueError) else p_write p (d ++ [(n, v)] : h5 F) s
        end
    end.
  Fixpoint run_ops (l : list wop) (s : fs (h5 F)) : fs (h5 F) * res unit :=
    match l with
    | [] => (s, Ok tt)
    | o :: l' => match run_op o s with
                 | (s', Err e) => (s', Err e)
                 | (s', Ok _) => run_ops l' s'
                 end
    end.
  (** 323-353 writeToFile: which operations are made in state [s]. *)
  Definition out_path (outdir outfile : option path) f : res path :=
    match outfile, outdir with
    | Some p, _ => Ok p
    | None, Some d => Ok (d ++ [fisher_filename (fname f)])
    | None, None => Err EDomain
    end.
  Definition write_ops (overwrite skip_if_exists : bool) (p : path) f (s : fs (h5 F)) : res (list wop) :=
    let body := WCreate p :: map (fun nv => WData p (fst nv) (snd nv)) (datasets f) in
    if p_exists s p then
      if skip_if_exists then Ok []
      else if overwrite then Ok (WUnlink p :: body) else Err EFileExists
    else Ok body.
  Definition fisher_write (outdir outfile : option path) (overwrite skip_if_exists : bool) f (s : fs (h5 F))
    : fs (h5 F) * res unit :=
    match out_path outdir outfile f with
    | Err e => (s, Err e)
    | Ok p => match write_ops overwrite skip_if_exists p f s with
              | Err e => (s, Err e)
              | Ok l => run_ops l s
              end
    end.

  (** 355-366, 380-385 fromHDF5: the columns are the stored row labels. *)
  Definition matrix_of (labels : list string) (rows : list (list (option F))) : res (frame F) :=
    if Nat.eqb (length rows) (length labels) && forallb (fun r => Nat.eqb (length r) (length labels)) rows
    then Ok (mkF labels labels (fun a b => nth (pos b labels) (nth (pos a labels) rows []) None))
    else Err EValueError.
  Definition fisher_load (v : h5ver) (p : path) (s : fs (h5 F)) : res (fisher F) :=
    d <- match p_read s p with Ok d => Ok d | Err _ => Err EOSError end ;;
    n <- rbind (h5_get d "name") as_text ;;
    nuis <- match h5_get d "nuisance_pars" with Err EKeyError => Ok [] | Err e => Err e | Ok x => as_texts x end ;;
    cosmo <- rbind (h5_get d "cosmological_pars") as_texts ;;
    ind <- rbind (h5_get d "indices") as_texts ;;
    rows <- rbind (h5_get d "fisher_matrix") as_matrix ;;
    m <- matrix_of (map (h5_text v) ind) rows ;;
    Ok (new_fisher m (h5_text v n) (map (h5_text v) cosmo) (map (h5_text v) nuis) true).
End Files.
