(** Model of the final results of a run on disk:
    seyfert/fisher/final_results_core.py:27-103, the saving and loading methods
    of seyfert/fisher/fisher_analysis.py (70-97, 160-175, 228-231, 309-330) and
    seyfert/utils/workspace.py:193-200.

    State: the heap of FisherMatrix objects and a file system whose files are
    HDF5 contents; the contents pandas gives to the tables of errors are the
    functions [csv] and [xlsx].  Logging, metadata and the name given to a loaded analysis are
    left out; an analysis of create_final_results has the default name
    "test_analysis" (fisher_analysis.py:37). *)
From Verif Require Import Base SortLib StrLib FrameModel FisherModel FsModel FisherFileModel TableModel NameModel HeapModel ResultsModel.
Open Scope list_scope.

Section Out.
  Context {F : Type} {K : Fld F} {O : OFld (F := F)} {S : SqrtFld F} {SO : SetOrder}.
  Context (csv xlsx : table (F := F) -> h5 F).

  Definition st := (heap F * fs (h5 F))%type.
  (** Programs on the state. *)
  Definition P (A : Type) := st -> st * res A.
  Definition pret {A} (x : A) : P A := fun s => (s, Ok x).
  Definition praise {A} (e : exc) : P A := fun s => (s, Err e).
  Definition pbind {A B} (m : P A) (k : A -> P B) : P B :=
    fun s => match m s with (s', Ok x) => k x s' | (s', Err e) => (s', Err e) end.
  Fixpoint peach {X} (f : X -> P unit) (l : list X) : P unit :=
    match l with [] => pret tt | x :: l' => pbind (f x) (fun _ => peach f l') end.
  (** Working on one half of the state. *)
  Definition on_heap {A} (m : M F A) : P A := fun s => let (h, r) := m (fst s) in ((h, snd s), r).
  Definition on_disk {A} (m : fs (h5 F) -> fs (h5 F) * res A) : P A := fun s => let (d, r) := m (snd s) in ((fst s, d), r).

  (** d.glob("fisher*.hdf5"): the names of the entries of the directory, in any
      order; nothing if it is not a directory. *)
  Definition entries (d : path) (s : fs (h5 F)) : list string :=
    flat_map (fun e => match fst e with
                       | [] => []
                       | p => if sl_eqb (removelast p) d then [last p ""%string] else []
                       end) s.
  Definition is_fisher_file (n : string) : bool :=
    match strip_prefix "fisher" n with Some r => ends ".hdf5" r | None => false end.
  Definition fisher_files (d : path) (s : fs (h5 F)) : list string :=
    if p_isdir s d then set_of (filter is_fisher_file (entries d s)) else [].

  (** p.mkdir(parents=True, exist_ok=True), on the reversed path: the parents
      are made only when the directory cannot be made without.  A file among the
      parents raises NotADirectoryError in Python, FileExistsError here. *)
  Fixpoint mkdirs_rev (rp : list string) (s : fs (h5 F)) : fs (h5 F) * res unit :=
    match rp with
    | [] => (s, Ok tt)
    | x :: rp' =>
        match p_mkdir true (rev (x :: rp')) s with
        | (s1, Err EFileNotFound) =>
            match mkdirs_rev rp' s1 with
            | (s2, Ok _) => p_mkdir true (rev (x :: rp')) s2
            | o => o
            end
        | o => o
        end
    end.
  Definition p_mkdirs (p : path) := mkdirs_rev (rev p).

  (** final_results_core.py:31-34: the dictionary of base matrices; [v] is the
      version of h5py. *)
  Definition load_fisher (v : h5ver) (p : path) : P (fisher F) := fun s => (s, fisher_load v p (snd s)).
  Fixpoint load_base (v : h5ver) (d : path) (files : list string) (acc : odict) : P odict :=
    match files with
    | [] => pret acc
    | n :: files' =>
        pbind (load_fisher v (d ++ [n])) (fun f =>
        pbind (on_heap (fun h => let (h', a) := h_alloc f h in (h', Ok a))) (fun a =>
        load_base v d files' (dset String.eqb acc (fname f) a)))
    end.

  (** fisher_analysis.py:228-231 saveFishersToDisk. *)
  Definition save_fisher (outdir : path) (ow : bool) (a : nat) : P unit :=
    fun s => match hget (fst s) a with
             | Err e => (s, Err e)
             | Ok f => on_disk (fisher_write (Some outdir) None ow false f) s
             end.
  Definition save_fishers (outdir : path) (ow : bool) (an : analysis F) : P unit :=
    peach (fun ka => save_fisher outdir ow (snd ka)) (an_fishers an).
  (** 309-330: four tables; a missing table (None) has no attribute to call. *)
  Definition save_table (t : option (table (F := F))) (p : path) (ow : bool) : P unit :=
    match t with
    | None => praise EAttributeError
    | Some t => on_disk (write_table csv xlsx t p ow)
    end.
  Definition save_tables (outdir : path) (ow : bool) (an : analysis F) : P unit :=
    pbind (save_table (an_errs an) (outdir ++ ["marginalized_errors_test_analysis.xlsx"%string]) ow) (fun _ =>
    pbind (save_table (an_errs an) (outdir ++ ["marginalized_errors_test_analysis.csv"%string]) ow) (fun _ =>
    pbind (save_table (an_rel an) (outdir ++ ["relative_marginalized_errors_test_analysis.xlsx"%string]) ow) (fun _ =>
    save_table (an_rel an) (outdir ++ ["relative_marginalized_errors_test_analysis.csv"%string]) ow))).

  (** final_results_core.py:92-98. *)
  Definition variant_dir (mb fx : bool) : string :=
    if fx then "nuis_fixed"%string else if mb then "marg_before"%string else "marg_after"%string.
  (** 58-103: the result set, its directory, its matrices and its tables. *)
  Definition save_results (base : odict) (fids : dict string F) (posts : list string) (main : path) (ow : bool)
    (cosmology : string) (mb fx : bool) : P (analysis F) :=
    pbind (on_heap (create_results base cosmology fids posts mb fx)) (fun an =>
    let outdir := main ++ [cosmology; variant_dir mb fx] in
    pbind (on_disk (p_mkdirs outdir)) (fun _ =>
    pbind (save_fishers outdir ow an) (fun _ =>
    pbind (save_tables outdir ow an) (fun _ => pret an)))).
  (** 36-56; the values of marg_nuis_before and fix_nuisance of the three
      calls. *)
  Definition variants : list (bool * bool) := [(true, false); (false, false); (true, true)].
  Definition cosmologies : list string := ["w0_wa_CDM"; "LCDM"]%string.
  Definition save_all (base : odict) (fids : dict string F) (posts : list string) (main : path) (ow : bool) : P unit :=
    peach (fun c => peach (fun v => pbind (save_results base fids posts main ow c (fst v) (snd v)) (fun _ => pret tt)) variants) cosmologies.
  (** 27-56 create_final_results; [fids] are the fiducial values of the free
      cosmological parameters of the run, [posts] the names of the
      combinations. *)
  Definition create_final (v : h5ver) (base_dir main : path) (fids : dict string F) (posts : list string) (ow : bool) : P unit :=
    fun s => pbind (load_base v base_dir (fisher_files base_dir (snd s)) []) (fun base =>
             pbind (on_disk (p_mkdirs main)) (fun _ => save_all base fids posts main ow)) s.

  (** fisher_analysis.py:160-175 loadBaseFishersFromDir, for the default
      marginalize_nuisance=True and fiducials that are given. *)
  Definition with_cosmo (c : list string) (f : fisher F) : fisher F :=
    mkFisher (fmat f) (fname f) c (fnuis f) (finverse f) (fcorr f) (fmflag f).
  Definition load_relevant (v : h5ver) (fids : dict string F) (p : path) : P (fisher F) :=
    fun s => match fisher_load v p (snd s) with
             | Err e => (s, Err e)
             | Ok f => match select_relevant (with_cosmo (set_of (dkeys fids)) f) with
                       | (g, Ok _) => (s, Ok g)
                       | (_, Err e) => (s, Err e)
                       end
             end.
  Fixpoint load_dir (v : h5ver) (fids : dict string F) (d : path) (files : list string) (acc : odict) : P odict :=
    match files with
    | [] => pret acc
    | n :: files' =>
        pbind (load_relevant v fids (d ++ [n])) (fun f =>
        pbind (on_heap (fun h => let (h', a) := h_alloc f h in (h', Ok a))) (fun a =>
        load_dir v fids d files' (dset String.eqb acc (fname f) a)))
    end.
  (** 70-78 fromFishersDir. *)
  Definition from_dir (v : h5ver) (fids : dict string F) (d : path) : P (analysis F) :=
    fun s => if negb (p_isdir (snd s) d || p_exists (snd s) d) then (s, Err EFileNotFound)
             else pbind (load_dir v fids d (fisher_files d (snd s)) []) (fun b s' =>
                    (s', use_base (mkAn (Some b) [] None fids None None true))) s.
  (** 80-97 fromRundir with the directory of workspace.py:193-200; [names] are
      all parameters of the run.  del params[k] of an absent key raises
      KeyError. *)
  Definition del_par (k : string) (pf : list string * dict string F) : res (list string * dict string F) :=
    if smem k (fst pf) then Ok (filter (fun x => negb (String.eqb x k)) (fst pf), filter (fun nv => negb (String.eqb (fst nv) k)) (snd pf))
    else Err EKeyError.
  Definition from_rundir (v : h5ver) (run_dir : path) (names : list string) (fids : dict string F) (cosmology sub : string) : P (analysis F) :=
    fun s => match (if String.eqb cosmology "LCDM"
                    then rbind (del_par "w0" (names, fids)) (del_par "wa") else Ok (names, fids)) with
             | Err e => (s, Err e)
             | Ok pf => pbind (from_dir v (snd pf) (run_dir ++ ["final_results"%string; cosmology; sub])) (fun an s' => (s', use_base an)) s
             end.
End Out.
