(** Model of the restartable stages of a run: seyfert/main/fisher_core.py:37-98,
    seyfert/main/seyfert_core.py:97-155, the batch form of the Fisher stage in
    seyfert/main/task_runners.py:302-350, and the paths of
    seyfert/utils/workspace.py:20-32.

    A stage is a program of atomic file operations that may look at the file
    system between them.  A crash (or a kill) happens between two operations:
    running with a budget of [n] operations gives the state a crash after [n]
    operations leaves.  Simplifications: an operation is atomic and durable (a
    half-written dataset or a corrupted HDF5 header is not represented); nobody
    else writes to the run directory. *)
From Verif Require Import Base SortLib StrLib FrameModel FisherModel FsModel FisherFileModel KeyModel.
Open Scope list_scope.

(** ** Programs *)
Section Prog.
  Context {St Op A : Type}.
  Variable step : Op -> St -> St * res unit.
  Inductive prog (A : Type) := Done (r : res A) | Do (o : Op) (k : prog A) | Look (k : St -> prog A).
  Arguments Done {A} _. Arguments Do {A} _ _. Arguments Look {A} _.
  (** Without interruption. *)
  Fixpoint exec (p : prog A) (s : St) : St * res A :=
    match p with
    | Done r => (s, r)
    | Look k => exec (k s) s
    | Do o k => match step o s with
                | (s', Err e) => (s', Err e)
                | (s', Ok _) => exec k s'
                end
    end.
  (** At most [n] operations; [None]: interrupted. *)
  Fixpoint run (p : prog A) (n : nat) (s : St) : St * option (res A) :=
    match p with
    | Done r => (s, Some r)
    | Look k => run (k s) n s
    | Do o k => match n with
                | 0 => (s, None)
                | S n' => match step o s with
                          | (s', Err e) => (s', Some (Err e))
                          | (s', Ok _) => run k n' s'
                          end
                end
    end.
  Definition crash (p : prog A) (n : nat) (s : St) : St := fst (run p n s).
  (** The operations made within the budget. *)
  Fixpoint trace (p : prog A) (n : nat) (s : St) : list Op :=
    match p with
    | Done _ => []
    | Look k => trace (k s) n s
    | Do o k => match n with
                | 0 => []
                | S n' => match step o s with
                          | (s', Err e) => [o]
                          | (s', Ok _) => o :: trace k n' s'
                          end
                end
    end.
  (** Started again and again, interrupted each time. *)
  Definition restarts (p : prog A) (ns : list nat) (s : St) : St := fold_left (fun s n => crash p n s) ns s.
End Prog.
Arguments Done {St Op A} _. Arguments Do {St Op A} _ _. Arguments Look {St Op A} _.
Arguments prog St Op A : clear implicits.
Fixpoint andthen {St Op A} (p : prog St Op unit) (q : prog St Op A) : prog St Op A :=
  match p with
  | Done (Ok _) => q
  | Done (Err e) => Done (Err e)
  | Do o k => Do o (andthen k q)
  | Look k => Look (fun s => andthen (k s) q)
  end.
Definition each {St Op B} (f : B -> prog St Op unit) (l : list B) : prog St Op unit :=
  fold_right (fun b p => andthen (f b) p) (Done (Ok tt)) l.

(** ** The Fisher stage *)
(** workspace.py:20-32. *)
Definition base_dir (rd : path) : path := rd ++ ["base_fishers"%string].
Definition store_file (rd : path) : path := rd ++ ["auto_fisher_of_ells.h5"%string].
(** fisher_core.py:83. *)
Definition fisher_file (rd : path) (brief : string) : path := base_dir rd ++ [("fisher_" ++ brief ++ ".hdf5")%string].
(** seyfert_core.py:153. *)
Definition ist_file (rd : path) : path := base_dir rd ++ ["fisher_IST_gcsp_pk.hdf5"%string].

Section Store.
  Context {V : Type}.
  (** The children of an HDF5 group are listed by name: a new key goes before
      the first one that is not smaller. *)
  Fixpoint store_ins (k : string) (v : V) (d : dict string V) : dict string V :=
    match d with
    | [] => [(k, v)]
    | (k', v') :: r => if String.leb k k' then (k, v) :: d else (k', v') :: store_ins k v r
    end.
  Definition store_del (k : string) (d : dict string V) : dict string V :=
    filter (fun kv => negb (String.eqb (fst kv) k)) d.
End Store.

Section FisherStage.
  Context {F : Type} {K : Fld F} {SO : SetOrder}.
  Variable rd : path.
  (** The Fisher evaluator (fisher_core.py:42-66 without the files), any total
      function of its inputs: for a single auto-correlation the table of
      Fisher(l) and the matrix, otherwise the matrix from the stored tables.
      The other inputs (parameters, covariances, derivatives) do not change
      during the stage. *)
  Variable auto_calc : dvec -> res (dval F * res (fisher F)).
  Variable cross_calc : dvec -> dict string (dval F) -> res (fisher F).

  Inductive pop :=
  | PMkdir (p : path)                    (* p.mkdir(exist_ok=True) *)
  | PRmtree (p : path)                   (* shutil.rmtree(p) *)
  | PUnlink (p : path)
  | PCalc (brief : string)               (* computing a matrix: no effect on files *)
  | PStoreOpen                           (* HDFStore(..., "a") on an absent file *)
  | PStoreDel (k : string)               (* put on an existing key removes the node first *)
  | PStoreBegin (k : string)             (* the group exists, its arrays are not yet complete *)
  | PStorePut (k : string) (v : dval F)
  | PFish (o : wop (F := F)).

  Definition upd_store (g : h5 F -> h5 F) (s : fs (h5 F)) : fs (h5 F) * res unit :=
    match p_read s (store_file rd) with
    | Err e => (s, Err e)
    | Ok d => p_write (store_file rd) (g d) s
    end.
  Fixpoint under (p q : path) : bool :=
    match p, q with
    | [], _ => true
    | x :: p', y :: q' => String.eqb x y && under p' q'
    | _ :: _, [] => false
    end.
  Definition pstep (o : pop) (s : fs (h5 F)) : fs (h5 F) * res unit :=
    match o with
    | PMkdir p => p_mkdir true p s
    | PRmtree p => (filter (fun e => negb (under p (fst e))) s, Ok tt)
    | PUnlink p => p_unlink p s
    | PCalc _ => (s, Ok tt)
    | PStoreOpen => p_write (store_file rd) ([] : h5 F) s
    | PStoreDel k => upd_store (store_del k) s
    | PStoreBegin k => upd_store (store_ins k (DText "incomplete")) s
    | PStorePut k v => upd_store (fun d => dset String.eqb d k v) s
    | PFish o => run_op o s
    end.
  Notation P := (prog (fs (h5 F)) pop).

  (** fisher_core.py:48-49: f_ell_df.to_hdf(hdf, key=probe). *)
  Definition store_put (k : string) (v : dval F) : P unit :=
    Look (fun s =>
      match p_read (C := h5 F) s (store_file rd) with
      | Ok d => if dmem String.eqb d k
                then Do (PStoreDel k) (Do (PStoreBegin k) (Do (PStorePut k v) (Done (Ok tt))))
                else Do (PStoreBegin k) (Do (PStorePut k v) (Done (Ok tt)))
      | Err _ => Do PStoreOpen (Do (PStoreBegin k) (Do (PStorePut k v) (Done (Ok tt))))
      end).
  (** fisher_matrix.py:323-353 writeToFile(outfile=p). *)
  Definition write_fisher (p : path) (f : fisher F) : P unit :=
    Look (fun s => match write_ops false false p f s with
                   | Err e => Done (Err e)
                   | Ok l => fold_right (fun o k => Do (PFish o) k) (Done (Ok tt)) l
                   end).
  (** fisher_core.py:37-69 compute_fisher_matrix, then 92 writeToFile. *)
  Definition save_fisher (brief : string) (r : res (fisher F)) : P unit :=
    match r with Ok f => write_fisher (fisher_file rd brief) f | Err e => Done (Err e) end.
  Definition compute_fisher (brief : string) (dv : dvec) : P unit :=
    match is_single_auto dv with
    | Err e => Done (Err e)
    | Ok true =>
        match auto_calc dv, involved_probes dv with
        | Err e, _ => Done (Err e)
        | Ok _, Err e => Done (Err e)
        | Ok _, Ok [] => Done (Err EIndexError)
        | Ok (fell, f), Ok (probe :: _) => andthen (store_put probe fell) (save_fisher brief f)
        end
    | Ok false =>
        Look (fun s => match p_read (C := h5 F) s (store_file rd) with
                       | Err _ => Done (Err EOSError)
                       | Ok d => if (length d <? 3)%nat then Done (Err EException)
                                 else save_fisher brief (cross_calc dv d)
                       end)
    end.
  (** fisher_core.py:78-96, one turn of the loop. *)
  Definition save_one (brief : string) : P unit :=
    match dv_from_brief brief with
    | Err e => Done (Err e)
    | Ok dv => Look (fun s => if p_exists s (fisher_file rd brief) then Done (Ok tt)
                              else Do (PCalc brief) (compute_fisher brief dv))
    end.
  Definition save_all (l : list string) : P unit := each save_one l.

  (** seyfert_core.py:137-155 compute_fishers; [sel]: the brief names of the
      selected data vectors, [ist]: the matrix read from the IST file. *)
  Definition auto_briefs : list string := ["phph"; "spsp"; "wlwl"]%string.
  Definition fisher_stage (sel : res (list string)) (ist : res (fisher F)) : P unit :=
    Do (PMkdir (base_dir rd))
      (andthen (save_all auto_briefs)
        match sel with
        | Err e => Done (Err e)
        | Ok l => andthen (save_all l)
                    match ist with Err e => Done (Err e) | Ok f => write_fisher (ist_file rd) f end
        end).

  (** task_runners.py:302-350: the batch form.  The auto-correlations are one
      job, each other data vector is a job of its own (bin/compute_fisher_matrix:
      outdir.mkdir(exist_ok=True) and compute_and_save_fishers).  The jobs run one
      after the other here. *)
  Definition fisher_job (l : list string) : P unit := Do (PMkdir (base_dir rd)) (save_all l).
  Definition clear_output (overwrite : bool) : P unit :=
    if overwrite then
      Look (fun s =>
        andthen (if p_isdir s (base_dir rd) then Do (PRmtree (base_dir rd)) (Done (Ok tt)) else Done (Ok tt))
                (if p_exists s (store_file rd) then Do (PUnlink (store_file rd)) (Done (Ok tt)) else Done (Ok tt)))
    else Done (Ok tt).
  Definition batch_stage (overwrite : bool) (auto cross : list string) : P unit :=
    andthen (clear_output overwrite)
      (Do (PMkdir (base_dir rd))
        (Look (fun s =>
          andthen (if p_exists s (store_file rd) then Done (Ok tt) else fisher_job auto)
                  (each (fun b => fisher_job [b]) cross)))).
End FisherStage.

(** ** Selected data vectors: fisher_utils.py:85-95.  Lines end with a newline and
    have no white space but spaces around them. *)
Definition keep_line (l : string) : bool :=
  negb (starts "#" l) && negb (String.eqb l "").
Definition trim (s : string) : string := lstrip " " (rstrip " " s).
Definition selected_briefs (text : string) : res (list string) :=
  dvs <- rmapM dv_from_string (filter keep_line (map trim (split_char (ascii_of_nat 10) text))) ;;
  rmapM dv_brief dvs.

(** ** The derivative stage: seyfert_core.py:97-134. *)
Section DerivativeStage.
  Context {V : Type}.
  Variable rd : path.
  (** The derivatives with respect to one parameter (any function; the inputs
      do not change). *)
  Variable calc : string -> res V.
  Definition der_dir (rd : path) : path := rd ++ ["Derivative"%string].
  Definition ders_file (rd : path) : path := der_dir rd ++ ["cl_ders.pickle"%string].

  (** The content of a pickle file: [None] while it is incomplete. *)
  Definition pickle := option (dict string V).
  Inductive dop :=
  | DMkdir                        (* ws.der_dir.mkdir() *)
  | DCalc (dvar : string)         (* no effect on files *)
  | DOpen                         (* open(..., "wb") *)
  | DDump (d : dict string V).
  Definition dstep (o : dop) (s : fs pickle) : fs pickle * res unit :=
    match o with
    | DMkdir => p_mkdir false (der_dir rd) s
    | DCalc _ => (s, Ok tt)
    | DOpen => p_write (ders_file rd) None s
    | DDump d => p_write (ders_file rd) (Some d) s
    end.
  Fixpoint compute_ders (todo : list string) (acc : dict string V) : prog (fs pickle) dop (dict string V) :=
    match todo with
    | [] => Do DOpen (Do (DDump acc) (Done (Ok acc)))
    | dvar :: r => Do (DCalc dvar)
                     match calc dvar with
                     | Err e => Done (Err e)
                     | Ok v => compute_ders r (dset String.eqb acc dvar v)
                     end
    end.
  (** pickle.load of an incomplete file raises. *)
  Definition derivative_stage (free : list string) : prog (fs pickle) dop (dict string V) :=
    Look (fun s =>
      if p_isdir (C := pickle) s (der_dir rd)
      then match p_read (C := pickle) s (ders_file rd) with
           | Err e => Done (Err e)
           | Ok None => Done (Err EException)
           | Ok (Some d) => Done (Ok d)
           end
      else Do DMkdir (compute_ders free [])).
End DerivativeStage.
