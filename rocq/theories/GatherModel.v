(** Model of seyfert/fisher/results_collector.py: tables of errors and analyses of
    several runs.

    A sheet is what pandas reads from a file of errors; a row lists its cells,
    a missing cell is NaN.  Options have scalar values.  A run is given by the
    files of its result directories (workspace.py:193-199), the options of its
    configuration and what FisherAnalysis.fromRundir gives (C103).  Left out:
    logging, the writing of Excel files and of the pickle.  The analyses of a
    frame are different objects. *)
From Verif Require Import Base SortLib StrLib FrameModel FisherModel NameModel WsModel HeapModel ResultsModel ConfigModel.
Open Scope string_scope.
Open Scope list_scope.

Section Gather.
  Context {F : Type} {K : Fld F} {O : OFld (F := F)} {S : SqrtFld F} {SO : SetOrder}.

  (** ** Tables read from files *)
  Inductive cell := CNum (x : F) | COpt (v : sval F).
  Definition cells := dict string cell.
  Record sheet := mkSheet { sh_index : option string; sh_cols : list string; sh_rows : list (string * cells) }.
  Record run := mkRun {
    run_files : string -> string -> list (string * sheet);  (** cosmology, variant *)
    run_opts : @opts F;
    run_analysis : string -> string -> res (analysis F) }.

  (** The pattern prefix*.csv of glob. *)
  Definition is_table (prefix n : string) : bool :=
    match strip_prefix prefix n with Some r => ends ".csv" r | None => false end.
  (** filesystem_utils.py:140-146. *)
  Definition the_table (prefix : string) (files : list (string * sheet)) : res sheet :=
    match filter (fun f => is_table prefix (fst f)) files with [f] => Ok (snd f) | _ => Err EException end.
  (** df[name] = value. *)
  Definition add_name (l : list string) (c : string) : list string := if smem c l then l else l ++ [c].
  Definition set_col (t : sheet) (nv : string * sval F) : sheet :=
    mkSheet (sh_index t) (add_name (sh_cols t) (fst nv)) (map (fun r => (fst r, dset String.eqb (snd r) (fst nv) (COpt (snd nv)))) (sh_rows t)).
  (** 49-59: the table of one run. *)
  Definition run_sheet (prefix cosmology sub : string) (r : run) : res sheet :=
    t <- the_table prefix (run_files r cosmology sub) ;;
    let t := mkSheet (Some (match sh_index t with None => "fisher" | Some n => n end)) (sh_cols t) (sh_rows t) in
    Ok (fold_left set_col (run_opts r) t).
  (** pd.concat(dfs).reset_index(): the rows one after the other; the index is
      named only if all agree. *)
  Definition opt_same (a b : option string) : bool :=
    match a, b with Some x, Some y => String.eqb x y | None, None => true | _, _ => false end.
  Record book := mkBook { bk_label : string; bk_cols : list string; bk_rows : list (string * cells) }.
  Definition gather (ts : list sheet) : res book :=
    match ts with
    | [] => Err EValueError
    | t :: _ =>
        let cols := fold_left add_name (flat_map sh_cols ts) [] in
        let label := match sh_index t with
                     | Some n => if forallb (fun u => opt_same (sh_index u) (Some n)) ts then n else "index"
                     | None => "index"
                     end in
        if smem label cols then Err EValueError else Ok (mkBook label cols (flat_map sh_rows ts))
    end.
  (** 47-63 buildErrorsTable, 37-45. *)
  Definition build_errors (prefix cosmology sub : string) (runs : list run) : res book :=
    ts <- rmapM (run_sheet prefix cosmology sub) runs ;; gather ts.
  Definition build_relative := build_errors "relative_marginalized_errors".
  Definition build_absolute := build_errors "marginalized_errors".

  (** ** The frame of analyses *)
  Inductive fcell := FOpt (v : sval F) | FAn (a : analysis F).
  Definition frow := dict string fcell.
  Record frame := mkFrame { fr_indexed : bool; fr_cols : list string; fr_rows : list frow }.
  (** 65-75 buildFisherAnalysesDataFrame: the columns are those of the first run;
      a row that is too short is filled up with None; the longest must have as
      many cells as there are columns. *)
  Definition width {A} (rows : list (list A)) : nat := fold_right (fun r n => Nat.max (length r) n) 0 rows.
  Definition build_frame (cosmology sub : string) (runs : list run) : res frame :=
    rows <- rmapM (fun r => an <- run_analysis r cosmology sub ;; Ok (map (fun kv => FOpt (snd kv)) (run_opts r) ++ [FAn an])) runs ;;
    match runs with
    | [] => Err EIndexError
    | r :: _ =>
        let cols := dkeys (run_opts r) ++ ["analysis"] in
        if Nat.eqb (width rows) (length cols)
        then Ok (mkFrame false cols (map (fun row => combine cols (row ++ repeat (FOpt SNull) (width rows - length row))) rows))
        else Err EValueError
    end.
  (** 97-106: one analysis of loadFisherAnalysesPickle. *)
  Definition complete (an : analysis F) : M F (analysis F) :=
    bind (match an_errs an with None => eval_errors an | Some _ => ret an end) (fun a =>
    match an_rel a with None => of_res (eval_rel a) | Some _ => ret a end).

  (** 108-125 replaceHybridFishersWith4BinsEquivalents. *)
  Definition index_cols : list string := ["n_sp_bins"; "scenario"; "shot_noise_sp_reduced"; "gcph_minus_gcsp"; "gcph_only_bins_in_spectro_range"].
  Definition fcell_eqb (a b : option fcell) : bool :=
    match a, b with Some (FOpt v), Some (FOpt w) => sv_eqb v w | _, _ => false end.
  Definition same_at (cols : list string) (r r' : frow) : bool := forallb (fun c => fcell_eqb (dget String.eqb r c) (dget String.eqb r' c)) cols.
  Definition four_bins (r : frow) : bool := fcell_eqb (dget String.eqb r "n_sp_bins") (Some (FOpt (SInt 4))).
  (** Equality of index entries; a repeated one makes .loc give a frame. *)
  Fixpoint distinct_rows (rows : list frow) : bool :=
    match rows with [] => true | r :: rows' => forallb (fun r' => negb (same_at index_cols r r')) rows' && distinct_rows rows' end.
  Definition row_analysis (r : frow) : res (analysis F) :=
    match dget String.eqb r "analysis" with Some (FAn a) => Ok a | _ => Err EAttributeError end.
  (** analyses_df.loc[(4, *other)].analysis; [None]: a column of analyses. *)
  Definition equivalent (rows : list frow) (r : frow) : res (option (analysis F)) :=
    match filter (fun r' => four_bins r' && same_at (tl index_cols) r' r) rows with
    | [] => Err EKeyError
    | r' :: _ => if distinct_rows rows then a <- row_analysis r' ;; Ok (Some a) else Ok None
    end.
  Definition with_fishers (d : odict) (an : analysis F) : analysis F :=
    mkAn (an_base an) d (an_order an) (an_fid an) (an_errs an) (an_rel an) (an_flag an).
  (** 121-123: one matrix.  The row of errors is aligned on the columns of the
      table it is put into. *)
  Definition r_cell (r : row (F := F)) (c : string) : option F := match dget String.eqb r c with Some v => v | None => None end.
  Definition replace_one (a4 : option (analysis F)) (n : string) (a : analysis F) : analysis F * res unit :=
    if negb (occurs "Pk" n) then (a, Ok tt)
    else match a4 with
         | None => (a, Err EAttributeError)
         | Some a4 =>
             match dget String.eqb (an_fishers a4) n with
             | None => (a, Err EKeyError)
             | Some f =>
                 let a1 := with_fishers (dset String.eqb (an_fishers a) n f) a in
                 match an_errs a4 with
                 | None => (a1, Err EAttributeError)
                 | Some t4 =>
                     match dget String.eqb t4 n with
                     | None => (a1, Err EKeyError)
                     | Some r4 =>
                         match an_errs a1 with
                         | None => (a1, Err EAttributeError)
                         | Some t => (with_errs (dset String.eqb t n (map (fun c => (c, r_cell r4 c)) (t_cols t))) a1, Ok tt)
                         end
                     end
                 end
             end
         end.
  Fixpoint replace_names (a4 : option (analysis F)) (ns : list string) (a : analysis F) : analysis F * res unit :=
    match ns with
    | [] => (a, Ok tt)
    | n :: ns' => match replace_one a4 n a with (a', Ok _) => replace_names a4 ns' a' | o => o end
    end.
  (** 113-123: row number [i]. *)
  Fixpoint set_nth {A} (i : nat) (x : A) (l : list A) : list A :=
    match l, i with [], _ => [] | _ :: l', 0%nat => x :: l' | y :: l', Datatypes.S i' => y :: set_nth i' x l' end.
  Definition replace_row (i : nat) (rows : list frow) : list frow * res unit :=
    match nth_error rows i with
    | None => (rows, Ok tt)
    | Some r =>
        if four_bins r then (rows, Ok tt)
        else match (e <- equivalent rows r ;; a <- row_analysis r ;; Ok (e, a)) with
             | Err x => (rows, Err x)
             | Ok (a4, a) =>
                 let (a', o) := replace_names a4 (dkeys (an_fishers a)) a in
                 (set_nth i (dset String.eqb r "analysis" (FAn a')) rows, o)
             end
    end.
  Fixpoint replace_rows (is : list nat) (rows : list frow) : list frow * res unit :=
    match is with
    | [] => (rows, Ok tt)
    | i :: is' => match replace_row i rows with (rows', Ok _) => replace_rows is' rows' | o => o end
    end.
  (** set_index removes the five columns, reset_index puts them back in front; an
      exception in between leaves them in the index. *)
  Definition replace_hybrid (f : frame) : frame * res unit :=
    if fr_indexed f || negb (subsetb index_cols (fr_cols f)) then (f, Err EKeyError)
    else
      let cols := index_cols ++ filter (fun c => negb (smem c index_cols)) (fr_cols f) in
      match replace_rows (seq 0 (length (fr_rows f))) (fr_rows f) with
      | (rows, Ok _) => (mkFrame false cols rows, Ok tt)
      | (rows, Err e) => (mkFrame true cols rows, Err e)
      end.

  (** ** Choosing analyses *)
  (** 127-134 getFisherAnalysesSubDf: the text "key == value and ..." is read by
      DataFrame.query.  A text value stands there without quotes: it is read as
      the name of a column.  (Texts that are no names, and None, are not
      modelled.) *)
  Definition known (cols : list string) (kv : string * sval F) : bool :=
    smem (fst kv) cols && match snd kv with SStr s => smem s cols | _ => true end.
  Definition meant (r : frow) (v : sval F) : option fcell :=
    match v with SStr s => dget String.eqb r s | v => Some (FOpt v) end.
  Definition fulfils (sel : @opts F) (r : frow) : bool :=
    forallb (fun kv => fcell_eqb (dget String.eqb r (fst kv)) (meant r (snd kv))) sel.
  Definition sub_frame (sel : @opts F) (f : frame) : res (list frow) :=
    match sel with
    | [] => Err EValueError
    | _ => if forallb (known (fr_cols f)) sel then Ok (filter (fulfils sel) (fr_rows f)) else Err EException
    end.
  Definition sub_analyses (sel : @opts F) (names : option (list string)) (f : frame) : res (list frow) :=
    rows <- sub_frame sel f ;;
    match names with
    | None => Ok rows
    | Some ns => rmapM (fun r => a <- row_analysis r ;; a' <- subset_analysis ns a ;; Ok (dset String.eqb r "analysis" (FAn a'))) rows
    end.

  (** 136-149 getErrorsTableFromAnalysesDataFrame: the rows (label and cells). *)
  Definition analysis_rows (relative : bool) (r : frow) : res (list (string * cells)) :=
    a <- row_analysis r ;;
    match (if relative then an_rel a else an_errs a) with
    | None => Err EAttributeError
    | Some t =>
        let os := flat_map (fun kc => match snd kc with FOpt v => if String.eqb (fst kc) "analysis" then [] else [(fst kc, v)] | FAn _ => [] end) r in
        Ok (map (fun kr => (fst kr, fold_left (fun d kv => dset String.eqb d (fst kv) (COpt (snd kv))) os
                 (flat_map (fun c => match t_cell t (fst kr) c with Some x => [(c, CNum x)] | None => [] end) (t_cols t)))) t)
    end.
  Definition errors_of_frame (relative : bool) (f : frame) : res (list (string * cells)) :=
    match fr_rows f with
    | [] => Err EValueError
    | rows => ls <- rmapM (analysis_rows relative) rows ;; Ok (concat ls)
    end.
End Gather.
Arguments run F : clear implicits.
Arguments sheet F : clear implicits.
Arguments frame F : clear implicits.
