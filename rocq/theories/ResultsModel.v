(** Model of seyfert/fisher/fisher_analysis.py:34-266 and
    seyfert/fisher/final_results_core.py:20-138, on the heap of HeapModel.

    Simplifications: analysis names, metadata, TeX and the saving of files are
    left out (files: FisherFileModel); a table of errors is a dictionary of
    rows, the order of rows and columns is not modelled. *)
From Verif Require Import Base SortLib StrLib FrameModel FisherModel HeapModel.
Open Scope list_scope.

Section Results.
  Context {F : Type} {K : Fld F} {O : OFld (F := F)} {S : SqrtFld F} {SO : SetOrder}.

  (** Programs: state and exceptions. *)
  Definition M (A : Type) := heap F -> heap F * res A.
  Definition ret {A} (x : A) : M A := fun h => (h, Ok x).
  Definition raise {A} (e : exc) : M A := fun h => (h, Err e).
  Definition bind {A B} (m : M A) (k : A -> M B) : M B :=
    fun h => match m h with (h', Ok x) => k x h' | (h', Err e) => (h', Err e) end.
  Definition of_res {A} (r : res A) : M A := fun h => (h, r).
  Fixpoint for_each {X} (f : X -> M unit) (l : list X) : M unit :=
    match l with [] => ret tt | x :: l' => bind (f x) (fun _ => for_each f l') end.
  Fixpoint map_each {X Y} (f : X -> M Y) (l : list X) : M (list Y) :=
    match l with [] => ret [] | x :: l' => bind (f x) (fun y => bind (map_each f l') (fun ys => ret (y :: ys))) end.

  (** A dictionary of FisherMatrix objects. *)
  Definition odict := dict string nat.

  (** copy.deepcopy of a dictionary of FisherMatrix: an object met twice is
      copied once (the memo of the copy module). *)
  Fixpoint deepcopy (d : odict) (memo : dict nat nat) : M odict :=
    match d with
    | [] => ret []
    | (k, a) :: d' =>
        match dget Nat.eqb memo a with
        | Some b => bind (deepcopy d' memo) (fun r => ret ((k, b) :: r))
        | None => bind (h_copy a) (fun b => bind (deepcopy d' (dset Nat.eqb memo a b)) (fun r => ret ((k, b) :: r)))
        end
    end.

  (** ** A posteriori combinations *)
  Definition is_op (s : string) : bool := String.eqb s "+" || String.eqb s "-".
  (** re.split(r" (\+|-) ", s): operands and operators in turn. *)
  Fixpoint split_ops (cur : string) (s : string) : list string :=
    match s with
    | EmptyString => [cur]
    | String a t =>
        match t with
        | String o (String b r) =>
            if Ascii.eqb a " " && Ascii.eqb b " " && is_op (String o "")
            then cur :: String o "" :: split_ops "" r
            else split_ops (cur ++ String a "") t
        | _ => split_ops (cur ++ String a "") t
        end
    end.
  (** final_results_core.py:118-138 (None: skipped). *)
  Definition dict_at (d : odict) (k : string) : M nat :=
    match dget String.eqb d k with Some a => ret a | None => raise EKeyError end.
  Definition apply_op (op : string) (a b : nat) : M nat :=
    if String.eqb op "+" then h_add a b else h_sub a b.
  Fixpoint fold_ops (d : odict) (l : list string) (idxs : list nat) (acc : nat) : M nat :=
    match idxs with
    | [] => ret acc
    | i :: idxs' =>
        match nth_error l (i + 1) with
        | None => raise EIndexError
        | Some n => bind (dict_at d n) (fun b => bind (apply_op (nth i l ""%string) acc b) (fold_ops d l idxs'))
        end
    end.
  Definition compute_comb (name : string) (d : odict) : M (option nat) :=
    let l := split_ops "" name in
    let idxs := filter (fun i => is_op (nth i l ""%string)) (seq 0 (length l)) in
    if existsb (fun x => negb (is_op x) && negb (dmem String.eqb d x)) l then ret None
    else bind (dict_at d (nth 0 l ""%string)) (fun a => bind (fold_ops d l idxs a) (fun c => ret (Some c))).
  (** 106-115. *)
  Fixpoint eval_combs (posts : list string) (d : odict) : M odict :=
    match posts with
    | [] => ret d
    | p :: posts' =>
        bind (compute_comb p d) (fun r =>
          eval_combs posts' (match r with Some a => dset String.eqb d p a | None => d end))
    end.

  (** ** FisherAnalysis *)
  Definition row := list (string * option F).
  Definition table := dict string row.
  Record analysis := mkAn {
    an_base : option odict; an_fishers : odict; an_order : option (list string);
    an_fid : dict string F; an_errs : option table; an_rel : option table; an_flag : bool }.
  Inductive input := IDict (d : odict) | IList (l : list nat) | INothing.
  Definition with_flag (b : bool) (f : fisher F) : fisher F :=
    mkFisher (fmat f) (fname f) (fcosmo f) (fnuis f) (finverse f) (fcorr f) b.

  (** fisher_analysis.py:118-126. *)
  Definition set_order (order : list string) (an : analysis) : res analysis :=
    if set_eqb order (dkeys (an_fishers an))
    then Ok (mkAn (an_base an) (an_fishers an) (Some order) (an_fid an) (an_errs an) (an_rel an) (an_flag an))
    else Err EException.
  (** 34-68. *)
  Definition an_init (order : option (list string)) (inp : input) (fid : dict string F) (flag : bool) : M analysis :=
    let mats := match inp with IDict d => dupdate String.eqb [] d | _ => [] end in
    let an := mkAn None mats None fid None None flag in
    bind (for_each (fun ka => h_method false (fun f => (with_flag flag f, Ok tt)) (snd ka)) mats) (fun _ =>
    bind (for_each (fun ka => h_select (snd ka)) mats) (fun _ =>
    match order with None => ret an | Some o => of_res (set_order o an) end)).
  (** 111-116. *)
  Definition fishers_order (an : analysis) : list string :=
    match an_order an with Some o => o | None => dkeys (an_fishers an) end.

  (** 251-255: the rows; concatenating nothing raises ValueError. *)
  Definition h_errors (fom only_cosmo : bool) : nat -> M row := h_method false (marginalized_errors fom only_cosmo).
  Definition t_cell (t : table) (k c : string) : option F :=
    match dget String.eqb t k with Some r => match dget String.eqb r c with Some v => v | None => None end | None => None end.
  Definition t_cols (t : table) : list string := sdup (flat_map (fun kr => map fst (snd kr)) t).
  (** 257-266: denominators, alignment on columns, absolute value. *)
  Definition fabs (x : F) : F := if fle_dec fz x then x else fopp x.
  Definition rel_den (fid : dict string F) (t : table) : dict string F :=
    let d := map (fun pv => (fst pv, if fdec (snd pv) fz then fo else snd pv)) fid in
    if smem "FoM" (t_cols t) then dset String.eqb d "FoM"%string fo else d.
  Definition rel_table (fid : dict string F) (t : table) : table :=
    let den := rel_den fid t in
    let cols := sdup (t_cols t ++ dkeys den) in
    map (fun kr => (fst kr, map (fun c => (c, match t_cell t (fst kr) c, dget String.eqb den c with
                                              | Some x, Some y => Some (fabs (fdiv x y))
                                              | _, _ => None
                                              end)) cols)) t.
  Definition eval_rel (an : analysis) : res analysis :=
    match an_errs an with
    | None => Err EAttributeError
    | Some t => Ok (mkAn (an_base an) (an_fishers an) (an_order an) (an_fid an) (an_errs an) (Some (rel_table (an_fid an) t)) (an_flag an))
    end.
  Definition with_errs (t : table) (an : analysis) : analysis :=
    mkAn (an_base an) (an_fishers an) (an_order an) (an_fid an) (Some t) (an_rel an) (an_flag an).
  Definition eval_errors (an : analysis) : M analysis :=
    match an_fishers an with
    | [] => raise EValueError
    | _ => bind (map_each (fun ka => bind (h_errors true true (snd ka)) (fun r => ret (fst ka, r))) (an_fishers an))
             (fun t => of_res (eval_rel (with_errs t an)))
    end.

  (** 190-202 marginalizeFishers; [None] stands for "all_nuisance". *)
  Definition marg_one (ps : option (list string)) (a : nat) : M unit :=
    fun h => match hget h a with
             | Err e => (h, Err e)
             | Ok f => let to := match ps with None => fnuis f | Some l => l end in
                       let inter := ord (filter (fun x => smem x (phys f)) to) in
                       match h_marg inter a h with (h', Ok _) => (h', Ok tt) | (h', Err e) => (h', Err e) end
             end.
  Definition marg_fishers (ps : option (list string)) (an : analysis) : M unit :=
    for_each (fun ka => marg_one ps (snd ka)) (an_fishers an).
  (** 204-208 useBaseFishers. *)
  Definition use_base (an : analysis) : res analysis :=
    match an_base an with
    | None => Err EValueError
    | Some b => Ok (mkAn (an_base an) (dupdate String.eqb [] b) (an_order an) (an_fid an) (an_errs an) (an_rel an) (an_flag an))
    end.
  (** 210-226 evaluateFishersFromAddendsList. *)
  Fixpoint sum_addends (b : odict) (l : list string) (acc : nat) : M nat :=
    match l with
    | [] => ret acc
    | n :: l' => bind (dict_at b n) (fun c => bind (h_add acc c) (sum_addends b l'))
    end.
  Fixpoint from_addends (b : odict) (ls : list (list string)) (acc : odict) : M odict :=
    match ls with
    | [] => ret acc
    | [n] :: ls' => match dget String.eqb b n with
                    | Some a => from_addends b ls' (dset String.eqb acc n a)
                    | None => raise EDomain
                    end
    | [] :: _ => raise EIndexError
    | (n :: l) :: ls' =>
        if forallb (fun x => dmem String.eqb b x) (n :: l)
        then bind (dict_at b n) (fun a => bind (h_copy a) (fun c => bind (sum_addends b l c) (fun s =>
               from_addends b ls' (dset String.eqb acc (join "+" (n :: l)) s))))
        else raise EDomain
    end.
  (** 233-246 getSubsetAnalysis without recomputing; the deep copy of the
      analysis is overwritten by dictionaries of the original objects
      (general_utils.py:209-212). *)
  Definition subset_dict {V} (d : dict string V) (keys : list string) : dict string V :=
    filter (fun kv => smem (fst kv) keys) d.
  Definition subset_analysis (names : list string) (an : analysis) : res analysis :=
    match an_base an, an_errs an, an_rel an with
    | None, _, _ => Err EAttributeError
    | Some b, e, r =>
        an' <- set_order names (mkAn (Some (subset_dict b names)) (subset_dict (an_fishers an) names) None (an_fid an) e r (an_flag an)) ;;
        match e, r with
        | Some te, Some tr =>
            if subsetb names (dkeys te) && subsetb names (dkeys tr)
            then Ok (mkAn (an_base an') (an_fishers an') (an_order an') (an_fid an') (Some (subset_dict te names)) (Some (subset_dict tr names)) (an_flag an'))
            else Err EKeyError
        | _, _ => Err EAttributeError
        end
    end.

  (** ** Result sets *)
  (** final_results_core.py:14-24. *)
  Definition LCDM_params := ["Omm"; "Omb"; "h"; "ns"; "sigma8"]%string.
  Definition free_names (cosmology : string) : res (list string) :=
    if String.eqb cosmology "LCDM" then Ok LCDM_params
    else if String.eqb cosmology "w0_wa_CDM" then Ok (LCDM_params ++ ["w0"; "wa"]%string)
    else if String.eqb cosmology "gamma_w0_wa_CDM" then Ok (LCDM_params ++ ["w0"; "wa"; "gamma"]%string)
    else Err EKeyError.
  (** 58-88, [fids] being params.free_cosmo_pars_fiducials. *)
  Definition fix_nuis (a : nat) : M unit :=
    fun h => match hget h a with Err e => (h, Err e) | Ok f => h_fix (fnuis f) a h end.
  Definition create_results (base : odict) (cosmology : string) (fids : dict string F) (posts : list string)
    (marg_before fix_nuisance : bool) : M analysis :=
    bind (deepcopy base []) (fun Fs =>
    bind (of_res (free_names cosmology)) (fun free =>
    let free_cosmo := filter (fun nv => smem (fst nv) free) fids in
    let fixed := filter (fun nv => negb (smem (fst nv) free)) fids in
    bind (for_each (fun ka => h_fix (set_of (dkeys fixed)) (snd ka)) Fs) (fun _ =>
    bind (if fix_nuisance then for_each (fun ka => fix_nuis (snd ka)) Fs
          else if marg_before then for_each (fun ka => bind (h_margnuis (snd ka)) (fun _ => ret tt)) Fs
          else ret tt) (fun _ =>
    bind (eval_combs posts Fs) (fun Fs' =>
    bind (an_init None (IDict Fs') free_cosmo true) (fun an =>
    bind (eval_errors an) (fun an => of_res (eval_rel an)))))))).
End Results.
Arguments analysis : clear implicits.
Arguments M : clear implicits.
