(** Model of the parameter files: seyfert/cosmology/parameter.py:56-94, 181-224,
    242-255 (to_dict, from_dict, writeJSON, fromJSON, readJSON).

    JSON texts are represented by the value they parse to; [None] stands for a
    text that does not parse (a file cut short by a crash).  JInt is a literal
    without decimal point, which json.load turns into a Python int. *)
From Verif Require Import Base SortLib FsModel ParamModel OrdLib.
Open Scope string_scope.

Inductive json (F : Type) :=
| JNull | JBool (b : bool) | JInt (z : Z) | JNum (x : F) | JStr (s : string)
| JList (l : list (json F)) | JObj (d : list (string * json F)).
Arguments JNull {F}. Arguments JBool {F} _. Arguments JInt {F} _. Arguments JNum {F} _.
Arguments JStr {F} _. Arguments JList {F} _. Arguments JObj {F} _.

Section ParamFile.
  Context {F : Type} {K : Fld F} {O : OFld (F := F)}.
  Open Scope fld_scope.
  Open Scope list_scope.

  Definition kind_text (cosmo : bool) : string := if cosmo then "CosmologicalParameter"%string else "NuisanceParameter"%string.

  (** 74-88 to_dict. *)
  Definition to_dict (p : param F) : list (string * json F) :=
    [("name", JStr (pp_name p)); ("fiducial", JNum (fiducial p)); ("current_value", JNum (current p));
     ("kind", JStr (kind_text (is_cosmo p))); ("is_free_parameter", JBool (is_free p));
     ("stem_factor", JNum (stem_factor p)); ("derivative_method", JStr (dmethod p)); ("units", JStr (punits p))]%string
    ++ (if is_nuis p then [("probe"%string, match pprobe p with Some x => JStr x | None => JNull end)] else []).

  Definition jget (d : list (string * json F)) (k : string) : option (json F) := dget String.eqb d k.
  Definition fz_of (z : Z) : F :=
    match z with Z0 => 0 | Zpos n => fnat (Pos.to_nat n) | Zneg n => - fnat (Pos.to_nat n) end.

  (** 62-64 from_dict: cls( **data); 28-54 the constructor.  An unknown keyword is
      a TypeError; name, fiducial and flag are type checked (an int fiducial is
      rejected), in this order, then kind, then the probe of a nuisance
      parameter.  The other arguments are not checked by the code; the model
      answers TypeError when one of them has not the documented type. *)
  Definition known_args : list string :=
    ["name"; "fiducial"; "current_value"; "kind"; "probe"; "is_free_parameter"; "stem_factor"; "description"; "units";
     "derivative_method"]%string.
  Definition opt_str (d : list (string * json F)) (k : string) (default : string) : res string :=
    match jget d k with None => Ok default | Some (JStr s) => Ok s | Some _ => Err ETypeError end.
  Definition from_dict (d : list (string * json F)) : res (param F) :=
    if negb (forallb (fun kv => smem (fst kv) known_args) d) then Err ETypeError
    else
      match jget d "name", jget d "fiducial", jget d "is_free_parameter" with
      | Some (JStr name), Some (JNum fid), Some (JBool free) =>
          kind <- match jget d "kind" with
                  | Some (JStr k) => Ok (if String.eqb k (kind_text true) then Some true
                                         else if String.eqb k (kind_text false) then Some false else None)
                  | _ => Ok None
                  end ;;
          probe <- match jget d "probe" with
                   | Some (JStr p) => Ok (Some p) | None | Some JNull => Ok None | Some _ => Err ETypeError
                   end ;;
          cur <- match jget d "current_value" with
                 | Some (JNum c) => Ok (Some c) | Some (JInt z) => Ok (Some (fz_of z))
                 | None | Some JNull => Ok None | Some _ => Err ETypeError
                 end ;;
          stem <- match jget d "stem_factor" with
                  | Some (JNum c) => Ok c | Some (JInt z) => Ok (fz_of z) | None => Ok 1 | Some _ => Err ETypeError
                  end ;;
          descr <- opt_str d "description" "" ;;
          units <- opt_str d "units" "None" ;;
          meth <- opt_str d "derivative_method" "SteM" ;;
          make_param name fid cur kind probe free stem descr units meth
      | _, _, _ => Err ETypeError
      end.

  (** 208-215 writeJSON: the list that is dumped; only the positive
      displacements are kept. *)
  Definition to_json (c : coll F) : json F :=
    JList (map (fun kv => JObj (to_dict (snd kv))) (params c) ++
           [JObj [("base_stem_disps"%string, JList (map JNum (filter (fun x => fltb 0 x) (stem_disps c))));
                  ("is_universe_flat"%string, JBool (flat c))]]).

  (** 242-255 getParamsDictFromDictList, on dict_list[:-1]. *)
  Definition as_obj (j : json F) : res (list (string * json F)) := match j with JObj d => Ok d | _ => Err ETypeError end.
  Fixpoint params_of (only_cosmo : bool) (l : list (json F)) (d : pdict) : res (@pdict F) :=
    match l with
    | [] => Ok d
    | j :: rest =>
        o <- as_obj j ;;
        p <- from_dict o ;;
        params_of only_cosmo rest (if negb only_cosmo || is_cosmo p then dset String.eqb d (pp_name p) p else d)
    end.
  Definition as_num (j : json F) : res F :=
    match j with JNum x => Ok x | JInt z => Ok (fz_of z) | _ => Err ETypeError end.
  Definition as_nums (j : json F) : res (list F) := match j with JList l => rmapM as_num l | _ => Err ETypeError end.
  Definition as_flag (j : json F) : res bool := match j with JBool b => Ok b | _ => Err ETypeError end.
  Definition jfield (d : list (string * json F)) (k : string) : res (json F) :=
    match jget d k with Some v => Ok v | None => Err EKeyError end.

  (** 190-195 from_dict_list: the parameters first, then the last entry.  (A
      null displacement list, which the constructor accepts, is not modelled:
      TypeError.) *)
  Definition last_obj (l : list (json F)) : res (list (string * json F)) :=
    match rev l with [] => Err EIndexError | j :: _ => as_obj j end.
  Definition from_dict_list (only_cosmo : bool) (l : list (json F)) : res (coll F) :=
    d <- params_of only_cosmo (removelast l) [] ;;
    o <- last_obj l ;;
    jd <- jfield o "base_stem_disps" ;;
    jf <- jfield o "is_universe_flat" ;;
    base <- as_nums jd ;;
    fl <- as_flag jf ;;
    Ok (load_stem base (mkColl d [] [] fl)).
  (** 197-201 fromJSON. *)
  Definition from_json (only_cosmo : bool) (j : json F) : res (coll F) :=
    match j with JList l => from_dict_list only_cosmo l | _ => Err ETypeError end.
  (** 203-207 readJSON into an existing collection. *)
  Definition read_json (only_cosmo : bool) (j : json F) (c : coll F) : res (coll F) :=
    match j with
    | JList l =>
        d <- params_of only_cosmo (removelast l) [] ;;
        o <- last_obj l ;;
        jd <- jfield o "base_stem_disps" ;;
        base <- as_nums jd ;;
        jf <- jfield o "is_universe_flat" ;;
        fl <- as_flag jf ;;
        let c1 := load_stem base (with_params c (dupdate String.eqb (params c) d)) in
        Ok (mkColl (params c1) (stem_disps c1) (stem_dict c1) fl)
    | _ => Err ETypeError
    end.

  (** The file: open(file, 'w') empties it, json.dump fills it. *)
  Definition pfs := fs (option (json F)).
  Inductive pop := POpen (p : path) | PDump (p : path) (j : json F).
  Definition pstep (o : pop) (s : pfs) : pfs * res unit :=
    match o with POpen p => p_write p None s | PDump p j => p_write p (Some j) s end.
  Fixpoint psteps (l : list pop) (s : pfs) : pfs * res unit :=
    match l with
    | [] => (s, Ok tt)
    | o :: rest => match pstep o s with (s', Ok _) => psteps rest s' | (s', Err e) => (s', Err e) end
    end.
  Definition write_plan (p : path) (c : coll F) : list pop := [POpen p; PDump p (to_json c)].
  Definition write_params (p : path) (c : coll F) (s : pfs) : pfs * res unit := psteps (write_plan p c) s.
  (** open + json.load (a text that does not parse is a ValueError). *)
  Definition load_params (only_cosmo : bool) (p : path) (s : pfs) : res (coll F) :=
    t <- p_read s p ;;
    match t with None => Err EValueError | Some j => from_json only_cosmo j end.
End ParamFile.
