(** Model of seyfert/cosmology/parameter.py.

    Values are field elements; the type checks of the constructor (name a str,
    fiducial a float, flag a bool) hold by typing.  A method that mutates the
    collection returns the new one, also when it raises.  Python dictionaries of
    parameters are association lists with keys in insertion order. *)
From Verif Require Import Base SortLib.
Open Scope string_scope.

Section Param.
  Context {F : Type} {K : Fld F} {O : OFld (F := F)}.
  Open Scope fld_scope.

  (** 16-39. *)
  Record param := mkPar {
    pp_name : string; fiducial : F; current : F;
    is_cosmo : bool; (* kind: CosmologicalParameter, else NuisanceParameter *)
    pprobe : option string; stem_factor : F; is_free : bool;
    pdescr : string; punits : string; dmethod : string }.
  Definition is_nuis (p : param) : bool := negb (is_cosmo p).
  Definition with_current (p : param) (v : F) : param :=
    mkPar (pp_name p) (fiducial p) v (is_cosmo p) (pprobe p) (stem_factor p) (is_free p) (pdescr p) (punits p) (dmethod p).

  (** 28-54 the constructor, from already typed arguments: a nuisance parameter
      needs a probe, a missing current value becomes the fiducial.  [kind] is
      None for any text that is neither of the two kinds. *)
  Definition make_param (name : string) (fid : F) (cur : option F) (kind : option bool) (probe : option string)
      (free : bool) (stem : F) (descr units method : string) : res param :=
    match kind with
    | None => Err EValueError
    | Some cosmo =>
        match cosmo, probe with
        | false, None => Err EValueError
        | _, _ => Ok (mkPar name fid (match cur with Some c => c | None => fid end) cosmo probe stem free descr units method)
        end
    end.

  (** 108-112 computeValueForDisplacement. *)
  Definition value_for (p : param) (eps : F) : F :=
    let delta := eps * stem_factor p in
    let delta := if fdec (fiducial p) 0 then delta else delta * fiducial p in
    fiducial p + delta.
  (** 114-117 computeSteMValues: list.insert at len // 2. *)
  Definition insert_at {A} (n : nat) (x : A) (l : list A) : list A := firstn n l ++ x :: skipn n l.
  Definition stem_values (p : param) (eps : list F) : list F :=
    let values := map (value_for p) eps in
    insert_at (Nat.div2 (length values)) (fiducial p) values.
  (** 119-120 updateValueForDisplacement, 105-106 resetCurrentValueToFiducial. *)
  Definition displaced (p : param) (eps : F) : param := with_current p (value_for p eps).
  Definition reset_par (p : param) : param := with_current p (fiducial p).
  (** 133-137 __eq__. *)
  Definition par_eq (p q : param) : bool :=
    String.eqb (pp_name p) (pp_name q) && (if fdec (fiducial p) (fiducial q) then true else false) &&
    Bool.eqb (is_cosmo p) (is_cosmo q) && (if fdec (current p) (current q) then true else false).

  (** 140-156 PhysicalParametersCollection. *)
  Definition pdict := dict string param.
  Record coll := mkColl { params : pdict; stem_disps : list F; stem_dict : dict Z F; flat : bool }.
  Definition with_params (c : coll) (d : pdict) : coll := mkColl d (stem_disps c) (stem_dict c) (flat c).

  (** 217-224 loadStemDisplacements: concatenate -d and d, sort, number the
      steps -n..-1, 1..n. *)
  Definition fleb (x y : F) : bool := if fle_dec x y then true else false.
  Definition fsort : list F -> list F := isort fleb.
  Definition steps_of (n : nat) : list Z :=
    map (fun i => (Z.of_nat i - Z.of_nat n)%Z) (seq 0 n) ++ map (fun i => Z.of_nat (S i)) (seq 0 n).
  Definition disps_of (base : list F) : list F := fsort (map fopp base ++ base).
  Definition load_stem (base : list F) (c : coll) : coll :=
    mkColl (params c) (disps_of base) (combine (steps_of (length base)) (disps_of base)) (flat c).

  (** 158-180 the property dictionaries; 226-240. *)
  Definition pfilter (f : param -> bool) (d : pdict) : pdict := filter (fun kv => f (snd kv)) d.
  Definition cosmological (c : coll) : pdict := pfilter is_cosmo (params c).
  Definition nuisance (c : coll) : pdict := pfilter is_nuis (params c).
  Definition free_physical (c : coll) : pdict := pfilter is_free (params c).
  Definition free_cosmological (c : coll) : pdict := pfilter is_free (cosmological c).
  Definition opt_eqb (a b : option string) : bool :=
    match a, b with Some x, Some y => String.eqb x y | None, None => true | _, _ => false end.
  Definition nuisance_for (probe : string) (c : coll) : pdict :=
    pfilter (fun p => is_nuis p && opt_eqb (pprobe p) (Some probe)) (params c).
  Definition free_nuisance_for (probe : string) (c : coll) : pdict := pfilter is_free (nuisance_for probe c).
  Definition free_physical_for (probe : string) (c : coll) : pdict :=
    dupdate String.eqb (dupdate String.eqb [] (free_cosmological c)) (free_nuisance_for probe c).

  (** 283-285 resetPhysicalParametersToFiducial. *)
  Definition reset_all (c : coll) : coll := with_params c (map (fun kv => (fst kv, reset_par (snd kv))) (params c)).

  (** 257-281 updatePhysicalParametersForDvarStep. *)
  Definition pget (c : coll) (n : string) : option param := dget String.eqb (params c) n.
  Definition pset (c : coll) (n : string) (p : param) : coll := with_params c (dset String.eqb (params c) n p).
  Definition update_step (dvar : string) (step : Z) (c : coll) : coll * res unit :=
    if String.eqb dvar "central" then (reset_all c, Ok tt)
    else
      match pget c dvar with
      | None => (c, Err EKeyError)
      | Some p =>
          if negb (is_free p) then (c, Err EDomain)
          else
            match dget Z.eqb (stem_dict c) step with
            | None => (c, Err EKeyError)
            | Some eps =>
                let c1 := pset c dvar (displaced p eps) in
                if flat c && (String.eqb dvar "Omm" || String.eqb dvar "OmDE") then
                  match pget c1 "Omm", pget c1 "OmDE" with
                  | Some m, Some l =>
                      if fdec (fiducial m + fiducial l) 1 then
                        if is_free m && is_free l then (c1, Err EDomain)
                        else if String.eqb dvar "Omm" && negb (is_free l) then
                          (pset c1 "OmDE" (with_current l (1 - current m)), Ok tt)
                        else if String.eqb dvar "OmDE" && negb (is_free m) then
                          (pset c1 "Omm" (with_current m (1 - current l)), Ok tt)
                        else (c1, Ok tt)
                      else (c1, Err EDomain)
                  | _, _ => (c1, Err EKeyError)
                  end
                else (c1, Ok tt)
            end
      end.
  (** 287-288 computePhysParSTEMValues. *)
  Definition phys_stem_values (dvar : string) (c : coll) : res (list F) :=
    match pget c dvar with None => Err EKeyError | Some p => Ok (stem_values p (stem_disps c)) end.
End Param.
Arguments param : clear implicits.
Arguments coll : clear implicits.
