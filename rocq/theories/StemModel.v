(** Model of seyfert/derivatives/differentiator.py (SteM part), of
    seyfert/main/cl_core.py:21-37, 82-105 and of
    seyfert/main/cl_derivative_core.py.

    An array of spectra of shape (n_ell, n, m) is a [cube]; reshaping it into a
    vector and back is index bookkeeping and left out: columns are named by
    their indices. *)
From Verif Require Import Base SortLib StrLib KeyModel ParamModel EvalModel OrdLib.
Open Scope list_scope.

Section Stem.
  Context {F : Type} {K : Fld F} {O : OFld (F := F)}.
  (** What np.polyfit gives when all points have the same abscissa. *)
  Context (degen : list F -> list F -> F * F).
  Open Scope fld_scope.

  Definition one_percent : F := 1 / fnat 100.
  (** a[1:-1]. *)
  Definition strip {A} (l : list A) : list A := removelast (tl l).
  (** np.min(y) == np.max(y). *)
  Definition all_equal (l : list F) : bool := match l with [] => true | a :: r => forallb (feqb a) r end.

  (** np.polyfit(x, y, 1): slope and intercept of the least-squares line. *)
  Definition fit (x y : list F) : F * F :=
    let n := fnat (length x) in
    let sx := Fsum (fun a => a) x in
    let sy := Fsum (fun a => a) y in
    let sxx := Fsum (fun a => a * a) x in
    let sxy := Fsum (fun ab => fst ab * snd ab) (combine x y) in
    let d := n * sxx - sx * sx in
    if feqb d 0 then degen x y else ((n * sxy - sx * sy) / d, (sxx * sy - sx * sxy) / d).
  (** Its errors: no points; different lengths. *)
  Definition polyfit (x y : list F) : res (F * F) :=
    match x with
    | [] => Err ETypeError
    | _ => if Nat.eqb (length x) (length y) then Ok (fit x y) else Err ETypeError
    end.

  (** 96-101: np.abs((y - y_fit) / y) < 0.01; for y = 0 numpy gives nan or inf
      and the comparison is false. *)
  Definition close (s i : F) (xy : F * F) : bool :=
    if feqb (snd xy) 0 then false
    else fltb (fabs ((snd xy - (i + s * fst xy)) / snd xy)) one_percent.
  (** 88-107 STEM_derivative.  [fuel] bounds the number of rounds; the result
      EOutOfFuel is shown to be impossible. *)
  Fixpoint stem_loop (fuel : nat) (x y : list F) : res F :=
    match fuel with
    | 0%nat => Err EOutOfFuel
    | Datatypes.S n =>
        si <- polyfit x y ;;
        if forallb (close (fst si) (snd si)) (combine x y) || (length y <=? 3)%nat then Ok (fst si)
        else stem_loop n (strip x) (strip y)
    end.
  Definition stem_derivative (x y : list F) : res F :=
    match y with
    | [] => Err EValueError (* np.min of an empty array *)
    | _ => if all_equal y then Ok 0 else stem_loop (Datatypes.S (length y)) x y
    end.

  (** 109-144 vectorizedSteM.  [y] has one row per parameter value; [cols] are
      the columns, [slopes], [inter] the arrays filled in place. *)
  Section Vec.
    Context {I : Type} (cols : list I).
    Definition column (y : list (I -> F)) (c : I) : list F := map (fun row => row c) y.
    (** 130-133: only where y != 0, and divided by y itself. *)
    Definition vec_err (s i : F) (xy : F * F) : F :=
      if feqb (snd xy) 0 then 0 else fabs (fst xy * s + i - snd xy) / snd xy.
    Definition vec_bad (s i : F) (x y : list F) : bool :=
      existsb (fun xy => fltb one_percent (vec_err s i xy)) (combine x y).
    Fixpoint vec_loop (fuel : nat) (x : list F) (y : list (I -> F)) (slopes inter : I -> F) (mask : I -> bool) : res (I -> F) :=
      match fuel with
      | 0%nat => Err EOutOfFuel
      | Datatypes.S n =>
          match x with
          | [] => Err ETypeError
          | _ =>
              let slopes' := fun c => if mask c then fst (fit x (column y c)) else slopes c in
              let inter' := fun c => if mask c then snd (fit x (column y c)) else inter c in
              let mask' := fun c => vec_bad (slopes' c) (inter' c) x (column y c) in
              let x' := strip x in
              let y' := strip y in
              if forallb (fun c => negb (mask' c)) cols || (length y' <=? 3)%nat then Ok slopes'
              else vec_loop n x' y' slopes' inter' mask'
          end
      end.
    Definition vec_stem (x : list F) (y : list (I -> F)) : res (I -> F) :=
      if negb (Nat.eqb (length x) (length y)) then Err EAssertion
      else match flat_map (column y) cols with
           | [] => Err EValueError
           | all => if all_equal all then Ok (fun _ => 0)
                    else vec_loop (Datatypes.S (length x)) x y (fun _ => 0) (fun _ => 0) (fun _ => true)
           end.
  End Vec.

  (** ** Arrays of spectra *)
  Definition idx := (nat * nat * nat)%type.
  Definition centry (c : cube F) (t : idx) : F :=
    let '(l, i, j) := t in nth l (crows c) (fun _ _ => 0) i j.
  Definition indices (c : cube F) : list idx :=
    flat_map (fun l => flat_map (fun i => map (fun j => (l, i, j)) (seq 0 (cnc c))) (seq 0 (cnr c))) (seq 0 (length (crows c))).
  Definition cube_of (c : cube F) (f : idx -> F) : cube F :=
    mkCube (cnr c) (cnc c) (map (fun l i j => f (l, i, j)) (seq 0 (length (crows c)))).
  Definition same_shape (c d : cube F) : bool :=
    Nat.eqb (cnr c) (cnr d) && Nat.eqb (cnc c) (cnc d) && Nat.eqb (length (crows c)) (length (crows d)).
  (** np.stack: at least one array, all of one shape. *)
  Definition stack (cs : list (cube F)) : res (list (cube F)) :=
    match cs with
    | [] => Err EValueError
    | c :: r => if forallb (same_shape c) r then Ok cs else Err EValueError
    end.
  (** 70-86 doComputeDerivative on stacked spectra. *)
  Definition do_derivative (vectorized : bool) (x : list F) (cs : list (cube F)) : res (cube F) :=
    match cs with
    | [] => Err EAttributeError
    | c :: _ =>
        let y := map centry cs in
        if vectorized then s <- vec_stem (indices c) x y ;; Ok (cube_of c s)
        else
          _ <- rmapM (fun t => stem_derivative x (column y t)) (indices c) ;;
          Ok (cube_of c (fun t => match stem_derivative x (column y t) with Ok s => s | Err _ => 0 end))
    end.
  (** 31-39 computeDerivative; [probe1], [probe2], [fid] describe fiducial_cl,
      [inner] is doComputeDerivative. *)
  Definition zeros_like (c : cube F) : cube F := cube_of c (fun _ => 0).
  Definition compute_derivative (p : param F) (probe1 probe2 : string) (fid : cube F) (inner : unit -> res (cube F)) : res (cube F) :=
    if is_nuis p && negb (opt_eqb (pprobe p) (Some probe1) || opt_eqb (pprobe p) (Some probe2)) then Ok (zeros_like fid)
    else inner tt.

  (** ** Variations of the parameters *)
  (** cl_core.py:21-37 load_cosmology: which power-spectrum file is read.  (The
      comparison with the parameters only logs.) *)
  Definition pmm_source (dvar : string) (step : Z) (c : coll F) : res (string * Z) :=
    if String.eqb dvar "central" then Ok ("central"%string, 0%Z)
    else match pget c dvar with
         | None => Err EKeyError
         | Some p => if is_cosmo p then Ok (dvar, step) else Ok ("central"%string, 0%Z)
         end.
  (** cl_core.py:82-105 compute_cls_variations; [compute src c] stands for
      loading the power spectrum [src] and computing the spectra with the
      parameters of [c]; it may raise.  An exception leaves the collection as
      it is at that moment.  (compute_pmm=False, the way the pipeline calls it.) *)
  Fixpoint vary {A} (compute : string * Z -> coll F -> res A) (dvar : string) (steps : list Z) (acc : dict Z A) (c : coll F)
    : coll F * res (dict Z A) :=
    match steps with
    | [] => (c, Ok acc)
    | s :: rest =>
        match update_step dvar s c with
        | (c1, Err e) => (c1, Err e)
        | (c1, Ok _) =>
            match (src <- pmm_source dvar s c1 ;; compute src c1) with
            | Err e => (c1, Err e)
            | Ok a => vary compute dvar rest (dset Z.eqb acc s a) (reset_all c1)
            end
        end
    end.
  Definition seven : list Z := steps_of 7.
  Definition cls_variations {A} compute (dvar : string) (fid : A) (c : coll F) : coll F * res (dict Z A) :=
    vary compute dvar seven [(0%Z, fid)] c.

  (** cl_derivative_core.py:18-46 compute_cls_derivatives_wrt.  A collector is a
      dictionary from probe keys to spectra. *)
  Definition collector := dict string (cube F).
  Definition zsort (l : list Z) : list Z := isort Z.leb l.
  Definition cget (d : collector) (k : string) : res (cube F) :=
    match dget String.eqb d k with Some x => Ok x | None => Err EKeyError end.
  Definition derivatives_wrt compute (dvar : string) (fid : collector) (c : coll F) : coll F * res collector :=
    match cls_variations compute dvar fid c with
    | (c1, Err e) => (c1, Err e)
    | (c1, Ok vs) =>
        (c1,
         central <- match dget Z.eqb vs 0%Z with Some x => Ok x | None => Err EKeyError end ;;
         rmapM (fun k =>
           ys <- rmapM (fun s => match dget Z.eqb vs s with Some d => cget d k | None => Err EKeyError end) (zsort (dkeys vs)) ;;
           cs <- stack ys ;;
           x <- phys_stem_values dvar c1 ;;
           r <- do_derivative true x cs ;;
           Ok (k, r)) (dkeys central))
    end.
  (** seyfert_core.py:110-118: all free parameters in turn. *)
  Fixpoint derive_all compute (dvars : list string) (fid : collector) (c : coll F) : coll F * res (dict string collector) :=
    match dvars with
    | [] => (c, Ok [])
    | d :: rest =>
        match derivatives_wrt compute d fid c with
        | (c1, Err e) => (c1, Err e)
        | (c1, Ok r) =>
            match derive_all compute rest fid c1 with
            | (c2, Err e) => (c2, Err e)
            | (c2, Ok rs) => (c2, Ok ((d, r) :: rs))
            end
        end
    end.
End Stem.
