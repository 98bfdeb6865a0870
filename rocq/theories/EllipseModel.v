(** Model of the confidence ranges and ellipses of an analysis:
    seyfert/fisher/fisher_analysis.py:247-248, 268-306, and of the plot range of a
    parameter, seyfert/fisher/fisher_plot.py:477-487.

    Over the real numbers.  [erfinv] is scipy.special.erfinv at the level asked
    for.  NaN is [None].  Left out: the grid of a Gaussian (288-300) beyond the
    mask of its points, and the drawing itself; what matplotlib draws for the
    dictionary of an ellipse is [covers]. *)
From Coq Require Import Reals.
From Verif Require Import Base SortLib FrameModel FisherModel HeapModel ResultsModel RealInst EvalModel.
Open Scope list_scope.
Open Scope R_scope.

Section Ellipse.
  Variable erfinv : R -> R.

  (** 247-248 getParFiducialValue. *)
  Definition fiducial_value (an : analysis R) (name : string) : res R := dget_str (an_fid an) name.
  (** marginalized_errors.loc[obs, name]: a column that only other rows have is
      NaN in this one. *)
  Definition error_cell (an : analysis R) (obs name : string) : res (option R) :=
    match an_errs an with
    | None => Err EAttributeError
    | Some t =>
        match dget String.eqb t obs with
        | None => Err EKeyError
        | Some row =>
            match dget String.eqb row name with
            | Some v => Ok v
            | None => if existsb (fun r => dmem String.eqb (snd r) name) t then Ok None else Err EKeyError
            end
        end
    end.
  Definition cl_factor (CL : R) : R := sqrt 2 * erfinv CL.
  (** 268-274 computeParameterRangeForObsAtCL. *)
  Definition parameter_range (an : analysis R) (name obs : string) (CL : R) : res (option (R * R)) :=
    mean <- fiducial_value an name ;;
    sigma <- error_cell an obs name ;;
    Ok (option_map (fun s => (mean - cl_factor CL * s, mean + cl_factor CL * s)) sigma).
  (** 285-286: the points of the grid within the range. *)
  Definition cl_mask (range : R * R) (xs : list R) : list bool :=
    map (fun x => if Rle_dec (fst range) x then if Rle_dec x (snd range) then true else false else false) xs.

  (** self.fisher_matrices[obs].inverse.loc[r, c]. *)
  Definition inverse_cell (h : heap R) (an : analysis R) (obs r c : string) : res (option R) :=
    match dget String.eqb (an_fishers an) obs with
    | None => Err EKeyError
    | Some a =>
        f <- hget h a ;;
        match finverse f with
        | None => Err EAttributeError
        | Some i => if smem r (ix i) && smem c (cx i) then Ok (ce i r c) else Err EKeyError
        end
    end.
  (** C's atan2. *)
  Definition atan2 (y x : R) : R :=
    if Rlt_dec 0 x then atan (y / x)
    else if Rlt_dec x 0 then (if Rle_dec 0 y then atan (y / x) + PI else atan (y / x) - PI)
    else if Rlt_dec 0 y then PI / 2 else if Rlt_dec y 0 then - (PI / 2) else 0.
  Definition np_sqrt_R (x : R) : option R := if Rle_dec 0 x then Some (sqrt x) else None.
  (** The dictionary given to matplotlib. *)
  Record ellipse := mkEllipse { e_x : R; e_y : R; e_width : R; e_height : R; e_angle : R }.
  (** 290-306 computeEllipseInfoDictForObsAndCL; [None] if an entry is NaN (a cell
      of the inverse, or the root of a negative number). *)
  Definition ellipse_of (h : heap R) (an : analysis R) (name_x name_y obs : string) (CL : R) : res (option ellipse) :=
    mean_x <- fiducial_value an name_x ;;
    mean_y <- fiducial_value an name_y ;;
    cxx <- inverse_cell h an obs name_x name_x ;;
    cyy <- inverse_cell h an obs name_y name_y ;;
    cxy <- inverse_cell h an obs name_x name_y ;;
    match cxx, cyy, cxy with
    | Some xx, Some yy, Some xy =>
        let root := sqrt ((xx - yy) * (xx - yy) / 4 + xy * xy) in
        match np_sqrt_R ((xx + yy) / 2 + root), np_sqrt_R ((xx + yy) / 2 - root) with
        | Some a, Some b =>
            Ok (Some (mkEllipse mean_x mean_y (2 * (cl_factor CL * a)) (2 * (cl_factor CL * b)) (atan2 (2 * xy) (xx - yy) / 2 * (180 / PI))))
        | _, _ => Ok None
        end
    | _, _, _ => Ok None
    end.

  (** fisher_plot.py:477-487 computePlotRangeForParameter: the means over the
      matrices; without any, NaN. *)
  Definition mean (l : list R) : option R := match l with [] => None | _ => Some (fold_right Rplus 0 l / INR (length l)) end.
  Fixpoint sequence {A} (l : list (option A)) : option (list A) :=
    match l with [] => Some [] | None :: _ => None | Some x :: r => option_map (cons x) (sequence r) end.
  Definition plot_range (an : analysis R) (order : list string) (name : string) : res (option R * option R) :=
    l <- rmapM (fun obs => parameter_range an name obs (99 / 100)) order ;;
    let bound (f : R * R -> R) := match sequence l with Some rs => mean (map f rs) | None => None end in
    Ok (bound fst, bound snd).
End Ellipse.

(** What matplotlib.patches.Ellipse(xy, width, height, angle) covers: the unit
    disc stretched to the two diameters, turned anti-clockwise by the angle in
    degrees and moved to its centre. *)
Definition covers (e : ellipse) (x y : R) : Prop :=
  exists u v, u * u + v * v <= 1 /\
    x = e_x e + (e_width e / 2 * u * cos (e_angle e * (PI / 180)) - e_height e / 2 * v * sin (e_angle e * (PI / 180))) /\
    y = e_y e + (e_width e / 2 * u * sin (e_angle e * (PI / 180)) + e_height e / 2 * v * cos (e_angle e * (PI / 180))).
