(** Model of the class FisherMatrix, seyfert/fisher/fisher_matrix.py.

    The object is a record; a method that mutates the object returns the new
    object together with its result, also when it raises.  Simplifications:
    objects whose matrix, name or parameter sets are still None are not
    modelled; TeX names and logging are left out, [from_ISTfile] is in IstModel. *)
From Verif Require Import Base SortLib FrameModel.

Section Fisher.
  Context {F : Type} {K : Fld F} {SO : SetOrder}.
  Open Scope fld_scope.
  Open Scope string_scope.

  (** fisher_matrix.py:32-49. *)
  Record fisher := mkFisher {
    fmat : frame F; fname : string;
    fcosmo : list string; fnuis : list string;
    finverse : option (frame F); fcorr : option (frame F);
    fmflag : bool (* marginalize_nuisance *)
  }.
  Definition new_fisher (m : frame F) (name : string) (cosmo nuis : list string) (mflag : bool) : fisher :=
    mkFisher m name (set_of cosmo) (set_of nuis) None None mflag.
  Definition with_mat (f : fisher) m := mkFisher m (fname f) (fcosmo f) (fnuis f) (finverse f) (fcorr f) (fmflag f).
  Definition with_inv (f : fisher) i := mkFisher (fmat f) (fname f) (fcosmo f) (fnuis f) (Some i) (fcorr f) (fmflag f).
  Definition with_corr (f : fisher) c := mkFisher (fmat f) (fname f) (fcosmo f) (fnuis f) (finverse f) (Some c) (fmflag f).
  Definition with_sets (f : fisher) c n := mkFisher (fmat f) (fname f) c n (finverse f) (fcorr f) (fmflag f).

  (** 51-53 physical_parameters. *)
  Definition phys (f : fisher) : list string := set_union (fnuis f) (fcosmo f).

  (** 119-123 copy: inverse and correlation are not copied. *)
  Definition fcopy (f : fisher) : fisher :=
    new_fisher (fmat f) (fname f) (fcosmo f) (fnuis f) (fmflag f).

  (** 125-139 zeroPadMatrices. *)
  Definition pad1 (missing : list string) (m : frame F) : frame F :=
    fold_left (fun m p => f_setrow p 0 (f_setcol p 0 m)) missing m.
  Definition zero_pad (f1 f2 : fisher) : fisher * fisher :=
    let sum_nuis := set_union (fnuis f1) (fnuis f2) in
    let sum_cosmo := set_union (fcosmo f1) (fcosmo f2) in
    let sum_phys := set_union sum_cosmo sum_nuis in
    (with_mat f1 (pad1 (set_diff sum_phys (phys f1)) (fmat f1)),
     with_mat f2 (pad1 (set_diff sum_phys (phys f2)) (fmat f2))).

  (** 141-150 __add__, 152-161 __sub__ (the result's marginalize_nuisance is
      the default True). *)
  Definition fcombine (op : F -> F -> F) (sym : string) (self other : fisher) : fisher :=
    let (f1, f2) := zero_pad (fcopy self) (fcopy other) in
    let sum_cosmo := set_union (fcosmo f1) (fcosmo f2) in
    let sum_nuis := set_union (fnuis f1) (fnuis f2) in
    new_fisher (f_op op (fmat f1) (fmat f2)) (fname f1 ++ sym ++ fname f2) sum_cosmo sum_nuis true.
  Definition fisher_add := fcombine fadd " + ".
  Definition fisher_sub := fcombine fsub " - ".

  (** 163-167 __eq__.  Comparing frames with different labels raises
      ValueError; NaN differs from everything. *)
  Definition oeqb (x y : option F) : bool :=
    match x, y with Some a, Some b => if fdec a b then true else false | _, _ => false end.
  Definition fisher_eq (f g : fisher) : res bool :=
    let a := f_sort1 (f_sort0 (fmat f)) in
    let b := f_sort1 (f_sort0 (fmat g)) in
    if negb (sl_eqb (ix a) (ix b) && sl_eqb (cx a) (cx b)) then Err EValueError
    else Ok (forallb (fun r => forallb (fun c => oeqb (ce a r c) (ce b r c)) (cx a)) (ix a)
             && String.eqb (fname f) (fname g) && set_eqb (phys f) (phys g)).

  (** 175-193 checkAttributes (the isinstance tests hold by construction). *)
  Definition check_attributes (f : fisher) : res unit :=
    if negb (set_eqb (ix (fmat f)) (cx (fmat f))) then Err EException
    else if negb (set_eqb (ix (fmat f)) (phys f)) then Err EValueError
    else Ok tt.

  (** 195-208 selectRelevantFisherSubMatrix. *)
  Definition select_relevant (f : fisher) : fisher * res unit :=
    let relevant := set_union (fcosmo f) (fnuis f) in
    if negb (subsetb relevant (ix (fmat f))) then (f, Err EDomain)
    else
      let excl := if fmflag f then [] else fnuis f in
      let f1 := if fmflag f then f else with_sets f (fcosmo f) [] in
      let rel := set_diff relevant excl in
      match f_loc (fmat f) rel rel with
      | Err e => (f1, Err e)
      | Ok m => (with_mat f1 (f_sort1 (f_sort0 m)), Ok tt)
      end.

  (** 210-217 fixParameters. *)
  Definition fix_parameters (ps : list string) (f : fisher) : fisher * res unit :=
    let params := set_of ps in
    match set_diff params (phys f) with
    | _ :: _ => (f, Err EException)
    | [] =>
        let f1 := with_sets f (set_diff (fcosmo f) params) (set_diff (fnuis f) params) in
        match rbind (f_drop0 params (fmat f)) (f_drop1 params) with
        | Err e => (f1, Err e)
        | Ok m => (with_mat f1 m, Ok tt)
        end
    end.

  (** 219-220 evaluateInverse. *)
  Definition eval_inverse (f : fisher) : fisher * res unit :=
    match invert_dataframe (fmat f) with
    | Err e => (f, Err e)
    | Ok i => (with_inv f i, Ok tt)
    end.

  (** 241-267 marginalizeParameters.  With ret_copy the result is the returned
      object; without it, None. *)
  Definition marginalize (ps : list string) (ret_copy : bool) (f : fisher)
    : fisher * res (option fisher) :=
    let params := set_of ps in
    let all := set_of (ix (fmat f)) in
    match set_diff params all with
    | _ :: _ => (f, Err EDomain)
    | [] =>
        match eval_inverse f with
        | (_, Err e) => (f, Err e)
        | (f0, Ok _) =>
            let keep := set_diff all params in
            match finverse f0 with
            | None => (f0, Err EAttributeError)
            | Some i =>
                match f_loc i keep keep with
                | Err e => (f0, Err e)
                | Ok sliced =>
                    let target := if ret_copy then fcopy f0 else f0 in
                    let t1 := with_inv (with_sets target (set_diff (fcosmo target) params)
                                                         (set_diff (fnuis target) params)) sliced in
                    match invert_dataframe sliced with
                    | Err e => (if ret_copy then f0 else t1, Err e)
                    | Ok marg =>
                        let t2 := with_mat t1 (f_sort1 (f_sort0 marg)) in
                        if ret_copy then (f0, Ok (Some t2)) else (t2, Ok None)
                    end
                end
            end
        end
    end.

  (** 269-277 marginalizeNuisance. *)
  Definition marginalize_nuisance (ret_copy : bool) (f : fisher) : fisher * res (option fisher) :=
    if fmflag f then marginalize (fnuis f) ret_copy f
    else (f, Ok (if ret_copy then Some (fcopy f) else None)).

  (** 305-311 addPriorToParameters.  Python floats: a zero product raises
      ZeroDivisionError. *)
  Fixpoint prior_frame (fid : dict string F) (frac : F) (p : frame F) : res (frame F) :=
    match fid with
    | [] => Ok p
    | (name, value) :: fid' =>
        let sigma := frac * value in
        if fdec (sigma * sigma) 0 then Err EZeroDivision
        else prior_frame fid' frac (f_setcell name name (1 / (sigma * sigma)) p)
    end.
  Definition add_prior (fid : dict string F) (frac : F) (f : fisher) : fisher * res unit :=
    match prior_frame fid frac (mkF (ix (fmat f)) (cx (fmat f)) (fun _ _ => Some 0)) with
    | Err e => (f, Err e)
    | Ok p => (with_mat f (f_addfill (fmat f) p), Ok tt)
    end.
End Fisher.
Arguments fisher : clear implicits.

(** Methods that take square roots. *)
Section FisherSqrt.
  Context {F : Type} {K : Fld F} {O : OFld (F := F)} {S : SqrtFld F} {SO : SetOrder}.
  Open Scope fld_scope.
  Open Scope string_scope.

  (** 222-226 getFigureOfMerit.  The determinant is that of the 2x2 (or, for
      equal names, 1x1) block; a non-positive one gives NaN or inf (None). *)
  Definition block_det (i : frame F) (l : list string) : option F :=
    match l with
    | [a] => ce i a a
    | [a; b] => match ce i a a, ce i a b, ce i b a, ce i b b with
                | Some p, Some q, Some r, Some s => Some (p * s - q * r)
                | _, _, _, _ => None
                end
    | _ => None
    end.
  Definition figure_of_merit (p1 p2 : string) (f : fisher F) : res (option F) :=
    match finverse f with
    | None => Err EAttributeError
    | Some i =>
        let l := set_of [p1; p2] in
        sub <- f_loc i l l ;;
        Ok (match block_det sub l with
            | None => None
            | Some d => match np_sqrt d with
                        | None => None
                        | Some s => if fdec s 0 then None else Some (1 / s)
                        end
            end)
    end.

  (** 279-283 getParameterSigma. *)
  Definition parameter_sigma (name : string) (f : fisher F) : res (option F) :=
    match finverse f with
    | None => Err EValueError
    | Some i =>
        if smem name (ix i) && smem name (cx i)
        then Ok (match ce i name name with None => None | Some x => np_sqrt x end)
        else Err EKeyError
    end.

  (** pd.Series: labels with values. *)
  Definition series := list (string * option F).
  Definition s_get (s : series) (a : string) : option (option F) := dget String.eqb s a.
  Definition s_loc (s : series) (l : list string) : res series :=
    rmapM (fun a => match s_get s a with Some v => Ok (a, v) | None => Err EKeyError end) l.
  Definition s_sort (s : series) : series :=
    map (fun a => (a, match s_get s a with Some v => v | None => None end)) (ssort (map fst s)).

  (** 285-296 getMarginalizedErrors. *)
  Definition marginalized_errors (fom only_cosmo : bool) (f : fisher F) : fisher F * res series :=
    let (f0, r0) := match finverse f with
                    | None => eval_inverse f
                    | Some _ => (f, Ok tt)
                    end in
    (f0,
     _ <- r0 ;;
     errs <- rmapM (fun a => s <- parameter_sigma a f0 ;; Ok (a, s)) (ix (fmat f0)) ;;
     errs <- (if only_cosmo then s_loc errs (fcosmo f0) else Ok errs) ;;
     errs <- (if fom && subsetb ["w0"; "wa"] (ix (fmat f0))
              then v <- figure_of_merit "w0" "wa" f0 ;; Ok (dset String.eqb errs "FoM" v)
              else Ok errs) ;;
     Ok (s_sort errs)).

  (** 298-303 getUnmarginalizedErrors: 1/sqrt of the diagonal (positional, so
      entry i pairs row label i with column label i). *)
  Definition unmarginalized_errors (only_cosmo : bool) (f : fisher F) : res series :=
    if negb (Nat.eqb (length (ix (fmat f))) (length (cx (fmat f)))) then Err EValueError
    else
      let errs := map (fun rc => (fst rc,
                         match ce (fmat f) (fst rc) (snd rc) with
                         | None => None
                         | Some x => match np_sqrt x with
                                     | None => None
                                     | Some s => if fdec s 0 then None else Some (1 / s)
                                     end
                         end)) (combine (ix (fmat f)) (cx (fmat f))) in
      if only_cosmo then s_loc errs (fcosmo f) else Ok errs.

  (** 228-239 evaluateCorrelationMatrix.  [sigmas] is positional; both sigma
      frames carry the labels of the matrix.  Only square frames are covered.
      Division by a zero or NaN sigma product gives NaN or inf (None). *)
  Definition corr_div (x y : option F) : option F :=
    match x, y with
    | Some a, Some b => if fdec b 0 then None else Some (a / b)
    | _, _ => None
    end.
  Definition eval_correlation (f : fisher F) : fisher F * res unit :=
    match finverse f with
    | None => (f, Err EValueError)
    | Some i =>
        let m := fmat f in
        let sigma := fun k => match ce i (nth k (ix i) "") (nth k (cx i) "") with
                              | None => None | Some x => np_sqrt x end in
        if negb (Nat.eqb (length (ix i)) (length (ix m)) && Nat.eqb (length (cx i)) (length (cx m))
                 && Nat.eqb (length (ix m)) (length (cx m)))
        then (f, Err EValueError)
        else
          let row := mkF (ix m) (cx m) (fun a b => sigma (pos b (cx m))) in
          let col := mkF (ix m) (cx m) (fun a b => sigma (pos a (ix m))) in
          let prod := f_op fmul row col in
          let c := mkF (ijoin (ix i) (ix prod)) (ijoin (cx i) (cx prod))
                       (fun a b => corr_div (f_get i a b) (f_get prod a b)) in
          let f1 := with_corr f c in
          match f_loc c (fcosmo f) (fcosmo f) with
          | Err e => (f1, Err e)
          | Ok c' => (with_corr f (f_sort1 (f_sort0 c')), Ok tt)
          end
    end.
End FisherSqrt.
