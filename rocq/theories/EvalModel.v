(** Model of seyfert/fisher/fisher_evaluator.py (and of the array helpers
    seyfert/utils/array_utils.py:5-25 and fisher_utils.py:109-118 it uses).

    Multipoles and spectra are field elements.  A numpy array of shape
    (n_ell, n, m) is a [cube]: the shape (n, m) and the list of its n_ell
    matrices.  When several numpy errors are possible at once the model reports
    one of them; logging and timing are left out. *)
From Verif Require Import Base SortLib MatInv LinalgModel FrameModel KeyModel ParamModel.
Open Scope string_scope.

Section Eval.
  Context {F : Type} {K : Fld F} {O : OFld (F := F)} {SO : SetOrder}.
  Open Scope fld_scope.

  (** ** Multipole arrays *)
  Definition fmem (x : F) (l : list F) : bool := existsb (fun y => if fdec x y then true else false) l.
  (** np.intersect1d, np.union1d: sorted, without repetitions. *)
  Definition intersect1d (a b : list F) : list F := fsort (filter (fun x => fmem x b) (nodup fdec a)).
  Definition union1d (a b : list F) : list F := fsort (nodup fdec (a ++ b)).
  (** array_utils.py:5-13. *)
  Definition arrays_intersection (arrays : list (list F)) : res (list F) :=
    match arrays with
    | [] => Err EIndexError
    | [a] => Ok a
    | a :: ((b :: _) as rest) => Ok (fold_left intersect1d rest (intersect1d a b))
    end.
  (** array_utils.py:20-25. *)
  Definition arrays_union (arrays : list (list F)) : res (list F) :=
    match arrays with
    | a :: ((b :: _) as rest) => Ok (fold_left union1d rest (union1d a b))
    | _ => Err EIndexError
    end.

  (** ** Blocks of spectra *)
  Record cube := mkCube { cnr : nat; cnc : nat; crows : list (nat -> nat -> F) }.
  (** np.transpose(X, axes=(0, 2, 1)), shortcuts.py:264-266. *)
  Definition ctransp (c : cube) : cube := mkCube (cnc c) (cnr c) (map (fun m i j => m j i) (crows c)).
  (** block[np.isin(l, ells)]: the mask must be as long as the block. *)
  Definition select {A} (ells l : list F) (rows : list A) : list A :=
    map snd (filter (fun xr => fmem (fst xr) ells) (combine l rows)).
  Definition cmask (ells l : list F) (c : cube) : res cube :=
    if Nat.eqb (length l) (length (crows c)) then Ok (mkCube (cnr c) (cnc c) (select ells l (crows c)))
    else Err EIndexError.
  (** 32-40 mask_cl_blocks_to_common_ells; [vals] are l_dict.values(), [lget]
      its lookup, [items] cl_dict.items(). *)
  Definition mask_common {Key} (vals : list (list F)) (lget : Key -> res (list F)) (items : list (Key * cube))
    : res (list F * list (Key * cube)) :=
    ells <- arrays_intersection vals ;;
    masked <- rmapM (fun kb => l <- lget (fst kb) ;; b <- cmask ells l (snd kb) ;; Ok (fst kb, b)) items ;;
    Ok (ells, masked).

  (** ** Covariance, 43-113 *)
  Definition spair_eqb (a b : string * string) : bool := String.eqb (fst a) (fst b) && String.eqb (snd a) (snd b).
  Definition sp_get {V} (d : dict (string * string) V) (k : string * string) : res V :=
    match dget spair_eqb d k with Some v => Ok v | None => Err EKeyError end.
  Definition ell_dict := list (clkey * list F).
  Definition cl_dict := list (clkey * cube).
  Definition get_ells (d : ell_dict) (k : clkey) : res (list F) := smart_get (fun x => x) d k.
  Definition get_cl (d : cl_dict) (k : clkey) : res cube := smart_get ctransp d k.
  Definition tup (pq : string * string) : rawkey := RTup [fst pq; snd pq].

  (** Where a row of the block comes from: the pair enumerated as [row]. *)
  Definition enum_inv (e : dict (nat * nat) nat) (row : nat) : option (nat * nat) :=
    match find (fun kv => Nat.eqb (snd kv) row) e with Some kv => Some (fst kv) | None => None end.
  Definition cov_cell (mAC mBD mAD mBC : nat -> nat -> F) (i j k m : nat) : F :=
    mAC i k * mBD j m + mAD i m * mBC j k.
  (** 84-113 computeCovBlock.  The two nested loops write every cell
      (row, col) of the enumeration maps exactly once. *)
  Definition in_shape (c : cube) (i j : nat) : bool := Nat.ltb i (cnr c) && Nat.ltb j (cnc c).
  Definition two : F := 1 + 1.
  Definition cov_block (AB CD : clkey) (sells : ell_dict) (scl : cl_dict) : res (list F * cube) :=
    ab <- to_tuple_raw AB ;;
    cd <- to_tuple_raw CD ;;
    let '(A, B) := ab in let '(C, D) := cd in
    sel <- rmapM (fun key =>
             l <- (k <- clkey_of (tup key) ;; get_ells sells k) ;;
             b <- (k <- clkey_of (tup key) ;; get_cl scl k) ;;
             Ok (key, (l, b))) [(A, C); (B, D); (A, D); (B, C)] ;;
    let sel_ells := fold_left (fun d kv => dset spair_eqb d (fst kv) (fst (snd kv))) sel [] in
    let sel_cls := fold_left (fun d kv => dset spair_eqb d (fst kv) (snd (snd kv))) sel [] in
    em <- mask_common (map snd sel_ells) (sp_get sel_ells) sel_cls ;;
    let '(ells, masked) := em in
    bAB <- (k <- clkey_of (tup (A, B)) ;; get_cl scl k) ;;
    bCD <- (k <- clkey_of (tup (C, D)) ;; get_cl scl k) ;;
    eAB <- get_enumeration_map (cnr bAB, cnc bAB) (String.eqb A B) ;;
    eCD <- get_enumeration_map (cnr bCD, cnc bCD) (String.eqb C D) ;;
    AC <- sp_get masked (A, C) ;; BD <- sp_get masked (B, D) ;;
    AD <- sp_get masked (A, D) ;; BC <- sp_get masked (B, C) ;;
    let cells := list_prod eAB eCD in
    if forallb (fun rc => let '(((i, j), _), ((k, m), _)) := rc in
                          in_shape AC i k && in_shape BD j m && in_shape AD i m && in_shape BC j k) cells
    then
      if match cells with [] => true | _ =>
           forallb (fun c => Nat.eqb (length (crows c)) (length ells)) [AC; BD; AD; BC] end
      then
        let row t := fun r c =>
          match enum_inv eAB r, enum_inv eCD c with
          | Some (i, j), Some (k, m) =>
              cov_cell (nth t (crows AC) (fun _ _ => 0)) (nth t (crows BD) (fun _ _ => 0))
                       (nth t (crows AD) (fun _ _ => 0)) (nth t (crows BC) (fun _ _ => 0)) i j k m
              * (1 / (two * nth t ells 0 + 1))
          | _, _ => 0
          end in
        Ok (ells, mkCube (length eAB) (length eCD) (map row (seq 0 (length ells))))
      else Err EValueError
    else Err EIndexError.

  (** Dictionaries keyed by a pair of ClKey objects. *)
  Definition keqb (a b : clkey) : bool := match equivalent_to a b with Ok true => true | _ => false end.
  Definition kk_eqb (a b : clkey * clkey) : bool := keqb (fst a) (fst b) && keqb (snd a) (snd b).
  Definition kk_get {V} (d : dict (clkey * clkey) V) (k : clkey * clkey) : res V :=
    match dget kk_eqb d k with Some v => Ok v | None => Err EKeyError end.
  Definition blocks := (dict (clkey * clkey) (list F) * dict (clkey * clkey) cube)%type.

  (** 66-77 evaluateAllBlocks: below the diagonal the block is the transpose of
      the one already stored. *)
  Definition fill_block (sells : ell_dict) (scl : cl_dict) (st : blocks) (rc : (nat * clkey) * (nat * clkey)) : res blocks :=
    let '((row, AB), (col, CD)) := rc in
    let '(le, lc) := st in
    if Nat.leb row col then
      lb <- cov_block AB CD sells scl ;;
      Ok (dset kk_eqb le (AB, CD) (fst lb), dset kk_eqb lc (AB, CD) (snd lb))
    else
      l <- kk_get le (CD, AB) ;;
      b <- kk_get lc (CD, AB) ;;
      Ok (dset kk_eqb le (AB, CD) l, dset kk_eqb lc (AB, CD) (ctransp b)).
  Fixpoint rfold {A B} (f : A -> B -> res A) (l : list B) (a : A) : res A :=
    match l with [] => Ok a | x :: l' => a' <- f a x ;; rfold f l' a' end.
  Definition enum {A} (l : list A) : list (nat * A) := combine (seq 0 (length l)) l.
  Definition all_blocks (dv : dvec) (sells : ell_dict) (scl : cl_dict) : res blocks :=
    rfold (fill_block sells scl) (list_prod (enum dv) (enum dv)) ([], []).

  (** 79-81 maskCovBlocksToCommonElls. *)
  Definition mask_cov (st : blocks) : res (list F * dict (clkey * clkey) cube) :=
    mask_common (map snd (fst st)) (kk_get (fst st)) (snd st).

  (** 55-64 buildMatrix: np.block joins along the last axis, then along the one
      before; sizes must agree. *)
  Definition hcat2 (a b : cube) : res cube :=
    if Nat.eqb (cnr a) (cnr b) && Nat.eqb (length (crows a)) (length (crows b)) then
      Ok (mkCube (cnr a) (cnc a + cnc b)
            (map (fun xy i j => if Nat.ltb j (cnc a) then fst xy i j else snd xy i (j - cnc a)%nat)
                 (combine (crows a) (crows b))))
    else Err EValueError.
  Definition vcat2 (a b : cube) : res cube :=
    if Nat.eqb (cnc a) (cnc b) && Nat.eqb (length (crows a)) (length (crows b)) then
      Ok (mkCube (cnr a + cnr b) (cnc a)
            (map (fun xy i j => if Nat.ltb i (cnr a) then fst xy i j else snd xy (i - cnr a)%nat j)
                 (combine (crows a) (crows b))))
    else Err EValueError.
  Fixpoint cat (op : cube -> cube -> res cube) (l : list cube) : res cube :=
    match l with
    | [] => Err EValueError
    | [a] => Ok a
    | a :: l' => b <- cat op l' ;; op a b
    end.
  Definition build_matrix (dv : dvec) (lc : dict (clkey * clkey) cube) : res cube :=
    rows <- rmapM (fun AB => r <- rmapM (fun CD => kk_get lc (AB, CD)) dv ;; cat hcat2 r) dv ;;
    cat vcat2 rows.
  (** 52-53 evaluateInverse. *)
  Definition cube_inv (c : cube) : res (list (nat -> nat -> F)) :=
    if negb (Nat.eqb (cnr c) (cnc c)) then Err ELinAlg
    else rmapM (fun m => match mat_inv (cnr c) m with Some i => Ok i | None => Err ELinAlg end) (crows c).
  (** 235-240 buildAndInvertCovarianceMatrix: common multipoles, matrix, inverse. *)
  Record covmat := mkCov { cv_ells : list F; cv_mat : cube; cv_inv : list (nat -> nat -> F) }.
  Definition delta_dict := list (rawkey * (list F * cube)).
  Definition ells_of (d : delta_dict) := map (fun e => (fst e, fst (snd e))) d.
  Definition cls_of (d : delta_dict) := map (fun e => (fst e, snd (snd e))) d.
  Definition assemble (dv : dvec) (d : delta_dict) : res (list F * cube) :=
    sells <- smart_of (ells_of d) ;;
    scl <- smart_of (cls_of d) ;;
    st <- all_blocks dv sells scl ;;
    em <- mask_cov st ;;
    m <- build_matrix dv (snd em) ;;
    Ok (fst em, m).
  Definition build_cov (dv : dvec) (d : delta_dict) : res covmat :=
    em <- assemble dv d ;;
    i <- cube_inv (snd em) ;;
    Ok (mkCov (fst em) (snd em) i).

  (** ** Derivatives, 191-233 *)
  (** fisher_utils.py:109-118: np.stack of no arrays raises ValueError. *)
  Definition vec_cube (auto : bool) (c : cube) : res (list (list F)) :=
    match crows c with
    | [] => Err EValueError
    | _ => rmapM (fun m => let M := mkMat (cnr c) (cnc c) m in if auto then vecp M else Ok (vec M)) (crows c)
    end.
  (** 191-202 selectClDerivatives. *)
  Definition select_cls (dv : dvec) (d : delta_dict) : res (ell_dict * cl_dict) :=
    src_l <- smart_of (ells_of d) ;;
    src_c <- smart_of (cls_of d) ;;
    rfold (fun acc k =>
             l <- get_ells src_l k ;; sl <- kd_set (fst acc) k l ;;
             b <- get_cl src_c k ;; sc <- kd_set (snd acc) k b ;; Ok (sl, sc)) dv ([], []).
  (** np.concatenate(axis=1) of the vectorised blocks. *)
  Fixpoint hjoin (l : list (list (list F))) : res (list (list F)) :=
    match l with
    | [] => Err EValueError
    | [a] => Ok a
    | a :: l' => b <- hjoin l' ;;
                 if Nat.eqb (length a) (length b) then Ok (map (fun xy => fst xy ++ snd xy)%list (combine a b)) else Err EValueError
    end.
  (** 204-220 buildClDerivativeDataVector. *)
  Definition deriv_vector (dv : dvec) (d : delta_dict) : res (list F * list (list F)) :=
    sel <- select_cls dv d ;;
    em <- mask_common (map snd (fst sel)) (get_ells (fst sel)) (snd sel) ;;
    blocks <- rmapM (fun e => b <- kd_get (snd em) e ;; a <- is_auto e ;; vec_cube a b) dv ;;
    v <- hjoin blocks ;;
    Ok (fst em, v).
  (** 222-233 buildVectorizedClDerivatives, 242-248
      checkClDerivativeMultipolesConsistency.  np.stack needs arrays of one
      length; np.unique(axis=0).squeeze() is one-dimensional exactly when all
      arrays agree and do not have exactly one entry (one entry squeezes to a
      scalar) or when they have one entry and disagree (then it holds the
      different values in order).  The comparison with the
      covariance's multipoles broadcasts a length-one array. *)
  Fixpoint leqb (a b : list F) : bool :=
    match a, b with
    | [], [] => true
    | x :: a', y :: b' => (if fdec x y then true else false) && leqb a' b'
    | _, _ => false
    end.
  Definition check_ells (arrs : list (list F)) (common : list F) : res unit :=
    match arrs with
    | [] => Err EValueError
    | a :: rest =>
        if negb (forallb (fun b => Nat.eqb (length b) (length a)) rest) then Err EValueError
        else if negb (forallb (leqb a) rest) then
          match a with
          | [_] => if leqb (fsort (nodup fdec (concat arrs))) common then Ok tt else Err EDomain
          | _ => Err EDomain
          end
        else match a with
             | [_] => Err EDomain
             | _ =>
                 if match common with
                    | [c] => forallb (fun x => if fdec x c then true else false) a
                    | _ => leqb a common
                    end then Ok tt else Err EDomain
             end
    end.
  Definition dget_str {V} (d : dict string V) (k : string) : res V :=
    match dget String.eqb d k with Some v => Ok v | None => Err EKeyError end.
  Definition deriv_vectors (dv : dvec) (pars : list string) (derivs : dict string delta_dict)
    : res (list (string * (list F * list (list F)))) :=
    rmapM (fun p => d <- dget_str derivs p ;; v <- deriv_vector dv d ;; Ok (p, v)) pars.

  (** ** Fisher elements, 250-290 *)
  Definition dot (x y : list F) : F := Fsum (fun xy => fst xy * snd xy) (combine x y).
  Definition bilin (n : nat) (x : list F) (A : nat -> nat -> F) (y : list F) : F :=
    Fsum (fun i => Fsum (fun j => nth i x 0 * A i j * nth j y 0) (seq 0 n)) (seq 0 n).
  (** itertools.combinations_with_replacement(l, 2). *)
  Fixpoint pairs2 {A} (l : list A) : list (A * A) :=
    match l with [] => [] | x :: l' => (x, x) :: map (pair x) l' ++ pairs2 l' end.
  (** A frame of f_ell values: the multipole index and one column per pair. *)
  Record fell := mkFell { fe_ells : list F; fe_cols : dict (string * string) (list F) }.
  Definition f_ell_pair (cov : covmat) (da db : list (list F)) : res (list F) :=
    rmapM (fun t =>
             match nth_error da t, nth_error (cv_inv cov) t, nth_error db t with
             | Some x, Some A, Some y =>
                 if Nat.eqb (length x) (cnr (cv_mat cov)) && Nat.eqb (length y) (cnr (cv_mat cov))
                 then Ok (bilin (cnr (cv_mat cov)) x A y) else Err EValueError
             | _, _, _ => Err EIndexError
             end) (seq 0 (length (cv_ells cov))).
  (** 250-268 computeFisherOfMultipole. *)
  Definition fisher_of_ell (cov : covmat) (pars : list string) (dcls : dict string (list (list F))) : res fell :=
    cols <- rfold (fun acc ab =>
              da <- dget_str dcls (fst ab) ;; db <- dget_str dcls (snd ab) ;;
              f <- f_ell_pair cov da db ;;
              Ok (dset spair_eqb (dset spair_eqb acc ab f) (snd ab, fst ab) f)) (pairs2 pars) [] ;;
    Ok (mkFell (cv_ells cov) cols).
  (** 270-275 sumFisherOverMultipoles: rows whose index is in ells, summed, the
      pairs unstacked into a frame with sorted labels. *)
  Definition sum_fisher (f : fell) (ells : list F) : frame F :=
    mkF (ssort (sdup (map (fun kv => fst (fst kv)) (fe_cols f))))
        (ssort (sdup (map (fun kv => snd (fst kv)) (fe_cols f))))
        (fun a b => match dget spair_eqb (fe_cols f) (a, b) with
                    | Some col => Some (Fsum (fun x => x) (select ells (fe_ells f) col))
                    | None => None
                    end).
  (** 277-290 addInvolvedProbesContribution. *)
  Definition add_involved (dv : dvec) (ells : list F) (autos : dict string fell) (m : frame F) : res (frame F) :=
    ps <- involved_probes dv ;;
    rfold (fun m p =>
             a <- dget_str autos p ;;
             let exclusive := filter (fun x => negb (fmem x ells)) (fe_ells a) in
             match exclusive with
             | [] => Ok m
             | _ => Ok (f_addfill m (sum_fisher a exclusive))
             end) ps m.

  (** 179-189 selectFreeParameters. *)
  Definition free_nuisance_of (dv : dvec) (c : coll F) : res (dict string (param F)) :=
    rfold (fun acc e =>
             k <- transform_to Long e ;;
             pq <- to_parts k ;;
             Ok (dupdate String.eqb (dupdate String.eqb acc (free_nuisance_for (fst pq) c)) (free_nuisance_for (snd pq) c)))
          dv [].
  Definition free_parameters (dv : dvec) (c : coll F) : res (dict string (param F)) :=
    nu <- free_nuisance_of dv c ;;
    Ok (dupdate String.eqb (dupdate String.eqb [] (free_cosmological c)) nu).

  (** 141-177 computeFisherMatrix; the f_ell frame is returned as well. *)
  Definition compute_fisher (dv : dvec) (c : coll F) (derivs : dict string delta_dict) (delta : delta_dict)
      (autos : option (dict string fell)) : res (frame F * fell) :=
    pars <- free_parameters dv c ;;
    let names := dkeys pars in
    cov <- build_cov dv delta ;;
    vecs <- deriv_vectors dv names derivs ;;
    _ <- check_ells (map (fun e => fst (snd e)) vecs) (cv_ells cov) ;;
    fe <- fisher_of_ell cov names (map (fun e => (fst e, snd (snd e))) vecs) ;;
    let m := sum_fisher fe (cv_ells cov) in
    single <- is_single_auto dv ;;
    if single then Ok (m, fe)
    else match autos with
         | None => Err EValueError
         | Some au => m' <- add_involved dv (cv_ells cov) au m ;; Ok (m', fe)
         end.
End Eval.
Arguments cube : clear implicits.
Arguments fell : clear implicits.
Arguments covmat : clear implicits.
