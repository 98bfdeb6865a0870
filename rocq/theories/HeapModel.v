(** FisherMatrix objects on a heap: which calls change which objects.

    A heap holds pandas frames and FisherMatrix objects; an object refers to
    its matrix by address, since zeroPadMatrices writes into the frame in
    place (seyfert/fisher/fisher_matrix.py:132-137) and a frame may be reachable
    from several objects (the constructor, 32-49, and from_dataframe, 90-95,
    keep the frame they are given).  Inverse and correlation frames are only
    ever rebound, never written into, and parameter sets likewise, so they are
    kept by value.  Method bodies are those of FisherModel. *)
From Verif Require Import Base SortLib FrameModel FisherModel.
Open Scope list_scope.

Section Heap.
  Context {F : Type} {K : Fld F} {SO : SetOrder}.

  Record obj := mkObj { o_mat : nat; o_name : string; o_cosmo : list string; o_nuis : list string;
                        o_inv : option (frame F); o_corr : option (frame F); o_flag : bool }.
  Record heap := mkHeap { frs : list (frame F); obs : list obj }.

  (** The contents of an object. *)
  Definition deref (h : heap) (o : obj) : option (fisher F) :=
    match nth_error (frs h) (o_mat o) with
    | Some m => Some (mkFisher m (o_name o) (o_cosmo o) (o_nuis o) (o_inv o) (o_corr o) (o_flag o))
    | None => None
    end.
  Definition view (h : heap) (a : nat) : option (fisher F) :=
    match nth_error (obs h) a with Some o => deref h o | None => None end.
  Definition hget (h : heap) (a : nat) : res (fisher F) :=
    match view h a with Some f => Ok f | None => Err EAttributeError end.

  Fixpoint list_set {A} (l : list A) (n : nat) (x : A) : list A :=
    match l, n with
    | [], _ => []
    | _ :: l', 0 => x :: l'
    | y :: l', S n' => y :: list_set l' n' x
    end.
  (** A new frame and a new object holding it. *)
  Definition h_alloc (f : fisher F) (h : heap) : heap * nat :=
    (mkHeap (frs h ++ [fmat f])
            (obs h ++ [mkObj (length (frs h)) (fname f) (fcosmo f) (fnuis f) (finverse f) (fcorr f) (fmflag f)]),
     length (obs h)).
  (** Attribute assignments on object [a]: [rebind] when self.matrix is bound
      to a new frame. *)
  Definition h_assign (rebind : bool) (a : nat) (f : fisher F) (h : heap) : heap :=
    match nth_error (obs h) a with
    | None => h
    | Some o =>
        if rebind
        then mkHeap (frs h ++ [fmat f])
                    (list_set (obs h) a (mkObj (length (frs h)) (fname f) (fcosmo f) (fnuis f) (finverse f) (fcorr f) (fmflag f)))
        else mkHeap (frs h) (list_set (obs h) a (mkObj (o_mat o) (fname f) (fcosmo f) (fnuis f) (finverse f) (fcorr f) (fmflag f)))
    end.
  (** Writing into the frame of object [a]. *)
  Definition h_poke (a : nat) (g : frame F -> frame F) (h : heap) : heap :=
    match nth_error (obs h) a with
    | None => h
    | Some o => match nth_error (frs h) (o_mat o) with
                | None => h
                | Some m => mkHeap (list_set (frs h) (o_mat o) (g m)) (obs h)
                end
    end.

  (** fisher_matrix.py:119-123 copy (and 172-173 __deepcopy__). *)
  Definition h_copy (a : nat) (h : heap) : heap * res nat :=
    match hget h a with
    | Err e => (h, Err e)
    | Ok f => let (h', b) := h_alloc (fcopy f) h in (h', Ok b)
    end.
  (** 125-139 zeroPadMatrices: the loops write into both frames. *)
  Definition h_zeropad (a b : nat) (h : heap) : heap * res unit :=
    match hget h a, hget h b with
    | Ok f1, Ok f2 =>
        let sum_phys := set_union (set_union (fcosmo f1) (fcosmo f2)) (set_union (fnuis f1) (fnuis f2)) in
        let missing1 := set_diff sum_phys (phys f1) in
        let missing2 := set_diff sum_phys (phys f2) in
        (h_poke b (pad1 missing2) (h_poke a (pad1 missing1) h), Ok tt)
    | Err e, _ | _, Err e => (h, Err e)
    end.
  (** 141-161 __add__ and __sub__. *)
  Definition h_combine (op : F -> F -> F) (sym : string) (a b : nat) (h : heap) : heap * res nat :=
    match h_copy a h with
    | (h1, Err e) => (h1, Err e)
    | (h1, Ok a') =>
        match h_copy b h1 with
        | (h2, Err e) => (h2, Err e)
        | (h2, Ok b') =>
            match h_zeropad a' b' h2 with
            | (h3, Err e) => (h3, Err e)
            | (h3, Ok _) =>
                match hget h3 a', hget h3 b' with
                | Ok f1, Ok f2 =>
                    let (h4, c) := h_alloc (new_fisher (f_op op (fmat f1) (fmat f2)) (fname f1 ++ sym ++ fname f2)
                                             (set_union (fcosmo f1) (fcosmo f2)) (set_union (fnuis f1) (fnuis f2)) true) h3 in
                    (h4, Ok c)
                | Err e, _ | _, Err e => (h3, Err e)
                end
            end
        end
    end.
  Definition h_add := h_combine fadd " + ".
  Definition h_sub := h_combine fsub " - ".
  (** A method that only assigns attributes of its object. *)
  Definition h_method {A} (rebind : bool) (m : fisher F -> fisher F * res A) (a : nat) (h : heap) : heap * res A :=
    match hget h a with
    | Err e => (h, Err e)
    | Ok f => let (f', r) := m f in (h_assign rebind a f' h, r)
    end.
  (** 195-217, 241-277, 305-311. *)
  Definition h_fix (ps : list string) := h_method true (fix_parameters ps).
  Definition h_select := h_method true select_relevant.
  Definition h_prior fid frac := h_method true (add_prior fid frac).
  (** marginalizeParameters / marginalizeNuisance with ret_copy=False. *)
  Definition h_marg (ps : list string) := h_method true (marginalize ps false).
  Definition h_margnuis := h_method true (marginalize_nuisance false).
  (** ret_copy=True: the inverse of the object is assigned (258), the result is
      a new object. *)
  Definition h_marg_copy (ps : list string) (a : nat) (h : heap) : heap * res nat :=
    match hget h a with
    | Err e => (h, Err e)
    | Ok f => match marginalize ps true f with
              | (f', Ok (Some t)) => let (h', b) := h_alloc t (h_assign false a f' h) in (h', Ok b)
              | (f', Ok None) => (h_assign false a f' h, Err EAttributeError)
              | (f', Err e) => (h_assign false a f' h, Err e)
              end
    end.
  Definition h_inverse := h_method false eval_inverse.
End Heap.
Arguments obj : clear implicits.
Arguments heap : clear implicits.
