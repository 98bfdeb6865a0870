(** Properties C12-C24: Fisher matrix objects. *)
From Verif Require Import Base SortLib MatInv LabLin FrameModel FrameLemmas FisherModel FisherHistory FisherSpec
  FisherLemmas FisherLemmas2 FisherLemmas3 FisherLemmas4 FisherLemmas5 RealInst.
From Coq Require Import Permutation Qcanon Reals.
Close Scope Qc_scope. Close Scope R_scope.

(** Objects for the examples: two parameters (one cosmological, one nuisance),
    positive definite, with different labels. *)
Definition exF : fisher Qc := fish2 (qz 2) (qz 1) (qz 1) (qz 1) "Omm" "bgph0".
Definition exG : fisher Qc := fish2 (qz 3) (qz 1) (qz 1) (qz 2) "h" "Omm".
Definition exH : fisher Qc := fish2 (qz 2) (qz 1) (qz 1) (qz 1) "Omm" "aIA".
#[local] Existing Instance id_order.
Lemma exF_wf : wf exF. Proof. apply fish2_wf; discriminate. Qed.
Lemma exG_wf : wf exG. Proof. apply fish2_wf; discriminate. Qed.
Lemma exH_wf : wf exH. Proof. apply fish2_wf; discriminate. Qed.
Ltac qpos := split; [vm_compute; discriminate|let C := fresh in intros C; vm_compute in C; discriminate C].
Lemma exF_pd : posdef exF. Proof. apply fish2_pd; [discriminate|qpos|qpos]. Qed.
Lemma exG_pd : posdef exG. Proof. apply fish2_pd; [discriminate|qpos|qpos]. Qed.
Lemma exH_pd : posdef exH. Proof. apply fish2_pd; [discriminate|qpos|qpos]. Qed.
#[local] Remove Hints id_order : typeclass_instances.

Section Props.
  Context {F : Type} {K : Fld F} {SO : SetOrder}.
  Open Scope fld_scope.
  Implicit Types f g h t u v : fisher F.

  (** ** C12 *)
  Theorem C12_sum f g : wf f -> wf g -> let h := fisher_add f g in
    wf h /\ (forall x, In x (labels h) <-> In x (labels f) \/ In x (labels g)) /\
    (forall a b, In a (labels h) -> In b (labels h) -> fval h a b = pval f a b + pval g a b) /\
    (forall x, In x (fcosmo h) <-> In x (fcosmo f) \/ In x (fcosmo g)) /\
    (forall x, In x (fnuis h) <-> In x (fnuis f) \/ In x (fnuis g)) /\
    fname h = (fname f ++ " + " ++ fname g)%string /\ finverse h = None.
  Proof. exact (fcombine_spec fadd " + " f g). Qed.

  (** ** C13 *)
  Theorem C13_commutes f g : wf f -> wf g -> same (fisher_add f g) (fisher_add g f).
  Proof. exact (add_comm f g). Qed.
  Theorem C13_associates f g h : wf f -> wf g -> wf h ->
    same (fisher_add (fisher_add f g) h) (fisher_add f (fisher_add g h)).
  Proof. exact (add_assoc f g h). Qed.
  Theorem C13_any_order f l g m : wf f -> Forall wf l -> Permutation (f :: l) (g :: m) ->
    same (sum_list f l) (sum_list g m).
  Proof. exact (sum_list_perm f l g m). Qed.

  (** ** C14 *)
  Theorem C14_subtraction f g : wf f -> wf g -> let h := fisher_sub f g in
    wf h /\ (forall x, In x (labels h) <-> In x (labels f) \/ In x (labels g)) /\
    (forall a b, In a (labels h) -> In b (labels h) -> fval h a b = pval f a b - pval g a b) /\
    (forall x, In x (fcosmo h) <-> In x (fcosmo f) \/ In x (fcosmo g)) /\
    (forall x, In x (fnuis h) <-> In x (fnuis f) \/ In x (fnuis g)) /\
    fname h = (fname f ++ " - " ++ fname g)%string /\ finverse h = None.
  Proof. exact (fcombine_spec fsub " - " f g). Qed.
  Theorem C14_subtraction_undoes_addition f g : wf f -> wf g ->
    let h := fisher_sub (fisher_add f g) g in
    wf h /\ (forall x, In x (labels h) <-> In x (labels f) \/ In x (labels g)) /\
    (forall a b, In a (labels f) -> In b (labels f) -> fval h a b = fval f a b) /\
    (forall a b, In a (labels h) -> In b (labels h) -> ~ In a (labels f) \/ ~ In b (labels f) -> fval h a b = 0).
  Proof. exact (add_sub f g). Qed.
  Theorem C14_antisymmetric f g : wf f -> wf g ->
    (forall x, In x (labels (fisher_sub f g)) <-> In x (labels (fisher_sub g f))) /\
    forall a b, In a (labels (fisher_sub f g)) -> In b (labels (fisher_sub f g)) ->
      fval (fisher_sub f g) a b = - fval (fisher_sub g f) a b.
  Proof. exact (sub_antisym f g). Qed.

  (** ** C15 *)
  Theorem C15_fix ps f : wf f -> (forall x, In x ps -> In x (labels f)) ->
    exists t, fix_parameters ps f = (t, Ok tt) /\ wf t /\
      labels t = filter (fun x => negb (smem x ps)) (labels f) /\
      (forall a b, ce (fmat t) a b = ce (fmat f) a b) /\
      (forall x, In x (fcosmo t) <-> In x (fcosmo f) /\ ~ In x ps) /\
      (forall x, In x (fnuis t) <-> In x (fnuis f) /\ ~ In x ps) /\
      fname t = fname f /\ finverse t = finverse f.
  Proof. exact (fix_spec ps f). Qed.
  Theorem C15_unknown_raises_unchanged ps f : wf f -> (exists x, In x ps /\ ~ In x (labels f)) ->
    fix_parameters ps f = (f, Err EException).
  Proof. exact (fix_unknown ps f). Qed.
  Theorem C15_two_steps ps qs f : wf f -> (forall x, In x ps -> In x (labels f)) ->
    (forall x, In x qs -> In x (labels f) /\ ~ In x ps) ->
    exists t u v, fix_parameters ps f = (t, Ok tt) /\ fix_parameters qs t = (u, Ok tt) /\
      fix_parameters (ps ++ qs) f = (v, Ok tt) /\ labels u = labels v /\
      (forall a b, ce (fmat u) a b = ce (fmat v) a b) /\
      (forall x, In x (fcosmo u) <-> In x (fcosmo v)) /\ (forall x, In x (fnuis u) <-> In x (fnuis v)).
  Proof. exact (fix_two ps qs f). Qed.

  (** ** C16 *)
  Theorem C16_covariance_kept ps rc f t : wf f -> margd ps rc f t ->
    exists C, covariance f C /\
      wf t /\ (forall x, In x (labels t) <-> In x (labels f) /\ ~ In x ps) /\ labels t = ssort (labels t) /\
      covariance t C /\
      (exists s, finverse t = Some s /\ frame_ok s /\ Permutation (ix s) (labels t) /\
         (forall a b, In a (labels t) -> In b (labels t) -> fv s a b = C a b)) /\
      (forall x, In x (fcosmo t) <-> In x (fcosmo f) /\ ~ In x ps) /\
      (forall x, In x (fnuis t) <-> In x (fnuis f) /\ ~ In x ps) /\ (forall x, In x ps -> In x (labels f)).
  Proof. exact (margd_spec ps rc f t). Qed.
  Theorem C16_schur_complement ps rc f t s : wf f -> margd ps rc f t ->
    NoDup s -> (forall x, In x s <-> In x ps) ->
    exists G, isinv string_dec s (fval f) G /\
      forall a b, In a (labels t) -> In b (labels t) ->
        fval t a b = fval f a b - Fsum (fun p => Fsum (fun q => fval f a p * G p q * fval f q b) s) s.
  Proof. exact (margd_schur ps rc f t s). Qed.
  Theorem C16_unknown_raises_unchanged ps rc f : (exists x, In x ps /\ ~ In x (labels f)) ->
    marginalize ps rc f = (f, Err EDomain).
  Proof. exact (marg_unknown ps rc f). Qed.
  (** It succeeds whenever the two matrices to invert are invertible. *)
  Theorem C16_succeeds ps rc f C M keep : wf f -> (forall x, In x ps -> In x (labels f)) ->
    covariance f C -> NoDup keep -> (forall x, In x keep <-> In x (labels f) /\ ~ In x ps) ->
    isinv string_dec keep C M -> exists t, margd ps rc f t.
  Proof. exact (margd_complete ps rc f C M keep). Qed.

  (** ** C17 *)
  Theorem C17_composes ps qs rc1 rc2 rc3 f t u v : wf f ->
    margd ps rc1 f t -> margd qs rc2 t u -> margd (ps ++ qs) rc3 f v ->
    labels u = labels v /\ (forall a b, In a (labels u) -> In b (labels u) -> fval u a b = fval v a b) /\
    (forall x, In x (fcosmo u) <-> In x (fcosmo v)) /\ (forall x, In x (fnuis u) <-> In x (fnuis v)).
  Proof. exact (margd_compose ps qs rc1 rc2 rc3 f t u v). Qed.
  Theorem C17_either_order ps qs rc1 rc2 rc3 rc4 f t u t' u' : wf f ->
    margd ps rc1 f t -> margd qs rc2 t u -> margd qs rc3 f t' -> margd ps rc4 t' u' ->
    labels u = labels u' /\ (forall a b, In a (labels u) -> In b (labels u) -> fval u a b = fval u' a b) /\
    (forall x, In x (fcosmo u) <-> In x (fcosmo u')) /\ (forall x, In x (fnuis u) <-> In x (fnuis u')).
  Proof. exact (margd_either_order ps qs rc1 rc2 rc3 rc4 f t u t' u'). Qed.
  Theorem C17_nothing rc f t : wf f -> margd [] rc f t -> same t f.
  Proof. exact (margd_nil rc f t). Qed.

  (** ** C18 *)
  Theorem C18_before_or_after f g t u v rc1 rc2 rc3 : wf f -> wf g ->
    (forall x, In x (fnuis f) -> ~ In x (labels g)) -> (forall x, In x (fnuis g) -> ~ In x (labels f)) ->
    margd (fnuis f) rc1 f t -> margd (fnuis g) rc2 g u -> margd (fnuis (fisher_add f g)) rc3 (fisher_add f g) v ->
    same (fisher_add t u) v.
  Proof. exact (marg_add f g t u v rc1 rc2 rc3). Qed.

  (** ** C21 *)
  (** ret_copy=True changes nothing on the object but its stored inverse. *)
  Theorem C21_copy_changes_inverse_only ps f f' r : wf f -> marginalize ps true f = (f', Ok r) ->
    exists i, invert_dataframe (fmat f) = Ok i /\ f' = with_inv f i.
  Proof.
    exact (fun W E => match marg_ok ps true f f' r W E with
      | ex_intro _ i (ex_intro _ _ (ex_intro _ _ (conj H1 (conj _ (conj H2 _))))) => ex_intro _ i (conj H1 H2) end).
  Qed.

  (** ** C24 *)
  Theorem C24_prior fid frac f : wf f -> NoDup (dkeys fid) -> (forall n (x : F), In (n, x) fid -> frac * x <> 0) ->
    exists t, add_prior fid frac f = (t, Ok tt) /\
      (forall x, In x (labels t) <-> In x (labels f) \/ In x (dkeys fid)) /\
      NoDup (labels t) /\ cx (fmat t) = labels t /\
      (forall a b, In a (labels f) -> In b (labels f) -> ce (fmat t) a b = Some (fval f a b + prior_term fid frac a b)) /\
      (forall n (x : F), In (n, x) fid -> ~ In n (labels f) ->
         ce (fmat t) n n = Some (1 / ((frac * x) * (frac * x))) /\
         forall b, b <> n -> ce (fmat t) n b = None /\ ce (fmat t) b n = None) /\
      fcosmo t = fcosmo f /\ fnuis t = fnuis f /\ fname t = fname f /\ finverse t = finverse f /\
      ((forall x, In x (dkeys fid) -> In x (labels f)) -> labels t = labels f).
  Proof. exact (add_prior_spec fid frac f). Qed.
  Theorem C24_zero_raises_unchanged fid frac f : wf f -> NoDup (dkeys fid) ->
    (exists n (x : F), In (n, x) fid /\ frac * x = 0) -> add_prior fid frac f = (f, Err EZeroDivision).
  Proof. exact (add_prior_zero fid frac f). Qed.
  Theorem C24_known_names_keep_consistency fid frac f t : wf f -> NoDup (dkeys fid) ->
    (forall x, In x (dkeys fid) -> In x (labels f)) -> add_prior fid frac f = (t, Ok tt) -> wf t.
  Proof. exact (add_prior_wf fid frac f t). Qed.
End Props.

Section PropsO.
  Context {F : Type} {K : Fld F} {O : OFld (F := F)} {SO : SetOrder}.
  Open Scope fld_scope.
  Implicit Types f g h t u v : fisher F.

  (** Positive definite matrices: marginalising always succeeds and stays positive definite. *)
  Theorem C16_posdef_succeeds ps rc f : wf f -> posdef f -> (forall x, In x ps -> In x (labels f)) ->
    exists t, margd ps rc f t.
  Proof. exact (posdef_margd ps rc f). Qed.
  Theorem C16_posdef_kept ps rc f t : wf f -> posdef f -> margd ps rc f t -> posdef t.
  Proof. exact (posdef_margd_pd ps rc f t). Qed.
  Theorem C18_sum_posdef f g : wf f -> wf g -> posdef f -> posdef g -> posdef (fisher_add f g).
  Proof. exact (posdef_add f g). Qed.
End PropsO.

Section PropsS.
  Context {F : Type} {K : Fld F} {O : OFld (F := F)} {S : SqrtFld F} {SO : SetOrder}.
  Open Scope fld_scope.
  Implicit Types f g h t u v : fisher F.

  (** ** C19 *)
  Theorem C19_marginalised_ge_unmarginalised (fom oc : bool) f a : wf f -> posdef f -> finverse f = None ->
    In a (if oc then fcosmo f else labels f) -> a <> "FoM"%string ->
    exists f' e ue x y, marginalized_errors fom oc f = (f', Ok e) /\ unmarginalized_errors oc f = Ok ue /\
      s_get e a = Some (Some x) /\ s_get ue a = Some (Some y) /\ flt 0 y /\ fle y x.
  Proof. exact (errors_ge_cond fom oc f a). Qed.
  Theorem C19_fixing_never_increases ps f t a (fom oc : bool) : wf f -> posdef f -> finverse f = None ->
    fix_parameters ps f = (t, Ok tt) -> In a (if oc then fcosmo t else labels t) -> a <> "FoM"%string ->
    exists f' e t' e' x y, marginalized_errors fom oc f = (f', Ok e) /\ marginalized_errors fom oc t = (t', Ok e') /\
      s_get e a = Some (Some x) /\ s_get e' a = Some (Some y) /\ fle y x.
  Proof. exact (fix_lowers_errors ps f t a fom oc). Qed.

  (** ** C20: positive part.  Unless the matrix was edited while an inverse was
      held, the errors are those of a fresh copy of the object. *)
  Theorem C20_reported_errors_partial f0 f s fom oc f' e : wf f0 -> reach f0 f s -> s <> IStale ->
    marginalized_errors fom oc f = (f', Ok e) ->
    exists g, marginalized_errors fom oc (fcopy f) = (g, Ok e).
  Proof. exact (fun W R Hs E => errors_fresh fom oc f s e f' (reach_inv f0 f s W R) Hs E). Qed.
  (** What a fresh copy reports: the square roots of the diagonal of the inverse. *)
  Theorem C20_fresh_errors fom oc f i a : wf f -> finverse f = None -> invert_dataframe (fmat f) = Ok i -> a <> "FoM"%string ->
    covariance f (fv i) /\
    exists f' e, marginalized_errors fom oc f = (f', Ok e) /\
      s_get e a = if smem a (if oc then fcosmo f else labels f) then Some (np_sqrt (fv i a a)) else None.
  Proof.
    exact (fun W N E Ha =>
      conj (proj2 (proj2 (invert_ok _ _ (proj1 W) E)))
        (match errors_get fom oc (with_inv f i) i a (proj2 (held_inv f i W E)) (proj1 (held_inv f i W E)) Ha with
         | ex_intro _ e (conj H1 H2) => ex_intro _ _ (ex_intro _ e (conj (eq_trans (errors_none fom oc f i N E) H1) H2)) end)).
  Qed.

  (** ** C22 *)
  Theorem C22_correlation f i : wf f -> finverse f = Some i -> frame_ok i -> ix i = labels f ->
    exists f' c, eval_correlation f = (f', Ok tt) /\ fcorr f' = Some c /\ finverse f' = Some i /\ fmat f' = fmat f /\
      ix c = ssort (fcosmo f) /\ cx c = ssort (fcosmo f) /\
      forall a b, In a (fcosmo f) -> In b (fcosmo f) ->
        ce c a b = corr_div (Some (fv i a b)) (lift2 fmul (np_sqrt (fv i b b)) (np_sqrt (fv i a a))).
  Proof. exact (correlation_ok f i). Qed.

  Theorem C22_unit_diagonal_symmetric f f1 : wf f -> posdef f -> eval_inverse f = (f1, Ok tt) ->
    exists f' c C, covariance f C /\ eval_correlation f1 = (f', Ok tt) /\ fcorr f' = Some c /\
      ix c = ssort (fcosmo f) /\ cx c = ssort (fcosmo f) /\
      forall a b, In a (fcosmo f) -> In b (fcosmo f) ->
        ce c a b = Some (C a b / (fsqrt (C a a) * fsqrt (C b b))) /\ ce c a a = Some 1 /\ ce c b a = ce c a b.
  Proof. exact (correlation_pd f f1). Qed.

  (** ** C23 *)
  Theorem C23_figure_of_merit p q f i : finverse f = Some i -> frame_ok i ->
    (forall x, In x (labels f) -> In x (ix i)) -> p <> q -> In p (labels f) -> In q (labels f) ->
    flt 0 (fv i p p * fv i q q - fv i p q * fv i q p) ->
    figure_of_merit p q f = Ok (Some (1 / fsqrt (fv i p p * fv i q q - fv i p q * fv i q p))) /\
    figure_of_merit q p f = figure_of_merit p q f.
  Proof. exact (fom_ok p q f i). Qed.
  Theorem C23_unchanged_by_marginalising p q ps rc f f1 t : wf f -> eval_inverse f = (f1, Ok tt) -> margd ps rc f t ->
    p <> q -> In p (labels t) -> In q (labels t) -> figure_of_merit p q t = figure_of_merit p q f1.
  Proof. exact (fom_marg p q ps rc f f1 t). Qed.
End PropsS.

(** ** Refutations *)
(** C16, beside the property: when the second inversion fails, the in-place
    variant raises after it has already removed the parameters from the sets. *)
Theorem C16_failed_marginalisation_half_updates : exists f f' : fisher Qc,
  wf f /\ @marginalize _ _ id_order ["y"%string] false f = (f', Err ELinAlg) /\ ~ wf f'.
Proof. exact marg_half. Qed.
(** C18: with a shared nuisance parameter the two orders differ. *)
Theorem C18_shared_nuisance_differs : exists f g t u v : fisher Qc,
  wf f /\ wf g /\ posdef f /\ posdef g /\
  @margd _ _ id_order ["n"%string] true f t /\ @margd _ _ id_order ["n"%string] true g u /\
  @margd _ _ id_order ["n"%string] true (@fisher_add _ _ id_order f g) v /\
  fval (@fisher_add _ _ id_order t u) "a" "a" <> fval v "a" "a".
Proof. exact shared_differs. Qed.
(** C20: errors read after fixing a parameter on an object that already holds
    an inverse are not those of its current matrix. *)
Theorem C20_stale_errors_refuted {F} {K : Fld F} {O : OFld (F := F)} {S : SqrtFld F} {SO : SetOrder} :
  exists (f0 f : fisher F) s f' e g e',
    wf f0 /\ reach f0 f s /\
    marginalized_errors false true f = (f', Ok e) /\ marginalized_errors false true (fcopy f) = (g, Ok e') /\
    s_get e "a" = Some (Some fo) /\ s_get e' "a" = Some (Some (fdiv fo f2)) /\ e <> e'.
Proof. exact stale_errors. Qed.
(** C21: the object marginalised with ret_copy=True answers differently afterwards. *)
Theorem C21_copy_unchanged_refuted {F} {K : Fld F} {O : OFld (F := F)} {S : SqrtFld F} {SO : SetOrder} :
  exists (f : fisher F) ps f' t,
    wf f /\ marginalize ps true f = (f', Ok (Some t)) /\
    parameter_sigma "a" f = Err EValueError /\ parameter_sigma "a" f' = Ok (Some fo).
Proof. exact copy_marg_mutates. Qed.
(** C22: after marginalising, the sigmas are paired with the wrong labels. *)
Theorem C22_after_marginalising_refuted {F} {K : Fld F} {O : OFld (F := F)} {S : SqrtFld F} :
  exists (SO : SetOrder) (f : fisher F) t t' c,
    wf f /\ margd ["x"%string] true f t /\ eval_correlation t = (t', Ok tt) /\ fcorr t' = Some c /\
    In "a"%string (ix c) /\ In "a"%string (cx c) /\ ce c "a" "a" <> Some fo.
Proof. exact correlation_wrong. Qed.
(** C24: an unknown name is accepted and leaves NaN entries. *)
Theorem C24_unknown_rejected_refuted : exists (f t : fisher Qc) fid frac,
  wf f /\ add_prior fid frac f = (t, Ok tt) /\ In "z"%string (labels t) /\ In "x"%string (labels t) /\
  ce (fmat t) "z" "x" = None.
Proof. exact prior_unknown. Qed.

(** ** Concrete cases meeting the hypotheses *)
Section Examples.
  #[local] Existing Instance id_order.
  (** C12-C14: objects sharing one parameter, with an entry checked by hand. *)
  Example C12_C13_C14_ex : wf exF /\ wf exG /\ wf exH /\
    fval (fisher_add exF exG) "Omm" "Omm" = qz 4 /\ fval (fisher_add exF exG) "h" "bgph0" = qz 0 /\
    fval (fisher_sub exF exG) "Omm" "Omm" = qz 0 /\ labels (fisher_add exF exG) = ["Omm"; "bgph0"; "h"]%string.
  Proof. repeat split; try apply exF_wf; try apply exG_wf; try apply exH_wf; vm_compute; reflexivity. Qed.
  (** C15, C17: fixing and marginalising "bgph0", then "Omm". *)
  Example C15_C17_ex : exists t u v,
    margd ["bgph0"%string] true exF t /\ margd ["Omm"%string] false t u /\ margd ["bgph0"; "Omm"]%string true exF v /\
    fval t "Omm" "Omm" = qz 1 /\ fix_parameters ["bgph0"%string] exF <> (exF, Err EException).
  Proof.
    exists (marg_copy ["bgph0"%string] exF). eexists. exists (marg_copy ["bgph0"; "Omm"]%string exF).
    split; [apply marg_copy_ok; vm_compute; reflexivity|]. split.
    - exists (fst (marginalize ["Omm"%string] false (marg_copy ["bgph0"%string] exF))), None. split; [|reflexivity].
      assert (E : snd (marginalize ["Omm"%string] false (marg_copy ["bgph0"%string] exF)) = Ok None) by (vm_compute; reflexivity).
      rewrite <- E. apply surjective_pairing.
    - split; [apply marg_copy_ok; vm_compute; reflexivity|]. split; [vm_compute; reflexivity|].
      intros C. apply (f_equal snd) in C. vm_compute in C. discriminate C.
  Qed.
  (** C16, C18: positive definite objects with disjoint nuisance parameters. *)
  Example C16_C18_ex : wf exF /\ wf exH /\ posdef exF /\ posdef exH /\
    (forall x, In x (fnuis exF) -> ~ In x (labels exH)) /\ (forall x, In x (fnuis exH) -> ~ In x (labels exF)) /\
    exists t u v, margd (fnuis exF) true exF t /\ margd (fnuis exH) true exH u /\
      margd (fnuis (fisher_add exF exH)) true (fisher_add exF exH) v /\
      fval v "Omm" "Omm" = qz 2.
  Proof.
    split; [apply exF_wf|]. split; [apply exH_wf|]. split; [apply exF_pd|]. split; [apply exH_pd|].
    split; [intros x [<-|[]] [C|[C|[]]]; discriminate|]. split; [intros x [<-|[]] [C|[C|[]]]; discriminate|].
    exists (marg_copy (fnuis exF) exF), (marg_copy (fnuis exH) exH),
      (marg_copy (fnuis (fisher_add exF exH)) (fisher_add exF exH)).
    repeat (split; [apply marg_copy_ok; vm_compute; reflexivity|]). vm_compute. reflexivity.
  Qed.
  (** C24: a 10% prior on Omm with fiducial 1/2 adds 400. *)
  Example C24_ex : wf exF /\ NoDup (dkeys [("Omm"%string, qq 1 2)]) /\
    (forall n (x : Qc), In (n, x) [("Omm"%string, qq 1 2)] -> fmul (qq 1 10) x <> fz) /\
    fval (fst (add_prior [("Omm"%string, qq 1 2)] (qq 1 10) exF)) "Omm" "Omm" = qz 402.
  Proof.
    split; [apply exF_wf|]. split; [repeat constructor; intros []|]. split.
    - intros n x [H|[]]. injection H as _ <-. intros C. vm_compute in C. discriminate C.
    - vm_compute. reflexivity.
  Qed.
  (** C19, C20, C22, C23: a positive definite object over the reals, holding
      the inverse it computed. *)
  Definition exR : fisher R := wit.
  Example C19_C20_C22_C23_ex : wf exR /\ posdef exR /\ finverse exR = None /\ In "a"%string (labels exR) /\
    exists i, invert_dataframe (fmat exR) = Ok i /\ reach exR (with_inv exR i) IFresh /\
      finverse (with_inv exR i) = Some i /\ frame_ok i /\ ix i = labels exR /\
      flt 0%R (fsub (fmul (fv i "a" "a") (fv i "b" "b")) (fmul (fv i "a" "b") (fv i "b" "a"))).
  Proof.
    split; [apply wit_wf|]. split; [|split; [reflexivity|split; [left; reflexivity|]]].
    { apply fish2_pd; [discriminate|exact f4_pos|]. unfold exR. rewrite wit_det. apply f3_pos. }
    destruct (wit_invert (F := R)) as (i & Ei & _). exists i. split; [exact Ei|].
    pose proof (proj1 (wit_wf (F := R))) as W. destruct (invert_ok _ _ W Ei) as (Li & Oi & Vi).
    split; [|split; [reflexivity|split; [exact Oi|split; [exact Li|]]]].
    - eapply r_inverse; [apply r_init; reflexivity|]. unfold eval_inverse, exR. rewrite Ei. reflexivity.
    - exact (wit_det_pos i Ei).
  Qed.
End Examples.

Print Assumptions C12_sum.
Print Assumptions C13_commutes.
Print Assumptions C13_associates.
Print Assumptions C13_any_order.
Print Assumptions C14_subtraction.
Print Assumptions C14_subtraction_undoes_addition.
Print Assumptions C14_antisymmetric.
Print Assumptions C15_fix.
Print Assumptions C15_unknown_raises_unchanged.
Print Assumptions C15_two_steps.
Print Assumptions C16_covariance_kept.
Print Assumptions C16_schur_complement.
Print Assumptions C16_unknown_raises_unchanged.
Print Assumptions C16_succeeds.
Print Assumptions C17_composes.
Print Assumptions C17_either_order.
Print Assumptions C17_nothing.
Print Assumptions C18_before_or_after.
Print Assumptions C21_copy_changes_inverse_only.
Print Assumptions C24_prior.
Print Assumptions C24_zero_raises_unchanged.
Print Assumptions C24_known_names_keep_consistency.
Print Assumptions C16_posdef_succeeds.
Print Assumptions C16_posdef_kept.
Print Assumptions C18_sum_posdef.
Print Assumptions C19_marginalised_ge_unmarginalised.
Print Assumptions C19_fixing_never_increases.
Print Assumptions C20_reported_errors_partial.
Print Assumptions C20_fresh_errors.
Print Assumptions C22_correlation.
Print Assumptions C22_unit_diagonal_symmetric.
Print Assumptions C23_figure_of_merit.
Print Assumptions C23_unchanged_by_marginalising.
Print Assumptions C16_failed_marginalisation_half_updates.
Print Assumptions C18_shared_nuisance_differs.
Print Assumptions C20_stale_errors_refuted.
Print Assumptions C21_copy_unchanged_refuted.
Print Assumptions C22_after_marginalising_refuted.
Print Assumptions C24_unknown_rejected_refuted.
