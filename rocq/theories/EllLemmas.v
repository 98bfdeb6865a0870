(** Multipole arrays: intersection and masking. *)
From Verif Require Import Base SortLib StrLib KeyModel KeySpec ParamModel EvalModel EvalSpec.
From Coq Require Import Sorted Permutation.

Section Ells.
  Context {F : Type} {K : Fld F} {O : OFld (F := F)}.

  Lemma fleb_iff (x y : F) : fleb x y = true <-> fle x y.
  Proof. unfold fleb. destruct (fle_dec x y); split; intros H; congruence. Qed.
  Lemma flt_irrefl (x : F) : ~ flt x x.
  Proof. intros [_ N]. apply N. reflexivity. Qed.
  Lemma flt_trans (x y z : F) : flt x y -> flt y z -> flt x z.
  Proof.
    intros [A A'] [B B']. split; [eapply fle_trans; eassumption|].
    intros E. subst z. apply A'. apply fle_antisym; assumption.
  Qed.
  Lemma flt_asym (x y : F) : flt x y -> flt y x -> False.
  Proof. intros A B. exact (flt_irrefl _ (flt_trans _ _ _ A B)). Qed.

  Lemma fmem_iff (x : F) l : fmem x l = true <-> In x l.
  Proof.
    unfold fmem. rewrite existsb_exists. split.
    - intros (y & Hy & E). destruct (fdec x y); [subst; exact Hy|discriminate].
    - intros H. exists x. split; [exact H|]. destruct (fdec x x); congruence.
  Qed.
  Lemma fsort_In (l : list F) x : In x (fsort l) <-> In x l.
  Proof. apply isort_In. Qed.
  Lemma fsort_increasing (l : list F) : NoDup l -> increasing (fsort l).
  Proof.
    intros H.
    assert (S : StronglySorted (SortLib.le fleb) (fsort l)).
    { apply isort_ssorted.
      - intros x y. unfold fleb. destruct (fle_dec x y), (fle_dec y x); auto. destruct (fle_total x y); contradiction.
      - intros x y z A B. apply fleb_iff in A, B. apply fleb_iff. eapply fle_trans; eassumption. }
    assert (N : NoDup (fsort l)) by (apply isort_NoDup; exact H).
    unfold increasing. induction S as [|x m S IH HF]; constructor.
    - apply IH. inversion N; assumption.
    - apply Forall_forall. intros y Hy. rewrite Forall_forall in HF. split.
      + apply fleb_iff. apply HF. exact Hy.
      + intros E. subst y. inversion N; contradiction.
  Qed.
  Lemma increasing_NoDup (l : list F) : increasing l -> NoDup l.
  Proof.
    intros S. induction S as [|x m S IH HF]; constructor; [|exact IH].
    intros C. rewrite Forall_forall in HF. exact (flt_irrefl _ (HF _ C)).
  Qed.
  Lemma increasing_unique (l m : list F) : increasing l -> increasing m -> (forall x, In x l <-> In x m) -> l = m.
  Proof.
    intros Sl. revert m. induction Sl as [|x l Sl IH HF]; intros m Sm E.
    - destruct m as [|y m]; [reflexivity|]. destruct (proj2 (E y)). left; reflexivity.
    - destruct Sm as [|y m Sm HG]; [destruct (proj1 (E x)); left; reflexivity|].
      rewrite Forall_forall in HF, HG.
      assert (x = y).
      { destruct (proj1 (E x) (or_introl eq_refl)) as [e|Hx]; [congruence|].
        destruct (proj2 (E y) (or_introl eq_refl)) as [e|Hy]; [congruence|].
        destruct (flt_asym x y); [apply HF|apply HG]; assumption. }
      subst y. f_equal. apply IH; [exact Sm|]. intros z. split; intros Hz.
      + destruct (proj1 (E z) (or_intror Hz)) as [e|H]; [|exact H].
        subst z. destruct (flt_irrefl x). apply HF. exact Hz.
      + destruct (proj2 (E z) (or_intror Hz)) as [e|H]; [|exact H].
        subst z. destruct (flt_irrefl x). apply HG. exact Hz.
  Qed.

  Lemma intersect1d_In (a b : list F) x : In x (intersect1d a b) <-> In x a /\ In x b.
  Proof. unfold intersect1d. rewrite fsort_In, filter_In, nodup_In, fmem_iff. tauto. Qed.
  Lemma intersect1d_increasing (a b : list F) : increasing (intersect1d a b).
  Proof. apply fsort_increasing. apply NoDup_filter, NoDup_nodup. Qed.
  Lemma fold_intersect_In (l : list (list F)) a x :
    In x (fold_left intersect1d l a) <-> In x a /\ forall b, In b l -> In x b.
  Proof.
    revert a. induction l as [|b l IH]; intros a; cbn [fold_left].
    - split; [intros H; split; [exact H|intros ? []]|tauto].
    - rewrite IH, intersect1d_In. split.
      + intros [[A B] C]. split; [exact A|]. intros c [e|Hc]; [congruence|auto].
      + intros [A B]. split; [split; [exact A|apply B; left; reflexivity]|].
        intros c Hc. apply B. right; exact Hc.
  Qed.
  Lemma fold_intersect_increasing (l : list (list F)) a : increasing a -> increasing (fold_left intersect1d l a).
  Proof. revert a. induction l as [|b l IH]; intros a H; cbn; [exact H|]. apply IH, intersect1d_increasing. Qed.

  Lemma intersection_spec (arrays : list (list F)) : 2 <= length arrays ->
    exists r, arrays_intersection arrays = Ok r /\ increasing r /\
      forall x, In x r <-> forall a, In a arrays -> In x a.
  Proof.
    destruct arrays as [|a [|b rest]]; cbn [length]; try lia. intros _.
    eexists. split; [reflexivity|]. split.
    - apply fold_intersect_increasing, intersect1d_increasing.
    - intros x. rewrite fold_intersect_In, intersect1d_In. split.
      + intros [[A B] C] c [e|Hc]; [congruence|auto].
      + intros H. split; [split; apply H; cbn; auto|]. intros c Hc. apply H. right. exact Hc.
  Qed.
  Lemma intersection_perm (arrays arrays' : list (list F)) :
    Permutation arrays arrays' -> arrays_intersection arrays = arrays_intersection arrays'.
  Proof.
    intros P. pose proof (Permutation_length P) as E.
    destruct (Nat.le_gt_cases 2 (length arrays)) as [H|H].
    - destruct (intersection_spec arrays H) as (r & Hr & Sr & Ir).
      destruct (intersection_spec arrays') as (s & Hs & Ss & Is); [lia|].
      rewrite Hr, Hs. f_equal. apply increasing_unique; [exact Sr|exact Ss|].
      intros x. rewrite Ir, Is. split; intros G a Ha; apply G.
      + apply Permutation_in with arrays'; [symmetry; exact P|exact Ha].
      + apply Permutation_in with arrays; [exact P|exact Ha].
    - destruct arrays as [|a [|b t]]; cbn [length] in H, E; try lia.
      + apply Permutation_nil in P. subst. reflexivity.
      + apply Permutation_length_1_inv in P. subst. reflexivity.
  Qed.
  (** With increasing arrays the number of arrays does not matter. *)
  Lemma intersection_inc (arrays : list (list F)) : arrays <> [] -> (forall a, In a arrays -> increasing a) ->
    exists r, arrays_intersection arrays = Ok r /\ increasing r /\
      forall x, In x r <-> forall a, In a arrays -> In x a.
  Proof.
    intros H I. destruct arrays as [|a [|b t]]; [congruence| |apply intersection_spec; cbn; lia].
    exists a. split; [reflexivity|]. split; [apply I; left; reflexivity|].
    intros x. split; [intros Hx c [e|[]]; congruence|intros G; apply G; left; reflexivity].
  Qed.

  (** ** Masking *)
  Lemma filter_inc (p : F -> bool) l : increasing l -> increasing (filter p l).
  Proof.
    intros S. induction S as [|x m S IH HF]; cbn; [constructor|].
    destruct (p x); [|exact IH]. constructor; [exact IH|].
    rewrite Forall_forall in *. intros y Hy. apply filter_In in Hy. apply HF. tauto.
  Qed.
  Lemma select_fst {A} (ells l : list F) (rows : list A) : length l = length rows ->
    map fst (filter (fun xr => fmem (fst xr) ells) (combine l rows)) = filter (fun x => fmem x ells) l.
  Proof.
    revert rows. induction l as [|x l IH]; intros [|r rows] E; cbn in *; try lia; [reflexivity|].
    destruct (fmem x ells); cbn; rewrite IH by lia; reflexivity.
  Qed.
  Lemma mask_is_ells (ells l : list F) : increasing ells -> increasing l -> incl ells l ->
    filter (fun x => fmem x ells) l = ells.
  Proof.
    intros Se Sl I. apply increasing_unique; [apply filter_inc; exact Sl|exact Se|].
    intros x. rewrite filter_In, fmem_iff. split; [tauto|]. intros H. split; [apply I; exact H|exact H].
  Qed.
  Lemma combine_nth_err {A B} (l : list A) (m : list B) n a b :
    nth_error (combine l m) n = Some (a, b) <-> nth_error l n = Some a /\ nth_error m n = Some b.
  Proof.
    revert m n. induction l as [|x l IH]; intros [|y m] [|n]; cbn; try (split; [discriminate|intros [? ?]; discriminate]).
    - split; [intros E; injection E as -> ->; auto|intros [E1 E2]; congruence].
    - apply IH.
  Qed.
  Lemma select_aligned {A} (ells l : list F) (rows : list A) :
    increasing ells -> increasing l -> incl ells l -> length l = length rows ->
    length (select ells l rows) = length ells /\
    forall r s x, nth_error ells r = Some x -> nth_error l s = Some x ->
      nth_error (select ells l rows) r = nth_error rows s.
  Proof.
    intros Se Sl I E. unfold select.
    set (f := filter (fun xr => fmem (fst xr) ells) (combine l rows)).
    assert (Ef : map fst f = ells) by (unfold f; rewrite select_fst by exact E; apply mask_is_ells; assumption).
    split; [rewrite map_length, <- (map_length fst), Ef; reflexivity|].
    intros r s x Hr Hs. rewrite <- Ef in Hr. rewrite nth_error_map in Hr |- *.
    destruct (nth_error f r) as [[y m]|] eqn:Er; [|discriminate]. cbn in Hr. injection Hr as ->.
    cbn. apply nth_error_In in Er. unfold f in Er. apply filter_In in Er. destruct Er as [Hin _].
    apply In_nth_error in Hin. destruct Hin as (s' & Hs'). apply combine_nth_err in Hs'. destruct Hs' as [A1 A2].
    assert (s' = s).
    { pose proof (increasing_NoDup _ Sl) as N. rewrite NoDup_nth_error in N. apply N.
      - apply nth_error_Some. rewrite A1. discriminate.
      - rewrite A1, Hs. reflexivity. }
    subst s'. symmetry. exact A2.
  Qed.

  Lemma rmapM_Forall2 {A B} (f : A -> res B) l m :
    rmapM f l = Ok m <-> Forall2 (fun x y => f x = Ok y) l m.
  Proof.
    revert m. induction l as [|x l IH]; intros m; cbn [rmapM].
    - split; [intros E; injection E as <-; constructor|intros H; inversion H; reflexivity].
    - destruct (f x) as [y|e] eqn:Ef; cbn [rbind].
      + destruct (rmapM f l) as [ys|e] eqn:El; cbn [rbind].
        * split; [intros E; injection E as <-; constructor; [exact Ef|apply IH; reflexivity]|].
          intros H; inversion H as [|? y' ? ys' E1 E2]; subst. apply IH in E2. congruence.
        * split; [discriminate|]. intros H; inversion H as [|? y' ? ys' E1 E2]; subst. apply IH in E2. congruence.
      + split; [discriminate|]. intros H; inversion H; congruence.
  Qed.

  Lemma cmask_aligned (ells l : list F) c c' : increasing ells -> increasing l -> incl ells l ->
    cmask ells l c = Ok c' -> aligned ells l c c'.
  Proof.
    intros Se Sl I. unfold cmask. destruct (Nat.eqb_spec (length l) (length (crows c))) as [E|E]; [|discriminate].
    intros H. injection H as <-. unfold aligned. cbn [cnr cnc crows].
    destruct (select_aligned ells l (crows c) Se Sl I E) as [A B]. auto.
  Qed.

  Lemma mask_common_aligned {Key} vals lget (items : list (Key * cube F)) ells masked :
    mask_common vals lget items = Ok (ells, masked) ->
    (forall a, In a vals -> increasing a) ->
    (forall k c l, In (k, c) items -> lget k = Ok l -> In l vals) ->
    increasing ells /\ (forall x, In x ells <-> forall a, In a vals -> In x a) /\
    Forall2 (fun kc kc' => fst kc' = fst kc /\ exists l, lget (fst kc) = Ok l /\ aligned ells l (snd kc) (snd kc')) items masked.
  Proof.
    unfold mask_common. intros H Iv Il.
    assert (Nv : vals <> []) by (intros E; subst vals; discriminate H).
    destruct (intersection_inc vals Nv Iv) as (r & Er & Sr & Mr). rewrite Er in H. cbn [rbind] in H.
    destruct (rmapM _ items) as [m|e] eqn:Em; [|discriminate]. cbn [rbind] in H. injection H as <- <-.
    split; [exact Sr|]. split; [exact Mr|].
    apply rmapM_Forall2 in Em.
    assert (G : forall k c l, In (k, c) items -> lget k = Ok l -> In l vals) by exact Il. clear Il.
    induction Em as [|[k c] [k' c'] its ms Ex Em IH]; constructor.
    - cbn [fst snd] in *. destruct (lget k) as [l|] eqn:El; [|discriminate]. cbn [rbind] in Ex.
      destruct (cmask r l c) as [c2|] eqn:Ec; [|discriminate]. cbn [rbind] in Ex. injection Ex as <- <-.
      split; [reflexivity|]. exists l. split; [reflexivity|].
      assert (Inv : In l vals) by (eapply G; [left; reflexivity|exact El]).
      apply cmask_aligned; [exact Sr|apply Iv; exact Inv| |exact Ec].
      intros x Hx. apply Mr; assumption.
    - apply IH. intros k0 c0 l0 H0. apply (G k0 c0 l0). right. exact H0.
  Qed.
End Ells.
