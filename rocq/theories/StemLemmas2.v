(** When the two implementations of SteM agree. *)
From Verif Require Import Base SortLib ParamModel EvalModel EvalSpec EllLemmas OrdLib StemModel StemLemmas.
From Coq Require Import Field Sorted Permutation.
Open Scope list_scope.

Section Agree.
  Context {F : Type} {K : Fld F} {O : OFld (F := F)}.
  Context (degen : list F -> list F -> F * F).
  Add Field FldAgr : (fth (F := F)).
  Open Scope fld_scope.
  Implicit Types x y l : list F.

  Fixpoint narrow {A} (k : nat) (l : list A) : list A := match k with 0%nat => l | Datatypes.S n => narrow n (strip l) end.
  Lemma narrow_S {A} k (l : list A) : narrow (Datatypes.S k) l = narrow k (strip l).
  Proof. reflexivity. Qed.
  Lemma narrow_length {A} k : forall l : list A, length (narrow k l) = (length l - 2 * k)%nat.
  Proof. induction k as [|k IH]; intros l; cbn [narrow]; [lia|]. rewrite IH, strip_length. lia. Qed.

  (** No point of any window is exactly one percent off. *)
  Definition unambiguous x y : Prop :=
    forall k u w, In (u, w) (combine (narrow k x) (narrow k y)) ->
      let si := fit degen (narrow k x) (narrow k y) in
      fabs ((w - (snd si + fst si * u)) / w) <> one_percent.
  Lemma unambiguous_strip x y : unambiguous x y -> unambiguous (strip x) (strip y).
  Proof. intros H k. rewrite <- !narrow_S. apply H. Qed.

  Lemma err_same (s i u w : F) : flt 0 w -> vec_err s i (u, w) = fabs ((w - (i + s * u)) / w).
  Proof.
    intros Hw. unfold vec_err. cbn [fst snd]. pose proof (flt_neq' _ _ Hw) as N.
    destruct (feqb w 0) eqn:E; [apply feqb_iff in E; contradiction|].
    replace ((w - (i + s * u)) / w) with ((w - (i + s * u)) * (1 / w)) by (field; exact N).
    rewrite fabs_mul, (fabs_pos (1 / w)) by (apply flt_le, flt_inv, Hw).
    replace (u * s + i - w) with (- (w - (i + s * u))) by ring. rewrite fabs_opp. field. exact N.
  Qed.
  Lemma vec_bad_linear x y : (forall w, In w y -> flt 0 w) -> unambiguous x y ->
    vec_bad (fst (fit degen x y)) (snd (fit degen x y)) x y = false <-> near_line degen x y.
  Proof.
    intros P U. unfold vec_bad. rewrite <- not_true_iff_false, existsb_exists. unfold near_line. split.
    - intros H u w Hi. pose proof (P w (in_combine_r _ _ _ _ Hi)) as Hw. split; [apply flt_neq'; exact Hw|].
      destruct (flt_trichotomy (fabs ((w - (snd (fit degen x y) + fst (fit degen x y) * u)) / w)) one_percent) as [[A|A]|A]; [exact A| |].
      + destruct (U 0%nat u w Hi A).
      + exfalso. apply H. exists (u, w). split; [exact Hi|]. apply fltb_iff. rewrite err_same by exact Hw. exact A.
    - intros H ([u w] & Hi & E). pose proof (P w (in_combine_r _ _ _ _ Hi)) as Hw. apply fltb_iff in E. rewrite err_same in E by exact Hw.
      destruct (H u w Hi) as [_ G]. exact (flt_asym _ _ E G).
  Qed.
  Lemma vec_bad_strip (s i : F) x y : length x = length y -> vec_bad s i x y = false -> vec_bad s i (strip x) (strip y) = false.
  Proof.
    intros L. unfold vec_bad. rewrite <- !not_true_iff_false, !existsb_exists. intros H (xy & Hi & E). apply H. exists xy. split; [|exact E].
    rewrite strip_combine in Hi by exact L. apply strip_In. exact Hi.
  Qed.

  Section Vec.
    Context {I : Type} (cols : list I) (c : I) (Hc : In c cols).
    Lemma vec_frozen fuel : forall x Y s i m r, length x = length Y -> m c = false -> vec_bad (s c) (i c) x (column Y c) = false ->
      vec_loop degen cols fuel x Y s i m = Ok r -> r c = s c.
    Proof.
      induction fuel as [|n IH]; intros x Y s i m r L Hm Hb H; [discriminate|]. cbn [vec_loop] in H. destruct x as [|u x]; [discriminate|].
      cbn zeta in H. destruct (_ || _) eqn:E in H; [injection H as <-; rewrite Hm; reflexivity|].
      apply IH in H.
      - rewrite H, Hm. reflexivity.
      - rewrite !strip_length. congruence.
      - rewrite Hm. exact Hb.
      - rewrite Hm, column_strip. apply vec_bad_strip; [rewrite column_length; exact L|exact Hb].
    Qed.
    Lemma vec_loop_window fuel : forall x Y s i m r, length x = length Y -> m c = true ->
      (forall w, In w (column Y c) -> flt 0 w) -> unambiguous x (column Y c) ->
      vec_loop degen cols fuel x Y s i m = Ok r -> window degen 5 x (column Y c) (r c).
    Proof.
      induction fuel as [|n IH]; intros x Y s i m r L Hm P U H; [discriminate|]. cbn [vec_loop] in H. destruct x as [|u x']; [discriminate|].
      set (x := u :: x') in *. cbn zeta in H. pose proof (vec_bad_linear x (column Y c) P U) as B.
      destruct (_ || _) eqn:E in H.
      - injection H as <-. rewrite Hm. apply orb_true_iff in E. constructor. destruct E as [E|E].
        + left. rewrite forallb_forall in E. specialize (E c Hc). rewrite Hm in E. apply B. apply negb_true_iff. exact E.
        + right. apply Nat.leb_le in E. rewrite strip_length in E. lia.
      - apply orb_false_iff in E. destruct E as [_ E]. apply Nat.leb_gt in E. rewrite strip_length in E.
        destruct (vec_bad (fst (fit degen x (column Y c))) (snd (fit degen x (column Y c))) x (column Y c)) eqn:Eb.
        + apply win_step; [intros C; apply B in C; congruence|lia|]. rewrite <- column_strip. eapply IH; [| | | |exact H].
          * rewrite !strip_length. congruence.
          * cbn beta. rewrite Hm. exact Eb.
          * intros w. rewrite column_strip. intros Hw. apply P, strip_In, Hw.
          * rewrite column_strip. apply unambiguous_strip. exact U.
        + apply vec_frozen in H; cycle 1.
          * rewrite !strip_length. congruence.
          * rewrite Hm. exact Eb.
          * rewrite Hm, column_strip. apply vec_bad_strip; [rewrite column_length; exact L|exact Eb].
          * rewrite H, Hm. constructor. left. apply B. reflexivity.
    Qed.
    Lemma vec_window x Y r : ndet x <> 0 -> (forall w, In w (column Y c) -> flt 0 w) -> unambiguous x (column Y c) ->
      vec_stem degen cols x Y = Ok r -> window degen 5 x (column Y c) (r c).
    Proof.
      intros D P U H. unfold vec_stem in H. destruct (Nat.eqb_spec (length x) (length Y)) as [L|_]; [|discriminate]. cbn [negb] in H.
      destruct (flat_map (column Y) cols) as [|u l] eqn:Ef; [discriminate|]. rewrite <- Ef in H. destruct (all_equal _) eqn:Ea in H.
      - injection H as <-.
        assert (Ec : all_equal (column Y c) = true).
        { destruct (column Y c) as [|b y] eqn:Ey; [reflexivity|]. cbn [all_equal]. apply forallb_forall. intros w Hw. apply feqb_iff.
          apply (all_equal_In _ b w Ea); apply in_flat_map; exists c; rewrite Ey; split; try exact Hc; [left; reflexivity|right; exact Hw]. }
        rewrite <- (fit_const degen x (column Y c) D) by (rewrite ?column_length; assumption). constructor. left.
        apply vec_bad_linear; [exact P|exact U|].
        destruct (column Y c) as [|b y] eqn:Ey; [unfold vec_bad; destruct x; reflexivity|].
        assert (G : b :: y = line 0 b x).
        { assert (A : forall w, In w (b :: y) -> w = b) by (intros w Hw; apply (all_equal_In _ _ _ Ec Hw (or_introl eq_refl))).
          assert (L' : length x = length (b :: y)) by (rewrite <- Ey, column_length; exact L). revert L' A. generalize (b :: y) as z. clear. unfold line.
          intros z. revert z. induction x as [|v x IH]; intros [|w z] L A; cbn in L; try lia; [reflexivity|].
          cbn [map]. f_equal; [rewrite (A w (or_introl eq_refl)); ring|]. apply IH; [lia|]. intros u Hu. apply A. right; exact Hu. }
        rewrite G, (fit_line degen 0 b x D). apply vec_bad_line.
      - eapply vec_loop_window; [exact L|reflexivity|exact P|exact U|exact H].
    Qed.
  End Vec.

  (** Some window with more than three points is linear, or there are not more
      than three points. *)
  Definition settles x y : Prop :=
    (length x <= 3)%nat \/ exists k, (3 < length (narrow k x))%nat /\ near_line degen (narrow k x) (narrow k y).
  Lemma windows_agree x y s s' : window degen 3 x y s -> window degen 5 x y s' -> settles x y -> s = s'.
  Proof.
    intros W. revert s'. induction W as [x y H|x y s N L W IH]; intros s' V Hs.
    - inversion V as [? ? H'|? ? ? N' L' V']; subst; [reflexivity|]. destruct H as [H|H]; [contradiction|lia].
    - destruct Hs as [Hs|(k & Lk & Hk)]; [lia|]. destruct k as [|k]; [destruct (N Hk)|].
      rewrite narrow_length in Lk. inversion V as [? ? H'|? ? ? N' L' V']; subst; [destruct H'; [contradiction|lia]|].
      apply IH; [exact V'|]. right. exists k. rewrite <- !narrow_S. split; [rewrite narrow_length; lia|exact Hk].
  Qed.
  Lemma stems_agree {I} (cols : list I) (c : I) x Y r s : In c cols -> ndet x <> 0 ->
    (forall w, In w (column Y c) -> flt 0 w) -> unambiguous x (column Y c) -> settles x (column Y c) ->
    vec_stem degen cols x Y = Ok r -> stem_derivative degen x (column Y c) = Ok s -> r c = s.
  Proof.
    intros Hc D P U Hs H1 H2. pose proof (vec_window cols c Hc x Y r D P U H1) as V.
    assert (L : length x = length (column Y c)).
    { rewrite column_length. unfold vec_stem in H1. destruct (Nat.eqb_spec (length x) (length Y)); [assumption|discriminate]. }
    assert (N : column Y c <> []).
    { intros C. rewrite C in H2. discriminate. }
    assert (W0 : exists w, In w (column Y c) /\ w <> 0).
    { destruct (column Y c) as [|w y]; [congruence|]. exists w. split; [left; reflexivity|]. apply flt_neq', P. left; reflexivity. }
    destruct (stem_window degen x (column Y c) L N W0 D) as (s' & Es & W). assert (s' = s) by congruence. subst s'.
    symmetry. exact (windows_agree x (column Y c) s (r c) W V Hs).
  Qed.
End Agree.
