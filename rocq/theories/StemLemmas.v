(** The SteM derivative: least squares, windows, linear data. *)
From Verif Require Import Base SortLib ParamModel EvalModel EvalSpec EllLemmas OrdLib StemModel.
From Coq Require Import Field Sorted Permutation.
Open Scope list_scope.

Section Strip.
  Context {A B : Type}.
  Implicit Types l : list A.
  Lemma removelast_length l : length (removelast l) = (length l - 1)%nat.
  Proof. induction l as [|x [|y l] IH]; cbn [removelast length] in *; [reflexivity|reflexivity|]. rewrite IH. lia. Qed.
  Lemma strip_length l : length (strip l) = (length l - 2)%nat.
  Proof. unfold strip. rewrite removelast_length. destruct l; cbn; lia. Qed.
  Lemma removelast_map (f : A -> B) l : removelast (map f l) = map f (removelast l).
  Proof. induction l as [|x [|y l] IH]; cbn [removelast map] in *; [reflexivity|reflexivity|]. rewrite IH. reflexivity. Qed.
  Lemma strip_map (f : A -> B) l : strip (map f l) = map f (strip l).
  Proof. unfold strip. destruct l as [|x l]; cbn [tl map]; [reflexivity|apply removelast_map]. Qed.
  Lemma removelast_In l x : In x (removelast l) -> In x l.
  Proof.
    induction l as [|y [|z l] IH]; cbn [removelast]; [tauto|intros []|]. intros [H|H]; [left; exact H|right; apply IH; exact H].
  Qed.
  Lemma strip_In l x : In x (strip l) -> In x l.
  Proof. unfold strip. intros H. apply removelast_In in H. destruct l; [destruct H|right; exact H]. Qed.
  Lemma removelast_NoDup l : NoDup l -> NoDup (removelast l).
  Proof.
    induction l as [|y [|z l] IH]; cbn [removelast]; intros N; [exact N|constructor|].
    inversion N as [|? ? Hn N']; subst. constructor; [|apply IH; exact N']. intros C. apply Hn. apply removelast_In. exact C.
  Qed.
  Lemma strip_NoDup l : NoDup l -> NoDup (strip l).
  Proof. intros N. unfold strip. apply removelast_NoDup. destruct l; [exact N|]. inversion N; assumption. Qed.
End Strip.
Lemma removelast_combine {A B} (x : list A) (y : list B) : length x = length y ->
  combine (removelast x) (removelast y) = removelast (combine x y).
Proof.
  revert y. induction x as [|a [|a2 x] IH]; intros [|b [|b2 y]] L; cbn [length] in L; try lia; try reflexivity.
  cbn [removelast combine] in *. f_equal. apply (IH (b2 :: y)). cbn [length]. lia.
Qed.
Lemma strip_combine {A B} (x : list A) (y : list B) : length x = length y -> combine (strip x) (strip y) = strip (combine x y).
Proof.
  unfold strip. destruct x as [|a x], y as [|b y]; cbn [length tl combine]; intros L; try lia; [reflexivity|].
  apply removelast_combine. lia.
Qed.

Section Fit.
  Context {F : Type} {K : Fld F} {O : OFld (F := F)}.
  Context (degen : list F -> list F -> F * F).
  Add Field FldFit : (fth (F := F)).
  Open Scope fld_scope.
  Implicit Types x y l : list F.

  (** The determinant of the normal equations. *)
  Definition ndet x : F := fnat (length x) * Fsum (fun a => a * a) x - Fsum (fun a => a) x * Fsum (fun a => a) x.
  Lemma ndet_cons a l : ndet (a :: l) = ndet l + Fsum (fun b => (b - a) * (b - a)) l.
  Proof.
    assert (E : Fsum (fun b => (b - a) * (b - a)) l =
                Fsum (fun b => b * b) l - (1 + 1) * a * Fsum (fun b => b) l + fnat (length l) * (a * a)).
    { induction l as [|b l IH]; cbn [Fsum length fnat]; [ring|]. rewrite IH. ring. }
    rewrite E. unfold ndet. cbn [length fnat Fsum]. ring.
  Qed.
  Lemma ndet_nonneg l : fle 0 (ndet l).
  Proof.
    induction l as [|a l IH]; [unfold ndet; cbn; replace (0 * 0 - 0 * 0) with (0 : F) by ring; apply fle_refl|].
    rewrite ndet_cons. replace (0 : F) with (0 + 0 : F) by ring. apply fle_add2; [exact IH|]. apply Fsum_nonneg. intros b _. apply fle_sq.
  Qed.
  Lemma sq_zero (a : F) : a * a = 0 -> a = 0.
  Proof. intros H. destruct (f_zero_prod _ _ H); assumption. Qed.
  Lemma add_zero (a b : F) : fle 0 a -> fle 0 b -> a + b = 0 -> a = 0 /\ b = 0.
  Proof.
    intros Ha Hb E. assert (a = 0).
    { apply fle_antisym; [|exact Ha]. apply (proj2 (fle_sub_iff _ _)). replace (0 - a) with b; [exact Hb|]. transitivity (a + b - a); [ring|]. rewrite E. reflexivity. }
    split; [assumption|]. subst a. transitivity (0 + b); [ring|exact E].
  Qed.
  Lemma Fsum_zero_inv {A} (f : A -> F) (l : list A) : (forall a, In a l -> fle 0 (f a)) -> Fsum f l = 0 -> forall a, In a l -> f a = 0.
  Proof.
    induction l as [|b l IH]; intros H E a Ha; [destruct Ha|]. cbn [Fsum] in E.
    destruct (add_zero _ _ (H b (or_introl eq_refl)) (Fsum_nonneg f l (fun c Hc => H c (or_intror Hc))) E) as [E1 E2].
    destruct Ha as [<-|Ha]; [exact E1|]. apply IH; [intros c Hc; apply H; right; exact Hc|exact E2|exact Ha].
  Qed.
  Lemma ndet_neq l : NoDup l -> (2 <= length l)%nat -> ndet l <> 0.
  Proof.
    intros N L E. destruct l as [|a [|b l]]; cbn [length] in L; try lia. rewrite ndet_cons in E.
    destruct (add_zero _ _ (ndet_nonneg _) (Fsum_nonneg (fun c => (c - a) * (c - a)) (b :: l) (fun c _ => fle_sq (c - a))) E) as [_ E2].
    pose proof (Fsum_zero_inv _ _ (fun c _ => fle_sq (c - a)) E2 b (or_introl eq_refl)) as G. cbn beta in G. apply sq_zero in G.
    inversion N as [|? ? Hn _]; subst. apply Hn. left. transitivity (b - a + a); [ring|]. rewrite G. ring.
  Qed.
  Lemma fit_eq x y : ndet x <> 0 ->
    fit degen x y =
      ((fnat (length x) * Fsum (fun ab => fst ab * snd ab) (combine x y) - Fsum (fun a => a) x * Fsum (fun a => a) y) / ndet x,
       (Fsum (fun a => a * a) x * Fsum (fun a => a) y - Fsum (fun a => a) x * Fsum (fun ab => fst ab * snd ab) (combine x y)) / ndet x).
  Proof.
    intros H. unfold fit. fold (ndet x). destruct (feqb (ndet x) 0) eqn:E; [apply feqb_iff in E; contradiction|]. reflexivity.
  Qed.
  (** Points on a line give the line. *)
  Definition line (a b : F) x : list F := map (fun v => a * v + b) x.
  Lemma fit_line a b x : ndet x <> 0 -> fit degen x (line a b x) = (a, b).
  Proof.
    intros H. rewrite (fit_eq _ _ H).
    assert (E1 : Fsum (fun v => v) (line a b x) = a * Fsum (fun v => v) x + fnat (length x) * b).
    { unfold line. rewrite Fsum_map, Fsum_plus, Fsum_scale, Fsum_const. ring. }
    assert (E2 : Fsum (fun ab => fst ab * snd ab) (combine x (line a b x)) = a * Fsum (fun v => v * v) x + b * Fsum (fun v => v) x).
    { unfold line. clear H E1. induction x as [|v x IH]; cbn [combine map Fsum fst snd]; [ring|]. rewrite IH. ring. }
    rewrite E1, E2. f_equal; unfold ndet in *; field; exact H.
  Qed.

  Lemma line_strip a b x : strip (line a b x) = line a b (strip x).
  Proof. apply strip_map. Qed.
  Lemma line_length a b x : length (line a b x) = length x.
  Proof. apply map_length. Qed.
  Lemma all_equal_In l u v : all_equal l = true -> In u l -> In v l -> u = v.
  Proof.
    destruct l as [|a l]; [intros _ []|]. cbn [all_equal]. intros H.
    assert (G : forall w, In w (a :: l) -> w = a).
    { intros w [e|Hw]; [congruence|]. rewrite forallb_forall in H. specialize (H w Hw). apply feqb_iff in H. congruence. }
    intros Hu Hv. rewrite (G u Hu), (G v Hv). reflexivity.
  Qed.
  Lemma line_flat a b x : NoDup x -> (2 <= length x)%nat -> (forall u v, In u (line a b x) -> In v (line a b x) -> u = v) -> a = 0.
  Proof.
    intros N L H. destruct x as [|u [|v x]]; cbn [length] in L; try lia.
    assert (E : a * u + b = a * v + b) by (apply H; cbn; auto).
    assert (Z : a * (u - v) = 0) by (transitivity (a * u + b - (a * v + b)); [ring|rewrite E; ring]).
    destruct (f_zero_prod _ _ Z) as [e|e]; [exact e|]. exfalso. inversion N as [|? ? Hn _]; subst. apply Hn. left.
    transitivity (u - (u - v)); [ring|]. rewrite e. ring.
  Qed.
  Lemma polyfit_ok x y : length x = length y -> x <> [] -> polyfit degen x y = Ok (fit degen x y).
  Proof. intros L N. unfold polyfit. destruct x; [congruence|]. rewrite (proj2 (Nat.eqb_eq _ _) L). reflexivity. Qed.
  Lemma stem_loop_line a b fuel : forall x, (length x < fuel)%nat -> NoDup x -> (2 <= length x)%nat ->
    stem_loop degen fuel x (line a b x) = Ok a.
  Proof.
    induction fuel as [|n IH]; intros x Hf N L; [lia|]. cbn [stem_loop].
    rewrite polyfit_ok; [|symmetry; apply line_length|intros C; subst; cbn in L; lia]. cbn [rbind].
    rewrite (fit_line a b x (ndet_neq x N L)). cbn [fst snd]. rewrite line_length.
    destruct (_ || _) eqn:E; [reflexivity|]. apply orb_false_iff in E. destruct E as [_ E]. apply Nat.leb_gt in E.
    rewrite line_strip. apply IH; rewrite ?strip_length; [lia|apply strip_NoDup; exact N|lia].
  Qed.
  Lemma stem_line a b x : NoDup x -> (2 <= length x)%nat -> stem_derivative degen x (line a b x) = Ok a.
  Proof.
    intros N L. unfold stem_derivative. destruct (line a b x) as [|u l] eqn:E.
    - assert (G : length (line a b x) = 0%nat) by (rewrite E; reflexivity). rewrite line_length in G. lia.
    - rewrite <- E. destruct (all_equal (line a b x)) eqn:Ea.
      + f_equal. symmetry. apply (line_flat a b x N L). intros w z. apply all_equal_In. exact Ea.
      + apply stem_loop_line; [rewrite line_length; lia|exact N|exact L].
  Qed.

  (** ** Termination *)
  Lemma stem_loop_total fuel : forall x y, length x = length y -> x <> [] -> (length x < fuel)%nat ->
    exists s, stem_loop degen fuel x y = Ok s.
  Proof.
    induction fuel as [|n IH]; intros x y L N Hf; [lia|]. cbn [stem_loop]. rewrite polyfit_ok by assumption. cbn [rbind].
    destruct (_ || _) eqn:E; [eexists; reflexivity|]. apply orb_false_iff in E. destruct E as [_ E]. apply Nat.leb_gt in E.
    apply IH; rewrite ?strip_length; [lia| |lia]. intros C. apply (f_equal (@length F)) in C. rewrite strip_length in C. cbn in C. lia.
  Qed.
  Lemma stem_total x y : length x = length y -> y <> [] -> exists s, stem_derivative degen x y = Ok s.
  Proof.
    intros L N. unfold stem_derivative. destruct y as [|u l]; [congruence|]. destruct (all_equal _); [eexists; reflexivity|].
    apply stem_loop_total; [exact L| |lia]. intros C; subst; discriminate.
  Qed.
  (** Also on wrong shapes the loop ends (with an exception). *)
  Lemma stem_loop_ends fuel : forall x y, (length y < fuel)%nat -> stem_loop degen fuel x y <> Err EOutOfFuel.
  Proof.
    induction fuel as [|n IH]; intros x y Hf; [lia|]. cbn [stem_loop]. unfold polyfit. destruct x as [|u x]; [discriminate|].
    destruct (Nat.eqb _ _); [|discriminate]. cbn [rbind]. destruct (_ || _) eqn:E; [discriminate|].
    apply orb_false_iff in E. destruct E as [_ E]. apply Nat.leb_gt in E. apply IH. rewrite strip_length. lia.
  Qed.
  Lemma stem_ends x y : stem_derivative degen x y <> Err EOutOfFuel.
  Proof.
    unfold stem_derivative. destruct y as [|u l]; [discriminate|]. destruct (all_equal _); [discriminate|].
    apply stem_loop_ends. lia.
  Qed.

  (** ** The vectorised version *)
  Section Vec.
    Context {I : Type} (cols : list I).
    Implicit Types Y : list (I -> F).
    Lemma column_strip Y (c : I) : column (strip Y) c = strip (column Y c).
    Proof. unfold column. symmetry. apply strip_map. Qed.
    Lemma column_length Y (c : I) : length (column Y c) = length Y.
    Proof. apply map_length. Qed.
    Lemma one_percent_pos : flt 0 (one_percent (F := F)).
    Proof. unfold one_percent. apply flt_inv, fnat_pos. lia. Qed.
    Lemma vec_loop_total fuel : forall x Y s i m, length x = length Y -> x <> [] -> (length x < fuel)%nat ->
      exists r, vec_loop degen cols fuel x Y s i m = Ok r.
    Proof.
      induction fuel as [|n IH]; intros x Y s i m L N Hf; [lia|]. cbn [vec_loop]. destruct x as [|u x]; [congruence|].
      cbn zeta. destruct (_ || _) eqn:E; [eexists; reflexivity|]. apply orb_false_iff in E. destruct E as [_ E].
      apply Nat.leb_gt in E. rewrite strip_length in E. apply IH.
      - rewrite !strip_length. congruence.
      - intros C. apply (f_equal (@length F)) in C. rewrite strip_length in C. cbn [length] in C, L. lia.
      - rewrite strip_length. cbn [length] in *. lia.
    Qed.
    Lemma vec_total x Y : length x = length Y -> x <> [] -> cols <> [] -> exists r, vec_stem degen cols x Y = Ok r.
    Proof.
      intros L N C. unfold vec_stem. rewrite (proj2 (Nat.eqb_eq _ _) L). cbn [negb].
      destruct (flat_map (column Y) cols) as [|u l] eqn:E.
      - exfalso. destruct cols as [|c cs]; [congruence|]. cbn [flat_map] in E. apply app_eq_nil in E. destruct E as [E _].
        apply (f_equal (@length F)) in E. rewrite column_length in E. destruct x; [congruence|]. cbn in L, E. lia.
      - destruct (all_equal _); [eexists; reflexivity|]. apply vec_loop_total; [exact L|exact N|lia].
    Qed.
    Lemma vec_loop_ends fuel : forall x Y s i m, (length x < fuel)%nat -> vec_loop degen cols fuel x Y s i m <> Err EOutOfFuel.
    Proof.
      induction fuel as [|n IH]; intros x Y s i m Hf; [lia|]. cbn [vec_loop]. destruct x as [|u x]; [discriminate|].
      cbn zeta. destruct (_ || _); [discriminate|]. apply IH. rewrite strip_length. cbn [length] in *. lia.
    Qed.
    Lemma vec_ends x Y : vec_stem degen cols x Y <> Err EOutOfFuel.
    Proof.
      unfold vec_stem. destruct (negb _); [discriminate|]. destruct (flat_map _ _); [discriminate|].
      destruct (all_equal _); [discriminate|]. apply vec_loop_ends. lia.
    Qed.

    Lemma vec_bad_line a b x : vec_bad a b x (line a b x) = false.
    Proof.
      unfold vec_bad. destruct (existsb _ _) eqn:E; [|reflexivity]. exfalso. apply existsb_exists in E. destruct E as ([u w] & Hi & E).
      assert (G : w = a * u + b).
      { clear E. unfold line in Hi. revert Hi. induction x as [|v x IH]; cbn [combine map]; [intros []|]. intros [e|Hi]; [injection e as <- <-; reflexivity|apply IH; exact Hi]. }
      apply fltb_iff in E. unfold vec_err in E. cbn [fst snd] in E. destruct (feqb w 0) eqn:Ez.
      - exact (flt_asym _ _ E one_percent_pos).
      - replace (u * a + b - w) with (0 : F) in E by (rewrite G; ring). rewrite fabs_zero in E.
        assert (Nz : w <> 0) by (intros C; apply feqb_iff in C; congruence).
        replace (0 / w) with (0 : F) in E by (field; exact Nz). exact (flt_asym _ _ E one_percent_pos).
    Qed.
    Lemma vec_loop_line (c : I) a b fuel : In c cols -> forall x Y s i m r, NoDup x -> (2 <= length x)%nat -> column Y c = line a b x ->
      length x = length Y ->
      (m c = true \/ (m c = false /\ s c = a /\ i c = b)) -> vec_loop degen cols fuel x Y s i m = Ok r -> r c = a.
    Proof.
      intros Hc. induction fuel as [|n IH]; intros x Y s i m r N L Ec Ll Hm H; [discriminate|]. cbn [vec_loop] in H.
      destruct x as [|u x']; [cbn in L; lia|]. set (x := u :: x') in *. cbn zeta in H.
      assert (Es : (if m c then fst (fit degen x (column Y c)) else s c) = a).
      { destruct Hm as [Hm|(Hm & Hs & _)]; rewrite Hm; [rewrite Ec, (fit_line a b x (ndet_neq x N L)); reflexivity|exact Hs]. }
      assert (Ei : (if m c then snd (fit degen x (column Y c)) else i c) = b).
      { destruct Hm as [Hm|(Hm & _ & Hi)]; rewrite Hm; [rewrite Ec, (fit_line a b x (ndet_neq x N L)); reflexivity|exact Hi]. }
      destruct (_ || _) eqn:E in H; [injection H as <-; exact Es|].
      apply orb_false_iff in E. destruct E as [_ E]. apply Nat.leb_gt in E. rewrite strip_length in E.
      apply (IH _ _ _ _ _ _) in H; [exact H|apply strip_NoDup; exact N| | | |].
      - rewrite strip_length. lia.
      - rewrite column_strip, Ec. apply line_strip.
      - rewrite !strip_length. congruence.
      - right. rewrite Es, Ei. split; [|auto]. rewrite Ec. apply vec_bad_line.
    Qed.
    Lemma vec_line (c : I) a b x Y r : In c cols -> NoDup x -> (2 <= length x)%nat -> column Y c = line a b x ->
      vec_stem degen cols x Y = Ok r -> r c = a.
    Proof.
      intros Hc N L Ec H. unfold vec_stem in H. destruct (Nat.eqb_spec (length x) (length Y)) as [Ll|_]; [|discriminate]. cbn [negb] in H.
      destruct (flat_map (column Y) cols) as [|u l] eqn:Ef; [discriminate|]. rewrite <- Ef in H. destruct (all_equal _) eqn:Ea in H.
      - injection H as <-. symmetry. apply (line_flat a b x N L). intros w z Hw Hz. apply (all_equal_In _ w z Ea).
        + apply in_flat_map. exists c. split; [exact Hc|]. rewrite Ec. exact Hw.
        + apply in_flat_map. exists c. split; [exact Hc|]. rewrite Ec. exact Hz.
      - apply (vec_loop_line c a b _ Hc _ _ _ _ _ _ N L Ec Ll (or_introl eq_refl) H).
    Qed.
  End Vec.

  (** ** Windows *)
  (** Within one percent of the line through the window. *)
  Definition near_line x y : Prop :=
    let si := fit degen x y in
    forall u w, In (u, w) (combine x y) -> w <> 0 /\ flt (fabs ((w - (snd si + fst si * u)) / w)) one_percent.
  (** [window lim x y s]: s is the slope of the largest symmetric window that is
      linear or has at most [lim] points. *)
  Inductive window (lim : nat) : list F -> list F -> F -> Prop :=
  | win_stop x y : near_line x y \/ (length x <= lim)%nat -> window lim x y (fst (fit degen x y))
  | win_step x y s : ~ near_line x y -> (lim < length x)%nat -> window lim (strip x) (strip y) s -> window lim x y s.
  Lemma near_line_iff x y : forallb (close (fst (fit degen x y)) (snd (fit degen x y))) (combine x y) = true <-> near_line x y.
  Proof.
    rewrite forallb_forall. unfold near_line, close. split.
    - intros H u w Hi. specialize (H _ Hi). cbn [fst snd] in H. destruct (feqb w 0) eqn:E; [discriminate|].
      split; [intros C; apply feqb_iff in C; congruence|]. apply fltb_iff. exact H.
    - intros H [u w] Hi. destruct (H u w Hi) as [N G]. cbn [fst snd]. destruct (feqb w 0) eqn:E; [apply feqb_iff in E; contradiction|].
      apply fltb_iff. exact G.
  Qed.
  Lemma stem_loop_window fuel : forall x y, length x = length y -> x <> [] -> (length x < fuel)%nat ->
    exists s, stem_loop degen fuel x y = Ok s /\ window 3 x y s.
  Proof.
    induction fuel as [|n IH]; intros x y L N Hf; [lia|]. cbn [stem_loop]. rewrite polyfit_ok by assumption. cbn [rbind].
    destruct (forallb _ _) eqn:E; cbn [orb].
    - eexists. split; [reflexivity|]. constructor. left. apply near_line_iff. exact E.
    - destruct (Nat.leb_spec (length y) 3) as [H|H].
      + eexists. split; [reflexivity|]. constructor. right. lia.
      + destruct (IH (strip x) (strip y)) as (s & Hs & W).
        * rewrite !strip_length. congruence.
        * intros C. apply (f_equal (@length F)) in C. rewrite strip_length in C. cbn in C. lia.
        * rewrite strip_length. lia.
        * exists s. split; [exact Hs|]. apply win_step; [|lia|exact W]. intros C. apply near_line_iff in C. congruence.
  Qed.
  Lemma fit_const x y : ndet x <> 0 -> length x = length y -> all_equal y = true -> fst (fit degen x y) = 0.
  Proof.
    intros H L E. destruct y as [|b y].
    - destruct x; [|cbn in L; lia]. exfalso. apply H. unfold ndet. cbn. ring.
    - assert (G : b :: y = line 0 b x).
      { unfold line. assert (A : forall w, In w (b :: y) -> w = b) by (intros w Hw; apply (all_equal_In _ _ _ E Hw (or_introl eq_refl))).
        revert L A. generalize (b :: y) as z. clear. intros z. revert z. induction x as [|v x IH]; intros [|w z] L A; cbn in L; try lia; [reflexivity|].
        cbn [map]. f_equal; [rewrite (A w (or_introl eq_refl)); ring|]. apply IH; [lia|]. intros u Hu. apply A. right; exact Hu. }
      rewrite G, (fit_line 0 b x H). reflexivity.
  Qed.
  Lemma stem_window x y : length x = length y -> y <> [] -> (exists w, In w y /\ w <> 0) -> ndet x <> 0 ->
    exists s, stem_derivative degen x y = Ok s /\ window 3 x y s.
  Proof.
    intros L N (w0 & Hw0 & Nw0) D. unfold stem_derivative. destruct y as [|b y]; [congruence|]. destruct (all_equal (b :: y)) eqn:E.
    - exists 0. split; [reflexivity|]. rewrite <- (fit_const x (b :: y) D L E). constructor. left.
      assert (A : forall w, In w (b :: y) -> w = w0) by (intros w Hw; apply (all_equal_In _ _ _ E Hw Hw0)).
      assert (G : b :: y = line 0 w0 x).
      { unfold line. revert L A. generalize (b :: y) as z. clear. intros z. revert z. induction x as [|v x IH]; intros [|w z] L A; cbn in L; try lia; [reflexivity|].
        cbn [map]. f_equal; [rewrite (A w (or_introl eq_refl)); ring|]. apply IH; [lia|]. intros u Hu. apply A. right; exact Hu. }
      unfold near_line. rewrite G. cbn zeta. intros u w Hi. rewrite (fit_line 0 w0 x D). cbn [fst snd].
      assert (Ew : w = w0) by (apply A; rewrite G; apply in_combine_r in Hi; exact Hi). subst w. split; [exact Nw0|].
      replace ((w0 - (w0 + 0 * u)) / w0) with (0 : F) by (field; exact Nw0). rewrite fabs_zero. apply one_percent_pos.
    - apply stem_loop_window; [exact L| |rewrite L; cbn [length]; lia]. intros C; subst; discriminate.
  Qed.
End Fit.
