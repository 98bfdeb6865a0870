(** Properties C59, C68 and C80: assembly of the angular spectra, the analytic bias
    derivative and the void cut. *)
From Coq Require Import Field.
From Verif Require Import Base SortLib StrLib NameModel KeyModel ParamModel EvalModel EvalSpec EllLemmas OrdLib NumModel NumLemmas NumLemmas2 NumProps BiasModel ConfigLemmas ClModel.
Open Scope list_scope.

Lemma pairs2_seq a n i j : In (i, j) (pairs2 (seq a n)) <-> (a <= i)%nat /\ (i <= j)%nat /\ (j < a + n)%nat.
Proof.
  revert a. induction n as [|n IH]; intros a; cbn [seq pairs2]; [cbn; lia|]. cbn [In]. rewrite in_app_iff, in_map_iff, IH. split.
  - intros [E|[(x & E & Hx)|H]].
    + injection E as <- <-. lia.
    + injection E as <- <-. apply in_seq in Hx. lia.
    + lia.
  - intros (A & B & C). destruct (Nat.eq_dec i a) as [->|Ni].
    + destruct (Nat.eq_dec j a) as [->|Nj]; [left; reflexivity|]. right. left. exists j. split; [reflexivity|]. apply in_seq. lia.
    + right. right. lia.
Qed.

Section Assembly.
Context {F : Type} {K : Fld F} {O : OFld (F := F)}.
Add Field Ffield_cl : (fth (F := F)).
Open Scope fld_scope.
Implicit Types (w : nat -> nat -> F).

Lemma set_cell_same (c : arr3 (F := F)) i j v l : set_cell c i j v l i j = v l.
Proof. unfold set_cell. rewrite !Nat.eqb_refl. reflexivity. Qed.
Lemma set_cell_other (c : arr3 (F := F)) i j v l a b : (a, b) <> (i, j) -> set_cell c i j v l a b = c l a b.
Proof.
  intros N. unfold set_cell. destruct (Nat.eqb_spec a i) as [->|]; [|reflexivity]. destruct (Nat.eqb_spec b j) as [->|]; [contradiction|reflexivity].
Qed.

Definition kept (off : bool) (ij : nat * nat) : bool := Nat.eqb (fst ij) (snd ij) || off.
Section Loop.
Context (f : list F -> F) (nz : nat) (P : nat -> nat -> F) (k : arr3 (F := F)).
Definition pure_step (off : bool) (a : arr3 (F := F) * list (nat * nat)) (ij : nat * nat) : arr3 (F := F) * list (nat * nat) :=
  let '(i, j) := ij in
  if negb (Nat.eqb i j) && negb off then a
  else (set_cell (set_cell (fst a) i j (fun l => f (integrand nz P k l i j))) j i (fun l => set_cell (fst a) i j (fun l => f (integrand nz P k l i j)) l i j), snd a ++ [(i, j)]).
Lemma auto_pure off ps : forall a, fold_left (auto_step (Ok f) nz P k off) ps (Ok a) = Ok (fold_left (pure_step off) ps a).
Proof.
  induction ps as [|[i j] ps IH]; intros a; [reflexivity|]. cbn [fold_left]. rewrite <- IH. f_equal. unfold auto_step, pure_step, integral. cbn [rbind].
  destruct (negb (Nat.eqb i j) && negb off); reflexivity.
Qed.
Lemma pure_done off ps : forall a, snd (fold_left (pure_step off) ps a) = snd a ++ filter (kept off) ps.
Proof.
  induction ps as [|[i j] ps IH]; intros a; cbn [fold_left filter]; [rewrite app_nil_r; reflexivity|]. rewrite IH. unfold pure_step, kept. cbn [fst snd].
  destruct (Nat.eqb i j), off; cbn; rewrite <- ?app_assoc; reflexivity.
Qed.
Lemma pure_untouched off ps a l x y : (forall i j, In (i, j) ps -> kept off (i, j) = true -> (x, y) <> (i, j) /\ (x, y) <> (j, i)) ->
  fst (fold_left (pure_step off) ps a) l x y = fst a l x y.
Proof.
  revert a. induction ps as [|[i j] ps IH]; intros a H; [reflexivity|]. cbn [fold_left]. rewrite IH by (intros; apply H; [right|]; assumption).
  unfold pure_step. destruct (negb (Nat.eqb i j) && negb off) eqn:E; [reflexivity|].
  assert (Kp : kept off (i, j) = true) by (unfold kept; cbn [fst snd]; destruct (Nat.eqb i j), off; auto).
  destruct (H i j (or_introl eq_refl) Kp) as [N1 N2]. cbn [fst]. rewrite set_cell_other by exact N2. apply set_cell_other. exact N1.
Qed.
Lemma pure_written off ps a l i j : NoDup ps -> (forall x y, In (x, y) ps -> In (y, x) ps -> x = y) -> In (i, j) ps -> kept off (i, j) = true ->
  fst (fold_left (pure_step off) ps a) l i j = f (integrand nz P k l i j) /\ fst (fold_left (pure_step off) ps a) l j i = f (integrand nz P k l i j).
Proof.
  intros N S H Kp. apply in_split in H. destruct H as (p1 & p2 & ->). rewrite fold_left_app. cbn [fold_left].
  assert (U : forall x y, (x, y) = (i, j) \/ (x, y) = (j, i) -> forall i' j', In (i', j') p2 -> kept off (i', j') = true -> (x, y) <> (i', j') /\ (x, y) <> (j', i')).
  { intros x y E i' j' Hi _. assert (Ni : ~ In (i, j) p2) by (apply NoDup_remove_2 in N; intros X; apply N; apply in_or_app; right; exact X).
    assert (Nj : (j', i') = (i, j) -> i = j).
    { intros Q. injection Q as <- <-. apply S; apply in_or_app; [right; left; reflexivity|right; right; exact Hi]. }
    split; intros Q; destruct E as [E|E]; rewrite E in Q; injection Q as <- <-; try contradiction.
    - specialize (Nj eq_refl). subst. contradiction.
    - specialize (Nj eq_refl). subst. contradiction. }
  assert (T : negb (Nat.eqb i j) && negb off = false) by (unfold kept in Kp; cbn [fst snd] in Kp; destruct (Nat.eqb i j), off; auto; discriminate).
  split; rewrite pure_untouched by (apply U; auto); unfold pure_step; rewrite T; cbn [fst].
  - unfold set_cell at 1. destruct (Nat.eqb_spec i j) as [->|Nij]; [rewrite Nat.eqb_refl; apply set_cell_same|cbn; apply set_cell_same].
  - rewrite set_cell_same. apply set_cell_same.
Qed.

Definition pure_cross (a : arr3 (F := F) * list (nat * nat)) (ij : nat * nat) : arr3 (F := F) * list (nat * nat) :=
  (set_cell (fst a) (fst ij) (snd ij) (fun l => f (integrand nz P k l (fst ij) (snd ij))), snd a ++ [ij]).
Lemma cross_pure ps : forall a, fold_left (cross_step (Ok f) nz P k) ps (Ok a) = Ok (fold_left pure_cross ps a).
Proof. induction ps as [|ij ps IH]; intros a; [reflexivity|]. cbn [fold_left]. rewrite <- IH. reflexivity. Qed.
Lemma cross_done ps : forall a, snd (fold_left pure_cross ps a) = snd a ++ ps.
Proof. induction ps as [|ij ps IH]; intros a; cbn [fold_left]; [rewrite app_nil_r; reflexivity|]. rewrite IH. cbn [pure_cross snd]. rewrite <- app_assoc. reflexivity. Qed.
Lemma cross_untouched ps a l x y : ~ In (x, y) ps -> fst (fold_left pure_cross ps a) l x y = fst a l x y.
Proof.
  revert a. induction ps as [|[i j] ps IH]; intros a H; [reflexivity|]. cbn [fold_left]. rewrite IH by (intros X; apply H; right; exact X).
  cbn [pure_cross fst snd]. apply set_cell_other. intros E. apply H. left. symmetry. exact E.
Qed.
Lemma cross_written ps a l i j : NoDup ps -> In (i, j) ps -> fst (fold_left pure_cross ps a) l i j = f (integrand nz P k l i j).
Proof.
  intros N H. apply in_split in H. destruct H as (p1 & p2 & ->). rewrite fold_left_app. cbn [fold_left]. rewrite cross_untouched.
  - cbn [pure_cross fst snd]. apply set_cell_same.
  - apply NoDup_remove_2 in N. intros X. apply N. apply in_or_app. right. exact X.
Qed.
End Loop.
Lemma auto_err e nz P (k : arr3 (F := F)) off ps : fold_left (auto_step (Err e) nz P k off) ps (Err e) = Err e.
Proof. induction ps as [|[i j] ps IH]; [reflexivity|]. cbn [fold_left]. exact IH. Qed.
Lemma cross_err e nz P (k : arr3 (F := F)) ps : fold_left (cross_step (Err e) nz P k) ps (Err e) = Err e.
Proof. induction ps as [|[i j] ps IH]; [reflexivity|]. cbn [fold_left]. exact IH. Qed.
Lemma list_prod_nodup {A B} (l : list A) (m : list B) : NoDup l -> NoDup m -> NoDup (list_prod l m).
Proof.
  induction l as [|a l IH]; intros N M; cbn [list_prod]; [constructor|]. inversion N as [|? ? Na Nl]; subst. apply LinalgLemmas.NoDup_app_intro.
  - apply FinFun.Injective_map_NoDup; [intros x y E; injection E; auto|exact M].
  - apply IH; assumption.
  - intros [x y] H G. apply in_map_iff in H. destruct H as (z & E & _). injection E as <- _. apply in_prod_iff in G. tauto.
Qed.

(** Whether the off-diagonal cells of an auto spectrum are computed. *)
Definition switch (p : string) (setting : res bool) (off : bool) : Prop :=
  (p = "SpectroscopicGalaxy"%string -> setting = Ok off) /\ (p <> "SpectroscopicGalaxy"%string -> off = true).

Lemma evaluate_auto integ nz P (k : arr3 (F := F)) p setting n m c d : evaluate integ nz P k p p setting n m = Ok (c, d) -> (0 < n)%nat ->
  exists f off, integ = Ok f /\ switch p setting off /\ (c, d) = fold_left (pure_step f nz P k off) (pairs2 (seq 0 n)) (fun _ _ _ => 0, []).
Proof.
  intros E Hn. unfold evaluate in E. rewrite String.eqb_refl in E.
  assert (S : exists off, (if String.eqb p "SpectroscopicGalaxy" then setting else Ok true) = Ok off /\ switch p setting off).
  { destruct (String.eqb_spec p "SpectroscopicGalaxy") as [->|N].
    - destruct setting as [off|]; [|discriminate]. exists off. split; [reflexivity|]. split; [reflexivity|intros X; exfalso; apply X; reflexivity].
    - exists true. split; [reflexivity|]. split; [intros; contradiction|reflexivity]. }
  destruct S as (off & Eo & Sw). rewrite Eo in E. cbn [rbind] in E. destruct integ as [f|e].
  - rewrite auto_pure in E. injection E as E. exists f, off. auto.
  - exfalso. destruct n as [|n]; [lia|]. cbn [seq pairs2 fold_left] in E. unfold auto_step at 2 in E. rewrite Nat.eqb_refl in E. cbn in E. rewrite auto_err in E. discriminate.
Qed.

(** Auto spectra: symmetric; the upper triangle holds the integrals; zero off the
    diagonal when these cells are switched off. *)
Theorem C59_auto integ nz P (k : arr3 (F := F)) p setting n m c d : evaluate integ nz P k p p setting n m = Ok (c, d) -> (0 < n)%nat ->
  exists f off, integ = Ok f /\ switch p setting off /\ forall l i j, (i < n)%nat -> (j < n)%nat ->
    c l i j = c l j i /\ ((i <= j)%nat -> i = j \/ off = true -> c l i j = f (integrand nz P k l i j)) /\ (off = false -> i <> j -> c l i j = 0).
Proof.
  intros E Hn. destruct (evaluate_auto _ _ _ _ _ _ _ _ _ _ E Hn) as (f & off & Ef & Sw & Ec). exists f, off. split; [exact Ef|]. split; [exact Sw|].
  set (ps := pairs2 (seq 0 n)) in *. destruct (pairs2_nodup (seq 0 n) (seq_NoDup n 0)) as [N S]. fold ps in N, S.
  assert (Ec' : c = fst (fold_left (pure_step f nz P k off) ps (fun _ _ _ => 0, []))) by (rewrite <- Ec; reflexivity). clear Ec E.
  assert (Up : forall l i j, (i <= j)%nat -> (j < n)%nat -> i = j \/ off = true -> c l i j = f (integrand nz P k l i j) /\ c l j i = f (integrand nz P k l i j)).
  { intros l i j L J D. rewrite Ec'. apply pure_written; [exact N|exact S|apply pairs2_seq; lia|]. unfold kept. cbn [fst snd]. destruct D as [->| ->]; [rewrite Nat.eqb_refl; reflexivity|apply orb_true_r]. }
  assert (Lo : forall l i j, i <> j -> off = false -> c l i j = 0).
  { intros l i j D Of. rewrite Ec'. rewrite pure_untouched; [reflexivity|]. intros i' j' _ Kp. rewrite Of in Kp. unfold kept in Kp. cbn [fst snd] in Kp. rewrite orb_false_r in Kp. apply Nat.eqb_eq in Kp. subst j'.
    split; intros X; injection X as -> ->; contradiction. }
  intros l i j I J. split; [|split].
  - destruct (Nat.eq_dec i j) as [->|D]; [reflexivity|]. destruct off eqn:Of.
    + destruct (Nat.le_ge_cases i j) as [L|L]; [destruct (Up l i j L J (or_intror eq_refl)) as [-> ->]|destruct (Up l j i L I (or_intror eq_refl)) as [-> ->]]; reflexivity.
    + rewrite (Lo l i j D eq_refl), (Lo l j i (not_eq_sym D) eq_refl). reflexivity.
  - intros L D. apply (Up l i j L J D).
  - intros Of D. apply (Lo l i j D Of).
Qed.
(** The bin pairs integrated: each once, all that are needed. *)
Theorem C59_once integ nz P (k : arr3 (F := F)) p setting n m c d : evaluate integ nz P k p p setting n m = Ok (c, d) -> (0 < n)%nat ->
  exists off, switch p setting off /\ NoDup d /\ (forall i j, In (i, j) d <-> (i <= j < n)%nat /\ (i = j \/ off = true)).
Proof.
  intros E Hn. destruct (evaluate_auto _ _ _ _ _ _ _ _ _ _ E Hn) as (f & off & Ef & Sw & Ec). exists off. split; [exact Sw|].
  assert (Ed : d = filter (kept off) (pairs2 (seq 0 n))) by (change d with (snd (c, d)); rewrite Ec, pure_done; reflexivity).
  destruct (pairs2_nodup (seq 0 n) (seq_NoDup n 0)) as [N _]. subst d. split; [apply NoDup_filter; exact N|]. intros i j. rewrite filter_In, pairs2_seq. unfold kept. cbn [fst snd]. rewrite orb_true_iff, Nat.eqb_eq. split; intros H; intuition lia.
Qed.
(** Cross spectra: every cell is its own integral, computed once. *)
Theorem C59_cross integ nz P (k : arr3 (F := F)) p q setting n m c d : p <> q -> evaluate integ nz P k p q setting n m = Ok (c, d) -> (0 < n)%nat -> (0 < m)%nat ->
  exists f, integ = Ok f /\ (forall l i j, (i < n)%nat -> (j < m)%nat -> c l i j = f (integrand nz P k l i j)) /\
    NoDup d /\ forall i j, In (i, j) d <-> (i < n)%nat /\ (j < m)%nat.
Proof.
  intros Npq E Hn Hm. unfold evaluate in E. destruct (String.eqb_spec p q) as [->|_]; [contradiction|].
  assert (Np : NoDup (list_prod (seq 0 n) (seq 0 m))) by (apply list_prod_nodup; apply seq_NoDup). destruct integ as [f|e].
  - rewrite cross_pure in E. injection E as E. exists f. split; [reflexivity|].
    assert (Ec : c = fst (fold_left (pure_cross f nz P k) (list_prod (seq 0 n) (seq 0 m)) (fun _ _ _ => 0, []))) by (rewrite E; reflexivity).
    assert (Ed : d = list_prod (seq 0 n) (seq 0 m)) by (change d with (snd (c, d)); rewrite <- E, cross_done; reflexivity).
    split; [|split].
    + intros l i j I J. rewrite Ec. apply cross_written; [exact Np|]. apply in_prod_iff. rewrite !in_seq. lia.
    + rewrite Ed. exact Np.
    + intros i j. rewrite Ed, in_prod_iff, !in_seq. lia.
  - exfalso. destruct n as [|n], m as [|m]; try lia. cbn [seq list_prod map app fold_left] in E. unfold cross_step at 2 in E. cbn in E. rewrite cross_err in E. discriminate.
Qed.
(** No other failure: with a working integrator and setting the spectra exist. *)
Theorem C59_total f nz P (k : arr3 (F := F)) p q off n m : exists c d, evaluate (Ok f) nz P k p q (Ok off) n m = Ok (c, d).
Proof.
  unfold evaluate. destruct (String.eqb p q).
  - assert (S : exists o, (if String.eqb p "SpectroscopicGalaxy" then Ok off else Ok true) = Ok o) by (destruct (String.eqb p "SpectroscopicGalaxy"); eauto).
    destruct S as [o ->]. cbn [rbind]. rewrite auto_pure. destruct (fold_left _ _ _) as [c d]. eauto.
  - rewrite cross_pure. destruct (fold_left _ _ _) as [c d]. eauto.
Qed.

(** With the kernels of the program both triangles of an auto spectrum are the
    integrals, and exchanging the probes transposes a cross spectrum. *)
Lemma integrand_ext nz P (k k' : arr3 (F := F)) l i j i' j' : (forall z, k i j z = k' i' j' z) -> integrand nz P k l i j = integrand nz P k' l i' j'.
Proof. intros H. unfold integrand. apply map_ext. intros z. rewrite H. reflexivity. Qed.
Lemma kernel_sym w1 w2 c (H r : nat -> F) i j z : kernel true w1 w2 c H r i j z = kernel true w1 w2 c H r j i z.
Proof. unfold kernel. f_equal. ring. Qed.
Lemma kernel_swap w1 w2 c (H r : nat -> F) i j z : kernel false w1 w2 c H r i j z = kernel false w2 w1 c H r j i z.
Proof. unfold kernel. f_equal. ring. Qed.
Theorem C59_kernel integ nz P w1 w2 cc (H r : nat -> F) p setting n m c d : evaluate integ nz P (kernel true w1 w2 cc H r) p p setting n m = Ok (c, d) -> (0 < n)%nat ->
  exists f off, integ = Ok f /\ switch p setting off /\ forall l i j, (i < n)%nat -> (j < n)%nat ->
    c l i j = if Nat.eqb i j || off then f (integrand nz P (kernel true w1 w2 cc H r) l i j) else 0.
Proof.
  intros E Hn. destruct (C59_auto _ _ _ _ _ _ _ _ _ _ E Hn) as (f & off & Ef & Sw & A). exists f, off. split; [exact Ef|]. split; [exact Sw|].
  intros l i j I J. destruct (A l i j I J) as (S & U & L). destruct (Nat.eqb_spec i j) as [->|D]; [cbn; apply U; [lia|auto]|]. destruct off; cbn; [|apply L; auto].
  destruct (Nat.le_ge_cases i j) as [Le|Le]; [apply U; auto|]. rewrite S. destruct (A l j i J I) as (_ & U' & _). rewrite U' by auto. f_equal. apply integrand_ext. intros z. apply kernel_sym.
Qed.
Theorem C59_swap integ nz P w1 w2 cc (H r : nat -> F) p q setting setting' n m c d c' d' : p <> q ->
  evaluate integ nz P (kernel false w1 w2 cc H r) p q setting n m = Ok (c, d) -> evaluate integ nz P (kernel false w2 w1 cc H r) q p setting' m n = Ok (c', d') ->
  forall l i j, (i < n)%nat -> (j < m)%nat -> c l i j = c' l j i.
Proof.
  intros N E E' l i j I J. destruct (C59_cross _ _ _ _ _ _ _ _ _ _ _ N E ltac:(lia) ltac:(lia)) as (f & Ef & A & _).
  destruct (C59_cross _ _ _ _ _ _ _ _ _ _ _ (not_eq_sym N) E' ltac:(lia) ltac:(lia)) as (f' & Ef' & A' & _). rewrite Ef in Ef'. injection Ef' as <-.
  rewrite A, A' by assumption. f_equal. apply integrand_ext. intros z. apply kernel_swap.
Qed.

(** ** The analytic derivative *)
Definition linear (f : list F -> F) (nz : nat) : Prop :=
  forall a b (g h : nat -> F), f (map (fun z => a * g z + b * h z) (seq 0 nz)) = a * f (map g (seq 0 nz)) + b * f (map h (seq 0 nz)).
Lemma linear_scale f nz a g : linear f nz -> f (map (fun z => a * g z) (seq 0 nz)) = a * f (map g (seq 0 nz)).
Proof.
  intros L. rewrite (map_ext _ (fun z => a * g z + 0 * g z)) by (intros; ring). rewrite L. ring.
Qed.
(** Newton-Cotes integration of any order is such an integrator. *)
Theorem C68_newton_cotes simps quad romb zs order f : integrator simps quad romb ("newton-cotes_" ++ order) zs = Ok f -> linear f (length zs).
Proof.
  unfold integrator. cbn [starts strip_prefix append]. replace (starts "newton-cotes" ("newton-cotes_" ++ order)) with true by reflexivity.
  set (o := int_of _). destruct o as [n|]; [|discriminate]. cbn [rbind]. destruct (nc_check (Z.of_nat n) (length zs) (length zs)) as [u|] eqn:Ec; [|discriminate]. cbn [rbind].
  intros E. injection E as <-. assert (Hn : (1 <= n)%nat) by (unfold nc_check in Ec; destruct (Z.leb_spec (Z.of_nat n) 0); [discriminate|lia]).
  intros a b g h. rewrite <- nc_linear by (rewrite ?map_length; auto). f_equal.
  generalize (seq 0 (length zs)) as s. induction s as [|z s IH]; [reflexivity|]. cbn. f_equal. exact IH.
Qed.

(** What the code returns: slots of the probe in bin k, over the bias, times the
    spectrum - where k is the last character of the parameter's name. *)
Definition slots (p : param F) (p1 p2 : string) (k i j : nat) : nat :=
  ((if probe_is p p1 && Nat.eqb i k then 1 else 0) + (if probe_is p p2 && Nat.eqb j k then 1 else 0))%nat.
Theorem C68_value simps p p1 p2 ni nj edges zs y (c : arr3 (F := F)) d : is_bias p = true -> probe_is p p1 || probe_is p p2 = true -> fiducial p <> 0 ->
  analytic_derivative simps p p1 p2 "constant" ni nj edges zs y c = Ok d ->
  exists ch k, last_char (pp_name p) = Some ch /\ is_digit ch = true /\ k = digit_val ch /\ (k < 10)%nat /\
    forall l i j, d l i j = fnat (slots p p1 p2 k i j) / fiducial p * c l i j.
Proof.
  intros B Q N. unfold analytic_derivative, do_analytic. assert (T : is_nuis p && negb (probe_is p p1) && negb (probe_is p p2) = false) by (destruct (probe_is p p1), (probe_is p p2), (is_nuis p); auto; discriminate).
  rewrite T, B. assert (T' : negb (probe_is p p1) && negb (probe_is p p2) = false) by (destruct (probe_is p p1), (probe_is p p2); auto; discriminate). rewrite T'. cbn [negb String.eqb Ascii.eqb Bool.eqb].
  unfold digit_index. destruct (last_char (pp_name p)) as [ch|]; [|discriminate]. destruct (is_digit ch) eqn:D; [|discriminate]. cbn [rbind]. intros E. injection E as <-.
  exists ch, (digit_val ch). repeat split; auto.
  - unfold is_digit in D. apply andb_true_iff in D. destruct D as [D1 D2]. apply Nat.leb_le in D1, D2. unfold digit_val. lia.
  - intros l i j. unfold analytic_constant, slots. destruct (probe_is p p1), (probe_is p p2), (Nat.eqb i (digit_val ch)), (Nat.eqb j (digit_val ch)); cbn [andb Nat.add fnat]; field; exact N.
Qed.
(** Spectra of other probes: zero. *)
Theorem C68_other simps p p1 p2 model ni nj edges zs y (c : arr3 (F := F)) : is_nuis p = true -> probe_is p p1 = false -> probe_is p p2 = false ->
  exists d, analytic_derivative simps p p1 p2 model ni nj edges zs y c = Ok d /\ forall l i j, d l i j = 0.
Proof. intros A B C. unfold analytic_derivative. rewrite A, B, C. eexists. split; reflexivity. Qed.

(** It is the derivative of the spectra the program computes: exact to second
    order for the auto spectrum, exact for a cross spectrum.  The bins have
    constant bias [b], the bias of bin k is displaced by e. *)
Definition displaced (b : nat -> F) (k : nat) (e : F) : nat -> F := fun i => if Nat.eqb i k then b i + e else b i.
Definition const_weight (H : nat -> F) (cc : F) n (b : nat -> F) := biased_weight H cc n (fun i _ => b i).

Section Derivative.
Context (f : list F -> F) (nz : nat) (P : nat -> nat -> F) (cc : F) (H r : nat -> F) (n : nat -> nat -> F) (L : linear f nz) .
Lemma auto_integral b l i j : f (integrand nz P (kernel true (const_weight H cc n b) (const_weight H cc n b) cc H r) l i j) =
  b i * b j * f (map (fun z => P l z * kernel true (const_weight H cc n (fun _ => 1)) (const_weight H cc n (fun _ => 1)) cc H r i j z) (seq 0 nz)).
Proof.
  rewrite <- (linear_scale f nz) by exact L. unfold integrand. f_equal. apply map_ext. intros z. unfold kernel, const_weight, biased_weight.
  rewrite !(Fdiv_def fth _ (H z * (r z * r z))), !(Fdiv_def fth (H z) cc). ring.
Qed.
Lemma cross1_integral b w l i j : f (integrand nz P (kernel false (const_weight H cc n b) w cc H r) l i j) =
  b i * f (map (fun z => P l z * kernel false (const_weight H cc n (fun _ => 1)) w cc H r i j z) (seq 0 nz)).
Proof.
  rewrite <- (linear_scale f nz) by exact L. unfold integrand. f_equal. apply map_ext. intros z. unfold kernel, const_weight, biased_weight.
  rewrite !(Fdiv_def fth _ (H z * (r z * r z))), !(Fdiv_def fth (H z) cc). ring.
Qed.

Theorem C68_auto simps p q k ni nj edges zs y setting m m' b c d dc : is_bias p = true -> probe_is p q = true -> digit_index (pp_name p) = Ok k ->
  (k < m)%nat -> fiducial p = b k -> b k <> 0 ->
  evaluate (Ok f) nz P (kernel true (const_weight H cc n b) (const_weight H cc n b) cc H r) q q setting m m' = Ok (c, d) ->
  analytic_derivative simps p q q "constant" ni nj edges zs y c = Ok dc ->
  exists Q : arr3 (F := F), forall e c' d',
    evaluate (Ok f) nz P (kernel true (const_weight H cc n (displaced b k e)) (const_weight H cc n (displaced b k e)) cc H r) q q setting m m' = Ok (c', d') ->
    forall l i j, (i < m)%nat -> (j < m)%nat -> c' l i j = c l i j + e * dc l i j + e * e * Q l i j.
Proof.
  intros B Pq Dk Km Fk Nk E A. assert (Hm : (0 < m)%nat) by lia.
  destruct (C59_kernel _ _ _ _ _ _ _ _ _ _ _ _ _ _ E Hm) as (f0 & off & Ef & Sw & C). injection Ef as <-.
  destruct (C68_value simps p q q ni nj edges zs y c dc B ltac:(rewrite Pq; reflexivity) ltac:(rewrite Fk; exact Nk) A) as (ch & k' & Lc & Dg & Ek & _ & V).
  assert (Hk : k' = k) by (unfold digit_index in Dk; rewrite Lc, Dg in Dk; congruence). rewrite Hk in V.
  exists (fun l i j => if Nat.eqb i k && Nat.eqb j k then c l i j / (b k * b k) else 0). intros e c' d' E' l i j I J.
  destruct (C59_kernel _ _ _ _ _ _ _ _ _ _ _ _ _ _ E' Hm) as (f0 & off' & Ef & Sw' & C'). injection Ef as <-.
  assert (off' = off).
  { destruct (string_dec q "SpectroscopicGalaxy") as [Eq|Nq]; [destruct Sw as [S1 _], Sw' as [S2 _]; rewrite (S1 Eq) in S2; specialize (S2 Eq); congruence|].
    destruct Sw as [_ S1], Sw' as [_ S2]. rewrite (S1 Nq), (S2 Nq). reflexivity. }
  subst off'. cbv beta. rewrite V, (C l i j I J), (C' l i j I J). unfold slots. rewrite Pq, Fk. cbn [andb]. rewrite !auto_integral. unfold displaced.
  set (G := f (map _ (seq 0 nz))). clearbody G. destruct (Nat.eqb_spec i j) as [->|D]; cbn [orb].
  - destruct (Nat.eqb_spec j k) as [->|Dj]; cbn [andb Nat.add fnat]; [field; exact Nk|field; exact Nk].
  - destruct off; cbn [orb]; [|destruct (Nat.eqb i k), (Nat.eqb j k); cbn [andb Nat.add fnat]; field; exact Nk].
    destruct (Nat.eqb_spec i k) as [->|Di], (Nat.eqb_spec j k) as [->|Dj]; cbn [andb Nat.add fnat]; try contradiction; field; exact Nk.
Qed.
Theorem C68_cross simps p q1 q2 k ni nj edges zs y setting m m' b w c d dc : q1 <> q2 -> is_bias p = true -> pprobe p = Some q1 -> digit_index (pp_name p) = Ok k ->
  (k < m)%nat -> (0 < m')%nat -> fiducial p = b k -> b k <> 0 ->
  evaluate (Ok f) nz P (kernel false (const_weight H cc n b) w cc H r) q1 q2 setting m m' = Ok (c, d) ->
  analytic_derivative simps p q1 q2 "constant" ni nj edges zs y c = Ok dc ->
  forall e c' d', evaluate (Ok f) nz P (kernel false (const_weight H cc n (displaced b k e)) w cc H r) q1 q2 setting m m' = Ok (c', d') ->
    forall l i j, (i < m)%nat -> (j < m')%nat -> c' l i j = c l i j + e * dc l i j.
Proof.
  intros Nq B Pq Dk Km Hm' Fk Nk E A e c' d' E' l i j I J.
  assert (P1 : probe_is p q1 = true) by (unfold probe_is; rewrite Pq; apply String.eqb_refl).
  assert (P2 : probe_is p q2 = false) by (unfold probe_is; rewrite Pq; apply String.eqb_neq; exact Nq).
  destruct (C59_cross _ _ _ _ _ _ _ _ _ _ _ Nq E ltac:(lia) Hm') as (f0 & Ef & C & _). injection Ef as <-.
  destruct (C59_cross _ _ _ _ _ _ _ _ _ _ _ Nq E' ltac:(lia) Hm') as (f0 & Ef & C' & _). injection Ef as <-.
  destruct (C68_value simps p q1 q2 ni nj edges zs y c dc B ltac:(rewrite P1; reflexivity) ltac:(rewrite Fk; exact Nk) A) as (ch & k' & Lc & Dg & Ek & _ & V).
  assert (Hk : k' = k) by (unfold digit_index in Dk; rewrite Lc, Dg in Dk; congruence). rewrite Hk in V.
  rewrite V, (C l i j I J), (C' l i j I J). unfold slots. rewrite P1, P2, Fk. cbn [andb]. rewrite !cross1_integral. unfold displaced.
  set (G := f (map _ (seq 0 nz))). clearbody G. destruct (Nat.eqb_spec i k) as [->|Di]; cbn [Nat.add fnat]; field; exact Nk.
Qed.
End Derivative.

(** ** The void cut *)
(** Below kcut - width the power spectrum is untouched, above kcut + width it is
    zero, in between it is multiplied by a factor of [0, 1] that decreases with k. *)
Theorem C80_cut kcut width (kl P : nat -> nat -> F) l z : flt 0 width ->
  (fle (kl l z) (kcut - width) -> void_cut kcut width kl P l z = P l z) /\
  (fle (kcut + width) (kl l z) -> void_cut kcut width kl P l z = 0) /\
  (exists t, fle 0 t /\ fle t 1 /\ void_cut kcut width kl P l z = P l z * t) /\
  forall l' z', fle (kl l z) (kl l' z') -> P l z = P l' z' -> fle 0 (P l z) -> fle (void_cut kcut width kl P l' z') (void_cut kcut width kl P l z).
Proof.
  intros W. assert (X : flt (kcut - width) (kcut + width)).
  { apply flt_sub_iff. replace (kcut + width - (kcut - width)) with (width + width) by ring. replace (0 : F) with (0 + 0 : F) by ring. apply flt_add2; exact W. }
  unfold void_cut. split; [|split; [|split]].
  - intros B. rewrite (proj1 (C47_ends 3 _ _ _ X) B). ring.
  - intros B. rewrite (proj2 (C47_ends 3 _ _ _ X) B). ring.
  - destruct (C47_monotone 3 _ _ (kl l z) (kl l z) X (fle_refl _)) as (A & _ & B).
    exists (1 - smoothstep 3 (kcut - width) (kcut + width) (kl l z)). split; [|split; [|reflexivity]].
    + apply (proj1 (fle_sub_iff _ _)). exact B.
    + apply fle_sub_iff. replace (1 - (1 - smoothstep 3 (kcut - width) (kcut + width) (kl l z))) with (smoothstep 3 (kcut - width) (kcut + width) (kl l z)) by ring. exact A.
  - intros l' z' G E Pp. destruct (C47_monotone 3 _ _ _ _ X G) as (_ & M & _). rewrite <- E. apply fle_mul_l'; [exact Pp|].
    apply fle_sub_iff. apply fle_sub_iff in M. replace (1 - smoothstep 3 (kcut - width) (kcut + width) (kl l z) - (1 - smoothstep 3 (kcut - width) (kcut + width) (kl l' z')))
      with (smoothstep 3 (kcut - width) (kcut + width) (kl l' z') - smoothstep 3 (kcut - width) (kcut + width) (kl l z)) by ring. exact M.
Qed.
End Assembly.

From Coq Require Import QArith Qcanon. Close Scope Qc_scope. Close Scope Q_scope.
Definition bias_par (name : string) (v : Qc) : param Qc := mkPar name v v false (Some "PhotometricGalaxy"%string) (qz 1) true "" "" "Analytic".
Definition ones : arr3 (F := Qc) := fun _ _ _ => qz 1.
(** The derivative with respect to the bias of bin 10 is given to bin 0. *)
Theorem C68_two_digits_refuted : exists d, analytic_derivative (fun _ _ => qz 0) (bias_par "bgph10" (qz 2)) "PhotometricGalaxy" "Lensing" "constant" 11 1 [] [] (fun _ _ _ => []) ones = Ok d /\
  this (d 0 10 0)%nat = 0%Q /\ this (d 0 0 0)%nat = (1 # 2)%Q.
Proof. eexists. split; [reflexivity|]. split; vm_compute; reflexivity. Qed.

(** Two-point trapezoids of two bins of photometric galaxies. *)
Definition w_ex : nat -> nat -> Qc := biased_weight (fun _ => qz 1) (qz 1) (fun i z => qz (Z.of_nat (i + z + 1))) (fun i _ => qz (Z.of_nat (i + 1))).
Definition spec_ex p off := evaluate (integrator (fun _ _ => qz 0) (fun _ _ => qz 0) (fun _ _ => qz 0) "newton-cotes_1" [qz 0; qz 1]) 2 (fun l _ => qz (Z.of_nat (l + 1)))
  (kernel true w_ex w_ex (qz 1) (fun _ => qz 1) (fun _ => qz 1)) p p off 2 2.
Definition show (r : res (arr3 (F := Qc) * list (nat * nat))) : res (list Q * list (nat * nat)) :=
  rmap (fun cd => (map (fun ij => this (fst cd 0 (fst ij) (snd ij))%nat) [(0, 0); (0, 1); (1, 0); (1, 1)]%nat, snd cd)) r.
Example C59_instance : show (spec_ex "PhotometricGalaxy" (Err EKeyError)) = Ok ([5 # 2; 8; 8; 26]%Q, [(0, 0); (0, 1); (1, 1)]%nat) /\
  show (spec_ex "SpectroscopicGalaxy" (Ok false)) = Ok ([5 # 2; 0; 0; 26]%Q, [(0, 0); (1, 1)]%nat) /\ show (spec_ex "SpectroscopicGalaxy" (Err EKeyError)) = Err EKeyError.
Proof. repeat split; vm_compute; reflexivity. Qed.
Example C68_instance : is_bias (bias_par "bgph1" (qz 2)) = true /\ probe_is (bias_par "bgph1" (qz 2)) "PhotometricGalaxy" = true /\ digit_index "bgph1" = Ok 1%nat /\
  exists f, integrator (fun _ _ => qz 0) (fun _ _ => qz 0) (fun _ _ => qz 0) "newton-cotes_1" [qz 0; qz 1] = Ok f.
Proof. repeat split. eexists. reflexivity. Qed.
Example C80_instance : this (void_cut (qz 4) (qz 2) (fun _ _ => qz 1) (fun _ _ => qz 7) 0 0)%nat = 7%Q /\ this (void_cut (qz 4) (qz 2) (fun _ _ => qz 9) (fun _ _ => qz 7) 0 0)%nat = 0%Q /\
  this (void_cut (qz 4) (qz 2) (fun _ _ => qz 4) (fun _ _ => qz 8) 0 0)%nat = 4%Q.
Proof. repeat split; vm_compute; reflexivity. Qed.

Print Assumptions C59_auto.
Print Assumptions C59_once.
Print Assumptions C59_cross.
Print Assumptions C59_total.
Print Assumptions C59_kernel.
Print Assumptions C59_swap.
Print Assumptions C68_newton_cotes.
Print Assumptions C68_value.
Print Assumptions C68_other.
Print Assumptions C68_auto.
Print Assumptions C68_cross.
Print Assumptions C68_two_digits_refuted.
Print Assumptions C80_cut.
