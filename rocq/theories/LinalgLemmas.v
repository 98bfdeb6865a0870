From Verif Require Import Base LinalgModel.
From Coq Require Import Permutation Field.
Set Implicit Arguments.

Ltac Zify.zify_post_hook ::= Z.div_mod_to_equations.

(** ** Index lists with column heights [w]. *)
Fixpoint sumw (w : nat -> nat) (n : nat) : nat :=
  match n with O => O | S k => sumw w k + w k end.

Definition fm (w : nat -> nat) (n : nat) : list (nat * nat) :=
  flat_map (fun j => map (fun i => (i, j)) (seq 0 (w j))) (seq 0 n).

Lemma fm_S w n : fm w (S n) = fm w n ++ map (fun i => (i, n)) (seq 0 (w n)).
Proof.
  unfold fm. rewrite seq_S, flat_map_app. cbn [flat_map]. rewrite app_nil_r. reflexivity.
Qed.

Lemma fm_length w n : length (fm w n) = sumw w n.
Proof.
  induction n as [|n IH]; [reflexivity|].
  rewrite fm_S, app_length, map_length, seq_length, IH. reflexivity.
Qed.

Lemma sumw_lt w n j i : j < n -> i < w j -> sumw w j + i < sumw w n.
Proof.
  intros Hj Hi. induction n as [|n IH]; [lia|]. cbn [sumw].
  destruct (Nat.eq_dec j n) as [->|]; [lia|]. assert (j < n) by lia. specialize (IH H). lia.
Qed.

Lemma fm_nth w n j i d : j < n -> i < w j -> nth (sumw w j + i) (fm w n) d = (i, j).
Proof.
  intros Hj Hi. induction n as [|n IH]; [lia|].
  rewrite fm_S. destruct (Nat.eq_dec j n) as [->|Hne].
  - rewrite app_nth2; rewrite fm_length; [|lia].
    replace (sumw w n + i - sumw w n) with i by lia.
    rewrite nth_indep with (d' := (0, n)) by (rewrite map_length, seq_length; exact Hi).
    rewrite (map_nth (fun i0 => (i0, n)) (seq 0 (w n)) 0 i), seq_nth by exact Hi. reflexivity.
  - assert (j < n) by lia.
    rewrite app_nth1; [apply IH; assumption|].
    rewrite fm_length. apply sumw_lt; assumption.
Qed.

Lemma fm_nth_error w n j i : j < n -> i < w j -> nth_error (fm w n) (sumw w j + i) = Some (i, j).
Proof.
  intros Hj Hi. rewrite (nth_error_nth' _ (0, 0)).
  - rewrite fm_nth by assumption. reflexivity.
  - rewrite fm_length. apply sumw_lt; assumption.
Qed.

Lemma In_fm w n i j : In (i, j) (fm w n) <-> j < n /\ i < w j.
Proof.
  unfold fm. rewrite in_flat_map. split.
  - intros (x & Hx & Hin). apply in_map_iff in Hin. destruct Hin as (y & E & Hy).
    injection E as -> ->. apply in_seq in Hx, Hy. lia.
  - intros [Hj Hi]. exists j. split; [apply in_seq; lia|].
    apply in_map_iff. exists i. split; [reflexivity|apply in_seq; lia].
Qed.

Lemma NoDup_app_intro {A} (l1 l2 : list A) :
  NoDup l1 -> NoDup l2 -> (forall x, In x l1 -> ~ In x l2) -> NoDup (l1 ++ l2).
Proof.
  induction l1 as [|a l IH]; intros H1 H2 Hd; [exact H2|].
  cbn. inversion H1 as [|? ? Hn H1']; subst. constructor.
  - rewrite in_app_iff. intros [H|H]; [exact (Hn H)|].
    apply (Hd a); [left; reflexivity|exact H].
  - apply IH; [exact H1'|exact H2|]. intros x Hx; apply Hd; right; exact Hx.
Qed.

Lemma NoDup_fm w n : NoDup (fm w n).
Proof.
  induction n as [|n IH]; [constructor|]. rewrite fm_S.
  apply NoDup_app_intro.
  - exact IH.
  - apply FinFun.Injective_map_NoDup; [|apply seq_NoDup]. intros a b E; injection E; auto.
  - intros [i j] H1 H2. apply In_fm in H1. apply in_map_iff in H2.
    destruct H2 as (x & E & _). injection E as _ ->. lia.
Qed.

Lemma all_idxs_fm n m : all_idxs n m = fm (fun _ => n) m.
Proof. reflexivity. Qed.

Lemma filter_flat_map {A B} (p : B -> bool) (g : A -> list B) l :
  filter p (flat_map g l) = flat_map (fun x => filter p (g x)) l.
Proof.
  induction l as [|a l IH]; [reflexivity|]. cbn [flat_map]. rewrite filter_app, IH. reflexivity.
Qed.

Lemma filter_map_seq_le j n :
  j < n ->
  filter (fun ij : nat * nat => fst ij <=? snd ij) (map (fun i => (i, j)) (seq 0 n))
  = map (fun i => (i, j)) (seq 0 (S j)).
Proof.
  intros Hj. replace n with (S j + (n - S j)) by lia.
  rewrite seq_app, map_app, filter_app.
  assert (E1 : filter (fun ij : nat * nat => fst ij <=? snd ij) (map (fun i => (i, j)) (seq 0 (S j)))
               = map (fun i => (i, j)) (seq 0 (S j))).
  { assert (H : forall i, In i (seq 0 (S j)) -> i <= j) by (intros i Hi; apply in_seq in Hi; lia).
    revert H. generalize (seq 0 (S j)). induction l as [|a l IH]; intros H; [reflexivity|].
    cbn [map filter fst snd]. rewrite (proj2 (Nat.leb_le a j)) by (apply H; left; reflexivity).
    f_equal. apply IH. intros i Hi; apply H; right; exact Hi. }
  assert (E2 : filter (fun ij : nat * nat => fst ij <=? snd ij) (map (fun i => (i, j)) (seq (0 + S j) (n - S j))) = []).
  { assert (H : forall i, In i (seq (0 + S j) (n - S j)) -> j < i) by (intros i Hi; apply in_seq in Hi; lia).
    revert H. generalize (seq (0 + S j) (n - S j)). induction l as [|a l IH]; intros H; [reflexivity|].
    cbn [map filter fst snd]. rewrite (proj2 (Nat.leb_gt a j)) by (apply H; left; reflexivity).
    apply IH. intros i Hi; apply H; right; exact Hi. }
  rewrite E1, E2, app_nil_r. reflexivity.
Qed.

Lemma flat_map_ext_in {A B} (f g : A -> list B) l :
  (forall x, In x l -> f x = g x) -> flat_map f l = flat_map g l.
Proof.
  induction l as [|a l IH]; intros H; [reflexivity|]. cbn [flat_map].
  rewrite (H a) by (left; reflexivity). f_equal. apply IH. intros x Hx; apply H; right; exact Hx.
Qed.

Lemma triu_fm n : triu_idxs_by_col n = fm S n.
Proof.
  unfold triu_idxs_by_col, get_idxs_by, all_idxs. rewrite filter_flat_map. unfold fm.
  apply flat_map_ext_in. intros j Hj. apply in_seq in Hj.
  apply filter_map_seq_le. lia.
Qed.

Definition tri (n : nat) : nat := n * (n + 1) / 2.

Lemma sumw_S n : sumw S n = tri n.
Proof.
  unfold tri. induction n as [|n IH]; [reflexivity|].
  cbn [sumw]. rewrite IH.
  replace (S n * (S n + 1)) with (n * (n + 1) + (S n) * 2) by lia.
  rewrite Nat.div_add by lia. lia.
Qed.

Lemma sumw_const c n : sumw (fun _ => c) n = n * c.
Proof. induction n as [|n IH]; cbn [sumw]; [reflexivity|rewrite IH; lia]. Qed.

Lemma tri_double n : 2 * tri n = n * (n + 1).
Proof.
  rewrite <- sumw_S. induction n as [|n IH]; [reflexivity|]. cbn [sumw]. lia.
Qed.

Lemma sqrt_8tri n : Nat.sqrt (8 * tri n + 1) = 2 * n + 1.
Proof. apply Nat.sqrt_unique. pose proof (tri_double n). nia. Qed.

Lemma triangular_root_tri n : triangular_root (tri n) = n.
Proof.
  unfold triangular_root. rewrite sqrt_8tri.
  replace (2 * n + 1 - 1) with (n * 2) by lia. apply Nat.div_mul. lia.
Qed.

(** ** Enumeration maps. *)
Definition pair_eqb (a b : nat * nat) : bool := Nat.eqb (fst a) (fst b) && Nat.eqb (snd a) (snd b).
Lemma pair_eqb_spec a b : reflect (a = b) (pair_eqb a b).
Proof.
  destruct a as [a1 a2], b as [b1 b2]. unfold pair_eqb; cbn.
  destruct (Nat.eqb_spec a1 b1) as [->|n]; cbn; [|constructor; congruence].
  destruct (Nat.eqb_spec a2 b2) as [->|n]; constructor; congruence.
Qed.

Lemma dkeys_combine {A B} (l : list A) (m : list B) :
  length l = length m -> map fst (combine l m) = l /\ map snd (combine l m) = m.
Proof.
  revert m. induction l as [|a l IH]; intros [|b m] H; cbn in *; try discriminate; [split; reflexivity|].
  injection H as H. destruct (IH m H) as [E1 E2]. rewrite E1, E2. split; reflexivity.
Qed.

Lemma In_combine_seq {A} (l : list A) k a s :
  nth_error l k = Some a -> In (a, s + k) (combine l (seq s (length l))).
Proof.
  revert k s. induction l as [|b l IH]; intros [|k] s H; cbn in *; try discriminate.
  - injection H as ->. left. rewrite Nat.add_0_r. reflexivity.
  - right. replace (s + S k) with (S s + k) by lia. apply IH. exact H.
Qed.

Lemma enum_lookup l k ij :
  NoDup l -> nth_error l k = Some ij ->
  dget pair_eqb (combine l (seq 0 (length l))) ij = Some k.
Proof.
  intros Hnd H. apply dget_NoDup_In.
  - apply pair_eqb_spec.
  - unfold dkeys. rewrite (proj1 (dkeys_combine l (seq 0 (length l)) (eq_sym (seq_length _ _)))). exact Hnd.
  - apply (In_combine_seq _ _ 0 H).
Qed.

Section L.
  Context {F : Type} {K : Fld F}.
  Add Field FldLin : (fth (F := F)).
  Open Scope fld_scope.

  Definition meq (A B : mat F) : Prop :=
    nr A = nr B /\ nc A = nc B /\ forall i j, i < nr A -> j < nc A -> ent A i j = ent B i j.
  Definition msym (A : mat F) : Prop :=
    nr A = nc A /\ forall i j, i < nr A -> j < nr A -> ent A i j = ent A j i.

  Lemma vec_length (A : mat F) : length (vec A) = (nc A * nr A)%nat.
  Proof. unfold vec. rewrite map_length, all_idxs_fm, fm_length, sumw_const. reflexivity. Qed.

  Lemma vec_nth_error (A : mat F) i j :
    i < nr A -> j < nc A -> nth_error (vec A) (j * nr A + i) = Some (ent A i j).
  Proof.
    intros Hi Hj. unfold vec. rewrite all_idxs_fm.
    pose proof (@fm_nth_error (fun _ => nr A) (nc A) j i Hj Hi) as E. rewrite sumw_const in E.
    rewrite (map_nth_error _ _ _ E). reflexivity.
  Qed.

  Lemma vecp_ok (A : mat F) : nr A = nc A ->
    vecp A = Ok (map (fun ij => ent A (fst ij) (snd ij)) (fm S (nr A))).
  Proof.
    intros H. unfold vecp. rewrite H, Nat.eqb_refl. cbn [negb]. rewrite triu_fm. reflexivity.
  Qed.

  Lemma enum_symm_ok n :
    get_enumeration_map (n, n) true = Ok (combine (fm S n) (seq 0 (length (fm S n)))).
  Proof. unfold get_enumeration_map. rewrite Nat.eqb_refl. cbn [negb]. rewrite triu_fm. reflexivity. Qed.

  Lemma enum_full_ok n m :
    get_enumeration_map (n, m) false = Ok (combine (fm (fun _ => n) m) (seq 0 (length (fm (fun _ => n) m)))).
  Proof. reflexivity. Qed.

  (** ** Fancy assignment. *)
  Lemma assign_notin (f : nat -> nat -> F) idx v a b :
    ~ In (a, b) idx -> assign_idxs f idx v a b = f a b.
  Proof.
    unfold assign_idxs. revert f v.
    induction idx as [|[i j] idx IH]; intros f v Hn; [reflexivity|].
    destruct v as [|x v]; [reflexivity|]. cbn [combine fold_left fst snd].
    rewrite IH by (intros C; apply Hn; right; exact C).
    unfold upd2. destruct (Nat.eqb_spec a i) as [->|Ha]; cbn [andb]; [|reflexivity].
    destruct (Nat.eqb_spec b j) as [->|Hb]; [|reflexivity].
    exfalso; apply Hn; left; reflexivity.
  Qed.

  Lemma assign_in (f : nat -> nat -> F) idx v k a b x :
    NoDup idx -> nth_error idx k = Some (a, b) -> nth_error v k = Some x ->
    assign_idxs f idx v a b = x.
  Proof.
    revert f v k. induction idx as [|[i j] idx IH]; intros f v k Hnd Hk Hv.
    - destruct k; discriminate.
    - destruct v as [|y v]; [destruct k; discriminate|].
      inversion Hnd as [|? ? Hn Hnd']; subst.
      unfold assign_idxs. cbn [combine fold_left fst snd].
      change (assign_idxs (upd2 f i j y) idx v a b = x).
      destruct k as [|k]; cbn in Hk, Hv.
      + injection Hk as -> ->. injection Hv as ->. rewrite assign_notin by exact Hn.
        unfold upd2. rewrite !Nat.eqb_refl. reflexivity.
      + apply IH with k; assumption.
  Qed.

  (** ** unvecp. *)
  Hypothesis char2 : (1 + 1 : F) <> 0.

  Lemma unvecp_ok (v : list F) n :
    length v = tri n ->
    exists M, unvecp v = Ok M /\ nr M = n /\ nc M = n /\
      forall i j, i <= j -> j < n ->
        nth_error v (tri j + i) = Some (ent M i j) /\ ent M j i = ent M i j.
  Proof.
    intros Hl. unfold unvecp. rewrite Hl, triangular_root_tri, triu_fm, fm_length, sumw_S, Nat.eqb_refl.
    cbn [negb]. eexists; split; [reflexivity|]. cbn [nr nc ent]. split; [reflexivity|split; [reflexivity|]].
    intros i j Hij Hj.
    assert (Hi : i < S j) by lia.
    pose proof (@fm_nth_error S n j i Hj Hi) as E. rewrite sumw_S in E.
    destruct (nth_error v (tri j + i)) as [x|] eqn:Ex.
    2:{ exfalso. apply nth_error_None in Ex. rewrite Hl in Ex.
        pose proof (@sumw_lt S n j i Hj Hi) as C. rewrite !sumw_S in C. lia. }
    pose proof (@assign_in (fun _ _ => 0) _ v _ _ _ _ (NoDup_fm S n) E Ex) as A1.
    destruct (Nat.eqb_spec i j) as [->|Hne].
    - rewrite !Nat.eqb_refl, !A1. split; [|reflexivity].
      f_equal. unfold ftwo. field. exact char2.
    - rewrite (proj2 (Nat.eqb_neq j i)) by lia.
      rewrite A1. rewrite (@assign_notin _ _ v j i).
      2:{ rewrite In_fm. lia. }
      split; [f_equal; ring|ring].
  Qed.

  Lemma vecp_nth (A : mat F) v i j :
    vecp A = Ok v -> i <= j -> j < nr A -> nth_error v (tri j + i) = Some (ent A i j).
  Proof.
    intros Hv Hij Hj. unfold vecp in Hv.
    destruct (Nat.eqb_spec (nr A) (nc A)) as [E|]; cbn [negb] in Hv; [|discriminate].
    injection Hv as <-. rewrite triu_fm.
    pose proof (@fm_nth_error S (nr A) j i Hj ltac:(lia)) as N. rewrite sumw_S in N.
    rewrite (map_nth_error _ _ _ N). reflexivity.
  Qed.

  Lemma vecp_length (A : mat F) v : vecp A = Ok v -> length v = tri (nr A).
  Proof.
    unfold vecp. destruct (negb _); [discriminate|]. intros E; injection E as <-.
    rewrite map_length, triu_fm, fm_length, sumw_S. reflexivity.
  Qed.

  (** Every position below [tri n] is [tri j + i] for some [i <= j < n]. *)
  Lemma tri_decompose n k : k < tri n -> exists i j, i <= j /\ j < n /\ k = (tri j + i)%nat.
  Proof.
    rewrite <- sumw_S. induction n as [|n IH]; cbn [sumw]; intros H; [lia|].
    destruct (Nat.lt_ge_cases k (sumw S n)) as [Hlt|Hge].
    - destruct (IH Hlt) as (i & j & H1 & H2 & H3). exists i, j. repeat split; auto.
    - exists (k - sumw S n)%nat, n. rewrite <- (sumw_S n). repeat split; lia.
  Qed.

  Lemma nth_error_ext {A} (l m : list A) :
    length l = length m -> (forall k, k < length l -> nth_error l k = nth_error m k) -> l = m.
  Proof.
    revert m. induction l as [|a l IH]; intros [|b m] Hl H; cbn in *; try discriminate; [reflexivity|].
    pose proof (H 0%nat ltac:(lia)) as H0. cbn in H0. injection H0 as ->. f_equal.
    apply IH; [lia|]. intros k Hk. apply (H (S k)). lia.
  Qed.

  Lemma vecp_unvecp_aux (v : list F) n : length v = tri n -> rbind (unvecp v) (@vecp F) = Ok v.
  Proof.
    intros Hl. destruct (unvecp_ok _ _ Hl) as (M & E & Hr & Hc & HM).
    rewrite E. cbn [rbind].
    destruct (vecp M) as [w|e] eqn:Ew.
    2:{ unfold vecp in Ew. rewrite Hr, Hc, Nat.eqb_refl in Ew. discriminate. }
    f_equal. pose proof (vecp_length _ Ew) as Lw. rewrite Hr in Lw.
    apply nth_error_ext; [lia|]. intros k Hk. rewrite Lw in Hk.
    destruct (tri_decompose _ Hk) as (i & j & H1 & H2 & ->).
    rewrite (vecp_nth _ Ew H1) by lia.
    destruct (HM i j H1 H2) as [-> _]. reflexivity.
  Qed.

  Lemma unvecp_vecp_aux (A : mat F) : msym A ->
    exists M, rbind (vecp A) (@unvecp F K) = Ok M /\ meq M A.
  Proof.
    intros [Hsq Hs]. destruct (vecp A) as [v|e] eqn:Ev.
    2:{ unfold vecp in Ev. rewrite Hsq, Nat.eqb_refl in Ev. discriminate. }
    cbn [rbind]. destruct (unvecp_ok _ _ (vecp_length _ Ev)) as (M & E & Hr & Hc & HM).
    exists M. split; [exact E|]. unfold meq. rewrite Hr, Hc. repeat split; auto.
    intros i j Hi Hj.
    destruct (Nat.le_ge_cases i j) as [Hij|Hij].
    - destruct (HM i j Hij Hj) as [H1 _]. rewrite (vecp_nth _ Ev Hij Hj) in H1. congruence.
    - destruct (HM j i Hij Hi) as [H1 H2]. rewrite (vecp_nth _ Ev Hij Hi) in H1.
      rewrite H2. rewrite (Hs i j) by lia. congruence.
  Qed.
End L.
