From Verif Require Import Base LinalgModel LinalgLemmas.
From Coq Require Import Permutation Field.
Set Implicit Arguments.

Lemma rmapM_ok {A B} (f : A -> res B) (P : A -> B -> Prop) l :
  (forall x, In x l -> exists y, f x = Ok y /\ P x y) ->
  exists ys, rmapM f l = Ok ys /\ Forall2 P l ys.
Proof.
  induction l as [|a l IH]; intros H.
  - exists []. split; [reflexivity|constructor].
  - destruct (H a (or_introl eq_refl)) as (y & Ey & Py).
    destruct IH as (ys & Eys & Pys); [intros x Hx; apply H; right; exact Hx|].
    exists (y :: ys). cbn [rmapM]. rewrite Ey. cbn [rbind]. rewrite Eys. cbn [rbind].
    split; [reflexivity|constructor; assumption].
Qed.

Lemma Forall2_nth_error {A B} (P : A -> B -> Prop) l m k a :
  Forall2 P l m -> nth_error l k = Some a -> exists b, nth_error m k = Some b /\ P a b.
Proof.
  intros H. revert k. induction H as [|x y l m Hp _ IH]; intros [|k] E; cbn in *; try discriminate.
  - injection E as ->. exists y. auto.
  - apply IH; exact E.
Qed.

Lemma nth_error_seq s n k : k < n -> nth_error (seq s n) k = Some (s + k).
Proof.
  intros H. rewrite (nth_error_nth' _ 0) by (rewrite seq_length; exact H).
  rewrite seq_nth by exact H. reflexivity.
Qed.

Section L2.
  Context {F : Type} {K : Fld F}.
  Add Field FldLin2 : (fth (F := F)).
  Open Scope fld_scope.

  Lemma rowsel_matvec R N (sel : nat -> nat) (v : list F) :
    length v = N -> (forall r, r < R -> sel r < N) ->
    matvec (mkMat R N (fun r c => ent (eye N) (sel r) c)) v
    = Ok (map (fun r => nth (sel r) v 0) (seq 0 R)).
  Proof.
    intros Hl Hs. unfold matvec. cbn [nc nr ent]. rewrite Hl, Nat.eqb_refl. cbn [negb]. f_equal.
    apply map_ext_in. intros r Hr. apply in_seq in Hr.
    unfold eye. cbn [ent].
    rewrite (@Fsum_single _ _ _ _ (seq 0 N) (sel r)).
    - rewrite Nat.eqb_refl. ring.
    - apply seq_NoDup.
    - apply in_seq. specialize (Hs r). lia.
    - intros x _ Hx. rewrite (proj2 (Nat.eqb_neq (sel r) x)) by congruence. ring.
  Qed.

  Lemma ravel_C_vec (A : mat F) : ravel_C A = vec (transpose A).
  Proof.
    unfold ravel_C, vec, transpose, all_idxs. cbn [nr nc ent].
    rewrite flat_map_concat_map, flat_map_concat_map, concat_map, map_map. f_equal.
    apply map_ext. intros i. rewrite map_map. reflexivity.
  Qed.

  Lemma ravel_C_nth (A : mat F) i j : i < nr A -> j < nc A ->
    nth_error (ravel_C A) (i * nc A + j) = Some (ent A i j).
  Proof.
    intros Hi Hj. rewrite ravel_C_vec.
    apply (@vec_nth_error F (transpose A) j i); assumption.
  Qed.

  Hypothesis char2 : (1 + 1 : F) <> 0.

  Definition ppos (i j : nat) : nat := (if Nat.leb i j then tri j + i else tri i + j)%nat.

  Lemma ppos_lt i j n : i < n -> j < n -> ppos i j < tri n.
  Proof.
    intros Hi Hj. unfold ppos. destruct (Nat.leb_spec i j).
    - pose proof (@sumw_lt S n j i Hj ltac:(lia)) as H1. rewrite !sumw_S in H1. exact H1.
    - pose proof (@sumw_lt S n i j Hi ltac:(lia)) as H1. rewrite !sumw_S in H1. exact H1.
  Qed.

  Lemma unit_nth N c k : k < N -> nth_error (row_of (eye N) c) k = Some (if Nat.eqb c k then 1 else 0 : F).
  Proof.
    intros Hk. unfold row_of, eye. cbn [nc ent].
    rewrite (map_nth_error _ _ _ (@nth_error_seq 0 N k Hk)). reflexivity.
  Qed.

  Lemma row_length (A : mat F) c : length (row_of A c) = nc A.
  Proof. unfold row_of. rewrite map_length, seq_length. reflexivity. Qed.

  Lemma unvecp_unit n c :
    exists M : mat F, unvecp (row_of (eye (tri n)) c) = Ok M /\ nr M = n /\ nc M = n /\
      forall i j, i < n -> j < n -> ent M i j = if Nat.eqb c (ppos i j) then 1 else 0.
  Proof.
    destruct (unvecp_ok char2 (row_of (eye (tri n)) c) n) as (M & E & Hr & Hc & HM).
    { rewrite row_length. reflexivity. }
    exists M. repeat split; auto. intros i j Hi Hj. unfold ppos.
    destruct (Nat.leb_spec i j) as [Hij|Hij].
    - destruct (HM i j Hij Hj) as [H1 _].
      rewrite unit_nth in H1; [congruence|].
      pose proof (@ppos_lt i j n Hi Hj) as P. unfold ppos in P.
      rewrite (proj2 (Nat.leb_le i j)) in P by lia. exact P.
    - destruct (HM j i ltac:(lia) Hi) as [H1 H2]. rewrite H2.
      rewrite unit_nth in H1; [congruence|].
      pose proof (@ppos_lt i j n Hi Hj) as P. unfold ppos in P.
      rewrite (proj2 (Nat.leb_gt i j)) in P by lia. exact P.
  Qed.

  Lemma duplication_ent n :
    exists D : mat F, duplication_matrix n = Ok D /\ nr D = (n * n)%nat /\ nc D = tri n /\
      forall i j c, i < n -> j < n -> c < tri n ->
        ent D (i * n + j) c = if Nat.eqb c (ppos i j) then 1 else 0.
  Proof.
    unfold duplication_matrix. fold (tri n).
    destruct (rmapM_ok (fun c => rmap ravel_C (unvecp (row_of (eye (tri n)) c)))
       (fun c (y : list F) => forall i j, i < n -> j < n ->
           nth_error y (i * n + j) = Some (if Nat.eqb c (ppos i j) then 1 else 0)) (seq 0 (tri n)))
      as (ys & E & Hys).
    { intros c _. destruct (unvecp_unit n c) as (M & EM & Hr & Hc & HM).
      exists (ravel_C M). rewrite EM. split; [reflexivity|].
      intros i j Hi Hj. rewrite <- (HM i j Hi Hj). rewrite <- Hc at 1.
      apply ravel_C_nth; lia. }
    rewrite E. cbn [rbind]. eexists; split; [reflexivity|]. cbn [nr nc ent].
    split; [reflexivity|split; [reflexivity|]]. intros i j c Hi Hj Hc.
    destruct (Forall2_nth_error _ Hys (@nth_error_seq 0 (tri n) c Hc)) as (y & Ey & Py).
    rewrite (nth_error_nth _ _ _ Ey). apply nth_error_nth. cbn in Py. apply Py; assumption.
  Qed.

  Lemma ppos_vecp (A : mat F) v i j : msym A -> vecp A = Ok v -> i < nr A -> j < nr A ->
    nth_error v (ppos i j) = Some (ent A i j).
  Proof.
    intros [Hsq Hs] Hv Hi Hj. unfold ppos. destruct (Nat.leb_spec i j).
    - apply (vecp_nth _ Hv); lia.
    - rewrite (Hs i j Hi Hj). apply (vecp_nth _ Hv); lia.
  Qed.

  Lemma div_mod_pos n r : r < n * n -> exists i j, i < n /\ j < n /\ r = (i * n + j)%nat.
  Proof.
    intros H. exists (r / n)%nat, (r mod n)%nat.
    assert (n <> 0)%nat by (intros ->; lia).
    split; [apply Nat.div_lt_upper_bound; lia|]. split; [apply Nat.mod_upper_bound; lia|].
    pose proof (Nat.div_mod r n H0). lia.
  Qed.

  Lemma duplication_aux (A : mat F) : msym A ->
    (v <- vecp A ;; D <- duplication_matrix (nr A) ;; matvec D v) = Ok (vec A).
  Proof.
    intros Hsym. pose proof Hsym as [Hsq Hs].
    destruct (vecp A) as [v|e] eqn:Ev.
    2:{ unfold vecp in Ev. rewrite Hsq, Nat.eqb_refl in Ev. discriminate. }
    cbn [rbind]. destruct (duplication_ent (nr A)) as (D & ED & Hr & Hc & HD).
    rewrite ED. cbn [rbind]. unfold matvec.
    rewrite Hc, (vecp_length _ Ev), Nat.eqb_refl. cbn [negb]. f_equal.
    apply nth_error_ext.
    - rewrite map_length, seq_length, vec_length, Hr. lia.
    - intros r. rewrite map_length, seq_length, Hr. intros Hlt.
      rewrite (map_nth_error _ _ _ (@nth_error_seq 0 (nr A * nr A) r Hlt)).
      destruct (div_mod_pos _ Hlt) as (i & j & Hi & Hj & ->). cbn [Nat.add].
      rewrite (@vec_nth_error F A j i Hj) by lia. f_equal.
      rewrite (@Fsum_single _ _ _ _ (seq 0 (tri (nr A))) (ppos i j)).
      + rewrite HD by (try lia; apply ppos_lt; lia). rewrite Nat.eqb_refl.
        rewrite (nth_error_nth _ _ _ (ppos_vecp Hsym Ev Hi Hj)). rewrite (Hs i j Hi Hj). ring.
      + apply seq_NoDup.
      + apply in_seq. pose proof (@ppos_lt i j (nr A) Hi Hj). lia.
      + intros c Hin Hne. apply in_seq in Hin. rewrite HD by lia.
        rewrite (proj2 (Nat.eqb_neq _ _) Hne). ring.
  Qed.

  (** ** Elimination. *)
  Lemma elim_sel (g : nat * nat -> F) (a : nat * nat -> F) (Q : nat * nat -> bool) (L : list (nat * nat)) :
    (forall x, In x L -> Q x = if fdec (g x) 0 then false else true) ->
    forall s (pre : list F), length pre = s ->
    map (fun k => nth k (pre ++ map a L) 0)
        (map fst (filter (fun kx : nat * F => if fdec (snd kx) 0 then false else true)
                         (combine (seq s (length L)) (map g L))))
    = map a (filter Q L).
  Proof.
    induction L as [|x L IH]; intros HQ s pre Hpre; [reflexivity|].
    cbn [length seq map combine filter snd fst].
    rewrite (HQ x (or_introl eq_refl)).
    assert (E : pre ++ a x :: map a L = (pre ++ [a x]) ++ map a L) by (rewrite <- app_assoc; reflexivity).
    assert (IH' := IH (fun y Hy => HQ y (or_intror Hy)) (S s) (pre ++ [a x])).
    rewrite app_length, Nat.add_comm, Hpre in IH'. specialize (IH' eq_refl).
    destruct (fdec (g x) 0).
    - rewrite E. exact IH'.
    - cbn [map fst]. f_equal.
      + rewrite app_nth2 by lia. rewrite Hpre, Nat.sub_diag. reflexivity.
      + rewrite E. exact IH'.
  Qed.

  Lemma fo_neq_fz : (1 : F) <> 0.
  Proof. exact (F_1_neq_0 fth). Qed.

  Lemma elim_sel_bound n r :
    let ones := mkMat n n (fun i j => if Nat.leb i j then 1 else 0 : F) in
    let sel := map fst (filter (fun kx : nat * F => if fdec (snd kx) 0 then false else true)
                               (combine (seq 0 (n * n)) (vec ones))) in
    r < length sel -> nth r sel 0%nat < n * n.
  Proof.
    cbn zeta. intros Hr. apply nth_In with (d := 0%nat) in Hr. revert Hr.
    generalize (nth r (map fst (filter (fun kx : nat * F => if fdec (snd kx) 0 then false else true)
                               (combine (seq 0 (n * n)) (vec (mkMat n n (fun i j => if Nat.leb i j then 1 else 0 : F)))))) 0%nat).
    intros k Hk. apply in_map_iff in Hk. destruct Hk as ([k' x] & E & Hk). cbn in E. subst k'.
    apply filter_In in Hk. destruct Hk as [Hk _]. apply in_combine_l in Hk. apply in_seq in Hk. lia.
  Qed.

  Lemma map_nth_seq {A B} (f : A -> B) (l : list A) d :
    map (fun r => f (nth r l d)) (seq 0 (length l)) = map f l.
  Proof.
    apply nth_error_ext; [rewrite !map_length, seq_length; reflexivity|].
    intros k. rewrite map_length, seq_length. intros Hk.
    rewrite (map_nth_error _ _ _ (@nth_error_seq 0 (length l) k Hk)).
    cbn [Nat.add]. rewrite (map_nth_error f k l (nth_error_nth' l d Hk)). reflexivity.
  Qed.

  Lemma elimination_aux (A : mat F) : nr A = nc A ->
    exists v, vecp A = Ok v /\ matvec (elimination_matrix (nr A)) (vec A) = Ok v.
  Proof.
    intros Hsq. eexists. split; [apply vecp_ok; exact Hsq|].
    unfold elimination_matrix.
    rewrite rowsel_matvec.
    - f_equal.
      rewrite (map_nth_seq (fun k => nth k (vec A) 0)).
      rewrite <- triu_fm. unfold triu_idxs_by_col, get_idxs_by.
      unfold vec. cbn [nr nc ent]. rewrite <- Hsq.
      replace (nr A * nr A)%nat with (length (all_idxs (nr A) (nr A)))
        by (rewrite all_idxs_fm, fm_length, sumw_const; reflexivity).
      apply (elim_sel (fun ij => if fst ij <=? snd ij then 1 else 0)
                      (fun ij => ent A (fst ij) (snd ij))
                      (fun ij => fst ij <=? snd ij) (all_idxs (nr A) (nr A))
                      ) with (s := 0%nat) (pre := []).
      + intros [i j] _. cbn [fst snd]. destruct (i <=? j).
        * destruct (fdec 1 0) as [C|]; [destruct (fo_neq_fz C)|reflexivity].
        * destruct (fdec (0:F) 0) as [|C]; [reflexivity|destruct C; reflexivity].
      + reflexivity.
    - rewrite vec_length, Hsq. reflexivity.
    - intros r Hr. apply elim_sel_bound. exact Hr.
  Qed.

  (** ** Commutation. *)
  Definition comm_indices (p q : nat) : list nat :=
    flat_map (fun i => map (fun j => (i + p * j)%nat) (seq 0 q)) (seq 0 p).

  Lemma comm_indices_fm p q :
    comm_indices p q = map (fun ji => (snd ji + p * fst ji)%nat) (fm (fun _ => q) p).
  Proof.
    unfold comm_indices, fm. rewrite flat_map_concat_map, flat_map_concat_map, concat_map, map_map.
    f_equal. apply map_ext. intros i. rewrite map_map. reflexivity.
  Qed.

  Lemma comm_nth p q i j : i < p -> j < q -> nth_error (comm_indices p q) (i * q + j) = Some (i + p * j)%nat.
  Proof.
    intros Hi Hj. rewrite comm_indices_fm.
    pose proof (@fm_nth_error (fun _ => q) p i j Hi Hj) as E. rewrite sumw_const in E.
    rewrite (map_nth_error _ _ _ E). reflexivity.
  Qed.

  Lemma div_mod_pos2 p q r : r < p * q -> exists i j, i < p /\ j < q /\ r = (i * q + j)%nat.
  Proof.
    intros H. exists (r / q)%nat, (r mod q)%nat.
    assert (q <> 0)%nat by (intros ->; lia).
    split; [apply Nat.div_lt_upper_bound; lia|]. split; [apply Nat.mod_upper_bound; lia|].
    pose proof (Nat.div_mod r q H0). lia.
  Qed.

  Lemma commutation_aux (A : mat F) :
    matvec (commutation_matrix (nr A) (nc A)) (vec A) = Ok (vec (transpose A)).
  Proof.
    unfold commutation_matrix. fold (comm_indices (nr A) (nc A)).
    rewrite rowsel_matvec.
    - f_equal. apply nth_error_ext.
      + rewrite map_length, seq_length, vec_length. reflexivity.
      + intros r. rewrite map_length, seq_length. intros Hr.
        rewrite (map_nth_error _ _ _ (@nth_error_seq 0 _ r Hr)). cbn [Nat.add].
        destruct (div_mod_pos2 _ _ Hr) as (i & j & Hi & Hj & ->).
        rewrite (nth_error_nth _ _ _ (comm_nth Hi Hj)).
        pose proof (@vec_nth_error F (transpose A) j i Hj Hi) as ET. cbn [transpose nr nc ent] in ET.
        change (nr (transpose A)) with (nc A) in ET. rewrite ET. f_equal.
        apply nth_error_nth.
        replace (i + nr A * j)%nat with (j * nr A + i)%nat by lia.
        apply vec_nth_error; assumption.
    - rewrite vec_length. lia.
    - intros r Hr. destruct (div_mod_pos2 _ _ Hr) as (i & j & Hi & Hj & ->).
      rewrite (nth_error_nth _ _ _ (comm_nth Hi Hj)). nia.
  Qed.

  (** ** unvec. *)
  Lemma unvec_vec_aux (A : mat F) : nr A = nc A -> exists M, unvec (vec A) = Ok M /\ meq M A.
  Proof.
    intros Hsq. unfold unvec. rewrite vec_length, <- Hsq.
    assert (S1 : Nat.sqrt (nr A * nr A) = nr A) by apply Nat.sqrt_square.
    rewrite S1, Nat.eqb_refl. cbn [negb]. eexists; split; [reflexivity|].
    unfold meq; cbn [nr nc ent]. repeat split; auto. intros i j Hi Hj.
    apply nth_error_nth. apply vec_nth_error; lia.
  Qed.
  Lemma vec_unvec_aux (v : list F) n : length v = (n * n)%nat -> exists M, unvec v = Ok M /\ vec M = v.
  Proof.
    intros Hl. unfold unvec. rewrite Hl.
    assert (S1 : Nat.sqrt (n * n) = n) by apply Nat.sqrt_square.
    rewrite S1, Nat.eqb_refl. cbn [negb]. eexists; split; [reflexivity|].
    apply nth_error_ext.
    - rewrite vec_length. cbn [nr nc]. lia.
    - rewrite vec_length. cbn [nr nc]. intros k Hk.
      destruct (div_mod_pos _ Hk) as (j & i & Hj & Hi & ->).
      pose proof (@vec_nth_error F (mkMat n n (fun i j : nat => nth (j * n + i) v 0)) i j Hi Hj) as E.
      cbn [nr nc ent] in E. rewrite E.
      symmetry. rewrite (nth_error_nth' v 0) by lia. reflexivity.
  Qed.
  Lemma unvec_rejects (v : list F) : (forall n, length v <> (n * n)%nat) -> unvec v = Err EValueError.
  Proof.
    intros H. unfold unvec.
    rewrite (proj2 (Nat.eqb_neq _ _)); [reflexivity|]. intros C. apply (H (Nat.sqrt (length v))). congruence.
  Qed.
  Lemma unvecp_rejects (v : list F) : (forall n, length v <> tri n) -> unvecp v = Err EValueError.
  Proof.
    intros H. unfold unvecp.
    rewrite (proj2 (Nat.eqb_neq _ _)); [reflexivity|].
    rewrite triu_fm, fm_length, sumw_S. intros C. exact (H _ (eq_sym C)).
  Qed.
End L2.

(** ** Statements in terms of the functions only. *)
Section L3.
  Context {F : Type} {K : Fld F}.
  Open Scope fld_scope.
  Hypothesis char2 : (1 + 1 : F) <> 0.

  Lemma vecp_rejects (A : mat F) : vecp A = Err EException <-> nr A <> nc A.
  Proof.
    unfold vecp. destruct (Nat.eqb_spec (nr A) (nc A)); cbn [negb]; split; intros H; try discriminate; auto; contradiction.
  Qed.

  Lemma unvecp_sym (v : list F) M : unvecp v = Ok M -> msym M.
  Proof.
    unfold unvecp. destruct (negb _); [discriminate|]. intros E; injection E as <-.
    split; [reflexivity|]. cbn [nr nc ent]. intros i j _ _.
    rewrite (Nat.eqb_sym j i).
    assert (C : forall x y : F, x + y = y + x) by (intros; apply (F_R fth)).
    rewrite (C (assign_idxs _ _ _ i j)). reflexivity.
  Qed.

  Lemma unvecp_size (v : list F) M : unvecp v = Ok M -> nr M = nc M /\ length v = tri (nr M).
  Proof.
    unfold unvecp.
    destruct (Nat.eqb_spec (length (triu_idxs_by_col (triangular_root (length v)))) (length v)) as [E|]; cbn [negb]; [|discriminate].
    intros H; injection H as <-. cbn [nr nc]. split; [reflexivity|].
    rewrite triu_fm, fm_length, sumw_S in E. congruence.
  Qed.

  Lemma enum_symm_pos n d : get_enumeration_map (n, n) true = Ok d ->
    (forall i j, i <= j -> j < n -> dget pair_eqb d (i, j) = Some (tri j + i)%nat) /\
    (forall i j k, In ((i, j), k) d -> i <= j /\ j < n /\ k = (tri j + i)%nat) /\
    map snd d = seq 0 (tri n).
  Proof.
    rewrite enum_symm_ok. intros E; injection E as <-.
    assert (Hl : length (fm S n) = length (seq 0 (length (fm S n)))) by (rewrite seq_length; reflexivity).
    assert (Hget : forall i j, i <= j -> j < n ->
       dget pair_eqb (combine (fm S n) (seq 0 (length (fm S n)))) (i, j) = Some (tri j + i)%nat).
    { intros i j Hij Hj. apply enum_lookup; [apply NoDup_fm|].
      pose proof (@fm_nth_error S n j i Hj ltac:(lia)) as N. rewrite sumw_S in N. exact N. }
    split; [exact Hget|split].
    - intros i j k Hin.
      pose proof (in_combine_l _ _ _ _ Hin) as Hf. apply In_fm in Hf.
      split; [lia|split;[lia|]].
      assert (G : dget pair_eqb (combine (fm S n) (seq 0 (length (fm S n)))) (i, j) = Some k).
      { apply dget_NoDup_In; [apply pair_eqb_spec| |exact Hin].
        unfold dkeys. rewrite (proj1 (dkeys_combine _ _ Hl)). apply NoDup_fm. }
      rewrite Hget in G by lia. congruence.
    - rewrite (proj2 (dkeys_combine _ _ Hl)), fm_length, sumw_S. reflexivity.
  Qed.

  Lemma enum_full_pos n m d : get_enumeration_map (n, m) false = Ok d ->
    (forall i j, i < n -> j < m -> dget pair_eqb d (i, j) = Some (j * n + i)%nat) /\
    (forall i j k, In ((i, j), k) d -> i < n /\ j < m /\ k = (j * n + i)%nat) /\
    map snd d = seq 0 (m * n).
  Proof.
    rewrite enum_full_ok. intros E; injection E as <-.
    set (l := fm (fun _ => n) m).
    assert (Hl : length l = length (seq 0 (length l))) by (rewrite seq_length; reflexivity).
    assert (Hget : forall i j, i < n -> j < m ->
       dget pair_eqb (combine l (seq 0 (length l))) (i, j) = Some (j * n + i)%nat).
    { intros i j Hi Hj. apply enum_lookup; [apply NoDup_fm|].
      pose proof (@fm_nth_error (fun _ => n) m j i Hj Hi) as N. rewrite sumw_const in N. exact N. }
    split; [exact Hget|split].
    - intros i j k Hin.
      pose proof (in_combine_l _ _ _ _ Hin) as Hf. apply In_fm in Hf.
      split; [lia|split;[lia|]].
      assert (G : dget pair_eqb (combine l (seq 0 (length l))) (i, j) = Some k).
      { apply dget_NoDup_In; [apply pair_eqb_spec| |exact Hin].
        unfold dkeys. rewrite (proj1 (dkeys_combine _ _ Hl)). apply NoDup_fm. }
      rewrite Hget in G by lia. congruence.
    - rewrite (proj2 (dkeys_combine _ _ Hl)). unfold l. rewrite fm_length, sumw_const. reflexivity.
  Qed.

  Lemma enum_symm_vecp_aux (A : mat F) v d :
    vecp A = Ok v -> get_enumeration_map (nr A, nc A) true = Ok d ->
    (forall i j, i <= j -> j < nr A ->
       exists r, dget pair_eqb d (i, j) = Some r /\ nth_error v r = Some (ent A i j)) /\
    (forall i j r, In ((i, j), r) d -> i <= j /\ j < nr A) /\
    map snd d = seq 0 (length v) /\ NoDup (map fst d) /\ (2 * length v = nr A * (nr A + 1))%nat.
  Proof.
    intros Hv Hd.
    assert (Hsq : nr A = nc A).
    { destruct (Nat.eq_dec (nr A) (nc A)) as [e|n]; [exact e|].
      apply (vecp_rejects A) in n. congruence. }
    rewrite <- Hsq in Hd. pose proof (enum_symm_pos _ Hd) as (H1 & H2 & H3).
    split; [|split; [|split; [|split]]].
    - intros i j Hij Hj. exists (tri j + i)%nat. split; [apply H1; assumption|].
      apply (vecp_nth _ Hv Hij Hj).
    - intros i j r Hin. destruct (H2 _ _ _ Hin) as (a & b & _). split; assumption.
    - rewrite H3, (vecp_length _ Hv). reflexivity.
    - rewrite enum_symm_ok in Hd. injection Hd as <-.
      rewrite (proj1 (dkeys_combine _ _ (eq_sym (seq_length _ _)))). apply NoDup_fm.
    - rewrite (vecp_length _ Hv). apply tri_double.
  Qed.

  Lemma enum_full_vec_aux (A : mat F) d :
    get_enumeration_map (nr A, nc A) false = Ok d ->
    (forall i j, i < nr A -> j < nc A ->
       exists r, dget pair_eqb d (i, j) = Some r /\ nth_error (vec A) r = Some (ent A i j)) /\
    (forall i j r, In ((i, j), r) d -> i < nr A /\ j < nc A) /\
    map snd d = seq 0 (length (vec A)) /\ NoDup (map fst d) /\ length (vec A) = (nr A * nc A)%nat.
  Proof.
    intros Hd. pose proof (enum_full_pos Hd) as (H1 & H2 & H3).
    split; [|split; [|split; [|split]]].
    - intros i j Hi Hj. exists (j * nr A + i)%nat. split; [apply H1; assumption|].
      apply vec_nth_error; assumption.
    - intros i j r Hin. destruct (H2 _ _ _ Hin) as (a & b & _). split; assumption.
    - rewrite H3, vec_length. reflexivity.
    - rewrite enum_full_ok in Hd. injection Hd as <-.
      rewrite (proj1 (dkeys_combine _ _ (eq_sym (seq_length _ _)))). apply NoDup_fm.
    - rewrite vec_length. apply Nat.mul_comm.
  Qed.

  Lemma enum_symm_rejects n m : get_enumeration_map (n, m) true = Err EException <-> n <> m.
  Proof.
    unfold get_enumeration_map. destruct (Nat.eqb_spec n m); cbn [negb]; split; intros H; try discriminate; auto; contradiction.
  Qed.

  Lemma unvecp_ok_iff (v : list F) :
    (exists M, unvecp v = Ok M) <-> (exists n, 2 * length v = n * (n + 1))%nat.
  Proof.
    split.
    - intros (M & E). destruct (unvecp_size _ E) as [_ L]. exists (nr M). rewrite L. apply tri_double.
    - intros (n & E). assert (L : length v = tri n) by (pose proof (tri_double n); lia).
      destruct (unvecp_ok char2 v n L) as (M & EM & _). exists M; exact EM.
  Qed.

  Lemma vecp_unvecp_all (v : list F) M : unvecp v = Ok M -> vecp M = Ok v.
  Proof.
    intros E. destruct (unvecp_size _ E) as [_ L].
    pose proof (vecp_unvecp_aux char2 v _ L) as H. rewrite E in H. exact H.
  Qed.

  Lemma unvecp_vecp_all (A : mat F) v : msym A -> vecp A = Ok v ->
    exists M, unvecp v = Ok M /\ meq M A.
  Proof.
    intros Hs Hv. destruct (unvecp_vecp_aux char2 Hs) as (M & E & HM). rewrite Hv in E. exists M; auto.
  Qed.

  Lemma dup_all (A : mat F) v : msym A -> vecp A = Ok v ->
    exists D, duplication_matrix (nr A) = Ok D /\ matvec D v = Ok (vec A).
  Proof.
    intros Hs Hv. pose proof (duplication_aux char2 Hs) as H. rewrite Hv in H. cbn [rbind] in H.
    destruct (duplication_matrix (nr A)) as [D|e]; [|discriminate]. exists D. auto.
  Qed.
  Lemma elim_all (A : mat F) v : vecp A = Ok v -> matvec (elimination_matrix (nr A)) (vec A) = Ok v.
  Proof.
    intros Hv. assert (Hsq : nr A = nc A).
    { destruct (Nat.eq_dec (nr A) (nc A)) as [e|n]; [exact e|]. apply (vecp_rejects A) in n. congruence. }
    destruct (elimination_aux A Hsq) as (w & E1 & E2). congruence.
  Qed.
End L3.
