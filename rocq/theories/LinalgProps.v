(** Properties C01-C03: vectorisation of matrices. *)
From Verif Require Import Base LinalgModel LinalgLemmas LinalgLemmas2.
From Coq Require Import Qcanon.
Close Scope Qc_scope.

(** Specification vocabulary: [msym A] (square and A[i,j]=A[j,i]) and [meq A B]
    (same shape, same entries) are in LinalgLemmas. *)

(** A concrete symmetric 3x3 matrix, and a 2x3 one. *)
Definition exA : mat Qc := mkMat 3 3 (fun i j => qz (Z.of_nat (i * j + i + j))).
Definition exB : mat Qc := mkMat 2 3 (fun i j => qz (Z.of_nat (10 * i + j))).
Lemma exA_sym : msym exA.
Proof. split; [reflexivity|]. intros i j _ _. unfold exA; cbn [ent]. do 2 f_equal. lia. Qed.
Lemma Qc_char2 : (1 + 1 : Qc)%F <> 0%F.
Proof. intros C. discriminate C. Qed.

Section Generic.
Context {F : Type} {K : Fld F} (char2 : (1 + 1 : F)%F <> 0%F).

Theorem C01_unvecp_vecp (A : mat F) v :
  msym A -> vecp A = Ok v -> exists M, unvecp v = Ok M /\ meq M A.
Proof. exact (@unvecp_vecp_all F K char2 A v). Qed.

Theorem C01_vecp_unvecp (v : list F) M : unvecp v = Ok M -> vecp M = Ok v.
Proof. exact (@vecp_unvecp_all F K char2 v M). Qed.

Theorem C01_unvecp_defined (v : list F) :
  (exists M, unvecp v = Ok M) <-> (exists n, 2 * length v = n * (n + 1)).
Proof. exact (unvecp_ok_iff char2 v). Qed.

Theorem C01_unvecp_symmetric (v : list F) M : unvecp v = Ok M -> msym M.
Proof. exact (unvecp_sym v (M := M)). Qed.

Theorem C01_vecp_rejects_non_square (A : mat F) : vecp A = Err EException <-> nr A <> nc A.
Proof. exact (vecp_rejects A). Qed.

Theorem C02_symmetric_enumeration (A : mat F) v d :
  vecp A = Ok v -> get_enumeration_map (nr A, nc A) true = Ok d ->
  (forall i j, i <= j -> j < nr A ->
     exists r, dget pair_eqb d (i, j) = Some r /\ nth_error v r = Some (ent A i j)) /\
  (forall i j r, In ((i, j), r) d -> i <= j /\ j < nr A) /\
  map snd d = seq 0 (length v) /\ NoDup (map fst d) /\ 2 * length v = nr A * (nr A + 1).
Proof. exact (enum_symm_vecp_aux A (v := v) (d := d)). Qed.

Theorem C02_full_enumeration (A : mat F) d :
  get_enumeration_map (nr A, nc A) false = Ok d ->
  (forall i j, i < nr A -> j < nc A ->
     exists r, dget pair_eqb d (i, j) = Some r /\ nth_error (vec A) r = Some (ent A i j)) /\
  (forall i j r, In ((i, j), r) d -> i < nr A /\ j < nc A) /\
  map snd d = seq 0 (length (vec A)) /\ NoDup (map fst d) /\ length (vec A) = nr A * nc A.
Proof. exact (enum_full_vec_aux A (d := d)). Qed.

Theorem C02_enumeration_defined n m :
  (get_enumeration_map (n, m) true = Err EException <-> n <> m) /\
  exists d, get_enumeration_map (n, m) false = Ok d.
Proof. exact (conj (enum_symm_rejects n m) (ex_intro _ _ eq_refl)). Qed.

Theorem C03_duplication (A : mat F) v : msym A -> vecp A = Ok v ->
  exists D, duplication_matrix (nr A) = Ok D /\ matvec D v = Ok (vec A).
Proof. exact (@dup_all F K char2 A v). Qed.

Theorem C03_elimination (A : mat F) v :
  vecp A = Ok v -> matvec (elimination_matrix (nr A)) (vec A) = Ok v.
Proof. exact (@elim_all F K A v). Qed.

Theorem C03_commutation (A : mat F) :
  matvec (commutation_matrix (nr A) (nc A)) (vec A) = Ok (vec (transpose A)).
Proof. exact (commutation_aux A). Qed.

Theorem C03_unvec_vec (A : mat F) : nr A = nc A -> exists M, unvec (vec A) = Ok M /\ meq M A.
Proof. exact (unvec_vec_aux A). Qed.
End Generic.

Print Assumptions C01_unvecp_vecp.
Print Assumptions C01_vecp_unvecp.
Print Assumptions C01_unvecp_defined.
Print Assumptions C01_unvecp_symmetric.
Print Assumptions C01_vecp_rejects_non_square.
Print Assumptions C02_symmetric_enumeration.
Print Assumptions C02_full_enumeration.
Print Assumptions C02_enumeration_defined.
Print Assumptions C03_duplication.
Print Assumptions C03_elimination.
Print Assumptions C03_commutation.
Print Assumptions C03_unvec_vec.

(** Concrete cases meeting the hypotheses: rationals, size 3. *)
Example C01_C02_C03_hypotheses_hold :
  msym exA /\ (1 + 1 : Qc)%F <> 0%F /\
  (exists v, vecp exA = Ok v /\ length v = 6 /\ exists M, unvecp v = Ok M) /\
  (exists d, get_enumeration_map (nr exA, nc exA) true = Ok d /\ length d = 6) /\
  (exists d, get_enumeration_map (nr exB, nc exB) false = Ok d /\ length d = 6).
Proof.
  split; [exact exA_sym|]. split; [exact Qc_char2|]. split; [|split].
  - eexists; split; [reflexivity|]. split; [reflexivity|]. eexists; reflexivity.
  - eexists; split; reflexivity.
  - eexists; split; reflexivity.
Qed.
Example C01_rejects_example : vecp exB = Err EException /\ unvecp [fo; fo] = Err EValueError (A := mat Qc).
Proof. split; reflexivity. Qed.
