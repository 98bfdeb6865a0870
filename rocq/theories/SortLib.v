(** Sorting by a boolean order, and the order on strings.
    No SEYFERT code here: this is what [sort_index], [np.unique], [sorted] use. *)
From Verif Require Import Base.
From Coq Require Import Permutation Sorted.

Section Sort.
  Context {A : Type} (leb : A -> A -> bool).
  Fixpoint ins (x : A) (l : list A) : list A :=
    match l with
    | [] => [x]
    | y :: l' => if leb x y then x :: y :: l' else y :: ins x l'
    end.
  Definition isort (l : list A) : list A := fold_right ins [] l.

  Lemma ins_perm x l : Permutation (ins x l) (x :: l).
  Proof.
    induction l as [|y l IH]; cbn; [reflexivity|].
    destruct (leb x y); [reflexivity|].
    rewrite IH. apply perm_swap.
  Qed.
  Lemma isort_perm l : Permutation (isort l) l.
  Proof.
    induction l as [|x l IH]; cbn; [reflexivity|].
    rewrite ins_perm. constructor. exact IH.
  Qed.
  Lemma isort_In l x : In x (isort l) <-> In x l.
  Proof.
    split; apply Permutation_in; [apply isort_perm|apply Permutation_sym, isort_perm].
  Qed.
  Lemma isort_NoDup l : NoDup l -> NoDup (isort l).
  Proof. apply Permutation_NoDup, Permutation_sym, isort_perm. Qed.
  Lemma isort_length l : length (isort l) = length l.
  Proof. apply Permutation_length, isort_perm. Qed.

  Hypothesis total : forall x y, leb x y = true \/ leb y x = true.
  Hypothesis trans : forall x y z, leb x y = true -> leb y z = true -> leb x z = true.
  Definition le x y := leb x y = true.

  Lemma ins_HdRel a x l : le a x -> HdRel le a l -> HdRel le a (ins x l).
  Proof.
    intros Hx Hl. destruct l as [|y l]; cbn; [constructor; exact Hx|].
    inversion Hl; subst. destruct (leb x y); constructor; assumption.
  Qed.
  Lemma ins_sorted x l : Sorted le l -> Sorted le (ins x l).
  Proof.
    induction l as [|y l IH]; intros H; cbn; [repeat constructor|].
    inversion H; subst. destruct (leb x y) eqn:E.
    - constructor; [exact H|constructor; exact E].
    - constructor; [apply IH; assumption|].
      apply ins_HdRel; [|assumption].
      destruct (total x y) as [C|C]; [congruence|exact C].
  Qed.
  Lemma isort_sorted l : Sorted le (isort l).
  Proof. induction l as [|x l IH]; cbn; [constructor|]. apply ins_sorted; exact IH. Qed.
  Lemma isort_ssorted l : StronglySorted le (isort l).
  Proof. apply Sorted_StronglySorted; [intros x y z; apply trans|apply isort_sorted]. Qed.

  Hypothesis antisym : forall x y, leb x y = true -> leb y x = true -> x = y.
  Lemma ssorted_unique l m : StronglySorted le l -> StronglySorted le m -> Permutation l m -> l = m.
  Proof.
    revert m. induction l as [|x l IH]; intros m Hl Hm Hp.
    - apply Permutation_nil in Hp. congruence.
    - destruct m as [|y m]; [apply Permutation_sym, Permutation_nil in Hp; discriminate|].
      inversion Hl as [|? ? Hl1 Hl2]; subst. inversion Hm as [|? ? Hm1 Hm2]; subst.
      assert (x = y) as ->.
      { assert (In y (x :: l)) as Hy by (eapply Permutation_in; [apply Permutation_sym; exact Hp|left; reflexivity]).
        assert (In x (y :: m)) as Hx by (eapply Permutation_in; [exact Hp|left; reflexivity]).
        destruct Hy as [e|Hy]; [exact e|]. destruct Hx as [e|Hx]; [congruence|].
        rewrite Forall_forall in Hl2, Hm2. apply antisym; [apply Hl2; exact Hy|apply Hm2; exact Hx]. }
      f_equal. apply IH; try assumption. apply Permutation_cons_inv with (a := y). exact Hp.
  Qed.
  Lemma isort_unique l m : Permutation l m -> isort l = isort m.
  Proof.
    intros H. apply ssorted_unique; try apply isort_ssorted.
    rewrite !isort_perm. exact H.
  Qed.
  Lemma isort_fix l : StronglySorted le l -> isort l = l.
  Proof. intros H. apply ssorted_unique; [apply isort_ssorted|exact H|apply isort_perm]. Qed.
  Lemma isort_idem l : isort (isort l) = isort l.
  Proof. apply isort_fix, isort_ssorted. Qed.
End Sort.

(** Python's order on [str] (code points; for ASCII text these are bytes). *)
Lemma ascii_compare_eq a b : Ascii.compare a b = Eq -> a = b.
Proof. unfold Ascii.compare. intros H. apply N.compare_eq in H.
  rewrite <- (ascii_N_embedding a), <- (ascii_N_embedding b), H. reflexivity. Qed.

Lemma str_leb_cons a s b t :
  String.leb (String a s) (String b t) =
  match Ascii.compare a b with Lt => true | Gt => false | Eq => String.leb s t end.
Proof. unfold String.leb. cbn. destruct (Ascii.compare a b); reflexivity. Qed.

Lemma str_leb_trans x y z : String.leb x y = true -> String.leb y z = true -> String.leb x z = true.
Proof.
  revert y z. induction x as [|a x IH]; intros [|b y] [|c z]; try (intros; cbn in *; congruence).
  - rewrite !str_leb_cons. intros H1 H2.
    destruct (Ascii.compare a b) eqn:E1; [|destruct (Ascii.compare b c) eqn:E2|discriminate].
    + apply ascii_compare_eq in E1. subst b. destruct (Ascii.compare a c); try assumption. eapply IH; eassumption.
    + apply ascii_compare_eq in E2. subst c. rewrite E1. reflexivity.
    + unfold Ascii.compare in *. apply N.compare_lt_iff in E1, E2.
      assert (E : (N_of_ascii a ?= N_of_ascii c)%N = Lt) by (apply N.compare_lt_iff; eapply N.lt_trans; eassumption).
      rewrite E. reflexivity.
    + discriminate.
Qed.

Definition ssort : list string -> list string := isort String.leb.

Lemma ssort_perm l : Permutation (ssort l) l.
Proof. apply isort_perm. Qed.
Lemma ssort_In l x : In x (ssort l) <-> In x l.
Proof. apply isort_In. Qed.
Lemma ssort_NoDup l : NoDup l -> NoDup (ssort l).
Proof. apply isort_NoDup. Qed.
Lemma ssort_unique l m : Permutation l m -> ssort l = ssort m.
Proof. apply isort_unique; [apply String.leb_total|apply str_leb_trans|apply String.leb_antisym]. Qed.
Lemma ssort_idem l : ssort (ssort l) = ssort l.
Proof. apply isort_idem; [apply String.leb_total|apply str_leb_trans|apply String.leb_antisym]. Qed.

(** Boolean membership in a list of strings. *)
Definition smem (x : string) (l : list string) : bool := existsb (String.eqb x) l.
Lemma smem_In x l : smem x l = true <-> In x l.
Proof.
  unfold smem. rewrite existsb_exists. split.
  - intros (y & Hy & E). apply String.eqb_eq in E. subst; exact Hy.
  - intros H. exists x. split; [exact H|apply String.eqb_refl].
Qed.
Lemma smem_spec x l : reflect (In x l) (smem x l).
Proof. apply iff_reflect. symmetry. apply smem_In. Qed.
Lemma smem_false x l : smem x l = false <-> ~ In x l.
Proof. rewrite <- smem_In. destruct (smem x l); split; congruence. Qed.
