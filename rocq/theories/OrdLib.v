(** Ordered-field arithmetic used by the numerical properties: signs, absolute
    values, numerals.  No SEYFERT code. *)
From Verif Require Import Base SortLib ParamModel EvalModel EvalSpec EllLemmas.
From Coq Require Import Field Sorted Permutation.
Open Scope list_scope.

Section Ord.
  Context {F : Type} {K : Fld F} {O : OFld (F := F)}.
  Add Field FldOrd : (fth (F := F)).
  Open Scope fld_scope.
  Implicit Types x y z a b c : F.

  Lemma fle_lt_dec x y : {fle x y} + {flt y x}.
  Proof.
    destruct (fle_dec x y) as [H|H]; [left; exact H|right]. split.
    - destruct (fle_total x y) as [C|C]; [contradiction|exact C].
    - intros E. apply H. rewrite E. apply fle_refl.
  Qed.
  Lemma flt_not_le x y : flt x y -> ~ fle y x.
  Proof. intros [A B] C. apply B. apply fle_antisym; assumption. Qed.
  Lemma not_le_lt x y : ~ fle x y -> flt y x.
  Proof. intros H. destruct (fle_lt_dec x y); [contradiction|assumption]. Qed.
  Lemma flt_le x y : flt x y -> fle x y.
  Proof. intros [H _]; exact H. Qed.
  Lemma fle_lt_trans x y z : fle x y -> flt y z -> flt x z.
  Proof.
    intros A [B N]. split; [eapply fle_trans; eassumption|]. intros E. subst z. apply N. apply fle_antisym; assumption.
  Qed.
  Lemma flt_le_trans x y z : flt x y -> fle y z -> flt x z.
  Proof.
    intros [A N] B. split; [eapply fle_trans; eassumption|]. intros E. subst z. apply N. apply fle_antisym; assumption.
  Qed.
  Lemma flt_trichotomy x y : {flt x y} + {x = y} + {flt y x}.
  Proof.
    destruct (fdec x y) as [e|n]; [left; right; exact e|].
    destruct (fle_lt_dec x y) as [H|H]; [left; left; split; assumption|right; exact H].
  Qed.
  Lemma flt_sub_iff x y : flt x y <-> flt 0 (y - x).
  Proof.
    split; intros [A N]; split.
    - apply (proj1 (fle_sub_iff _ _)); exact A.
    - intros E. apply N. transitivity (y - (y - x)); [ring|]. rewrite <- E. ring.
    - apply (proj2 (fle_sub_iff _ _)); exact A.
    - intros E. apply N. rewrite E. ring.
  Qed.
  Lemma flt_add_r x y z : flt x y -> flt (x + z) (y + z).
  Proof. intros H. apply flt_sub_iff. replace (y + z - (x + z)) with (y - x) by ring. apply flt_sub_iff in H. exact H. Qed.
  Lemma flt_add_l' x y z : flt x y -> flt (z + x) (z + y).
  Proof. intros H. apply flt_sub_iff. replace (z + y - (z + x)) with (y - x) by ring. apply flt_sub_iff in H. exact H. Qed.
  Lemma flt_add2 a b x y : flt a b -> flt x y -> flt (a + x) (b + y).
  Proof. intros A B. apply flt_trans with (b + x); [apply flt_add_r; exact A|apply flt_add_l'; exact B]. Qed.
  Lemma fle_opp x y : fle x y -> fle (- y) (- x).
  Proof. intros H. apply (proj2 (fle_sub_iff _ _)). replace (- x - - y) with (y - x) by ring. apply (proj1 (fle_sub_iff _ _)); exact H. Qed.
  Lemma flt_opp x y : flt x y -> flt (- y) (- x).
  Proof. intros H. apply flt_sub_iff. replace (- x - - y) with (y - x) by ring. apply flt_sub_iff in H. exact H. Qed.
  Lemma f_zero_prod x y : x * y = 0 -> x = 0 \/ y = 0.
  Proof.
    intros H. destruct (fdec x 0) as [e|n]; [left; exact e|right].
    transitivity (x * y / x); [field; exact n|]. rewrite H. field. exact n.
  Qed.
  Lemma flt_mul x y : flt 0 x -> flt 0 y -> flt 0 (x * y).
  Proof.
    intros [A N] [B M]. split; [apply fle_mul; assumption|]. intros E. symmetry in E.
    destruct (f_zero_prod _ _ E) as [e|e]; [apply N|apply M]; symmetry; exact e.
  Qed.
  Lemma flt_mul_r x y z : flt 0 z -> flt x y -> flt (x * z) (y * z).
  Proof.
    intros Hz H. apply flt_sub_iff. replace (y * z - x * z) with ((y - x) * z) by ring.
    apply flt_mul; [|exact Hz]. apply flt_sub_iff in H. exact H.
  Qed.
  Lemma fle_mul_r x y z : fle 0 z -> fle x y -> fle (x * z) (y * z).
  Proof.
    intros Hz H. apply (proj2 (fle_sub_iff _ _)). replace (y * z - x * z) with ((y - x) * z) by ring.
    apply fle_mul; [|exact Hz]. apply (proj1 (fle_sub_iff _ _)) in H. exact H.
  Qed.
  Lemma flt_mul_neg x y z : flt z 0 -> flt x y -> flt (y * z) (x * z).
  Proof.
    intros Hz H. apply flt_sub_iff. replace (x * z - y * z) with ((y - x) * (- z)) by ring.
    apply flt_mul; [apply flt_sub_iff in H; exact H|].
    apply flt_opp in Hz. replace (- (0 : F)) with (0 : F) in Hz by ring. exact Hz.
  Qed.
  Lemma flt_0_1 : flt 0 (1 : F).
  Proof. split; [apply fle_0_1|]. intros E. apply (F_1_neq_0 (fth (F := F))). symmetry. exact E. Qed.
  Lemma flt_neq x y : flt x y -> x <> y.
  Proof. intros [_ N]; exact N. Qed.
  Lemma flt_neq' x y : flt x y -> y <> x.
  Proof. intros [_ N] E. apply N. symmetry. exact E. Qed.
  Lemma flt_inv x : flt 0 x -> flt 0 (1 / x).
  Proof.
    intros H. pose proof (flt_neq' _ _ H) as N. destruct (flt_trichotomy 0 (1 / x)) as [[A|A]|A]; [exact A| |].
    - exfalso. apply (flt_neq' _ _ flt_0_1). transitivity (1 / x * x); [field; exact N|]. rewrite <- A. ring.
    - exfalso. assert (B : flt ((1 / x) * x) (0 * x)) by (apply flt_mul_r; assumption).
      replace ((1 / x) * x) with (1 : F) in B by (field; exact N). replace (0 * x) with (0 : F) in B by ring.
      exact (flt_not_le _ _ B fle_0_1).
  Qed.
  Lemma fdiv_pos x y : flt 0 x -> flt 0 y -> flt 0 (x / y).
  Proof.
    intros Hx Hy. replace (x / y) with (x * (1 / y)) by (field; apply flt_neq'; exact Hy).
    apply flt_mul; [exact Hx|apply flt_inv; exact Hy].
  Qed.

  (** Absolute value. *)
  Definition fabs x : F := if fle_dec 0 x then x else - x.
  Lemma fabs_nonneg x : fle 0 (fabs x).
  Proof.
    unfold fabs. destruct (fle_dec 0 x) as [H|H]; [exact H|]. apply not_le_lt in H. apply flt_le in H.
    apply fle_opp in H. replace (- (0 : F)) with (0 : F) in H by ring. exact H.
  Qed.
  Lemma fabs_pos x : fle 0 x -> fabs x = x.
  Proof. intros H. unfold fabs. destruct (fle_dec 0 x); [reflexivity|contradiction]. Qed.
  Lemma fabs_zero : fabs 0 = 0.
  Proof. apply fabs_pos, fle_refl. Qed.
  Lemma fabs_opp x : fabs (- x) = fabs x.
  Proof.
    unfold fabs. destruct (fle_dec 0 (- x)) as [A|A], (fle_dec 0 x) as [B|B]; try reflexivity.
    - assert (x = 0).
      { apply fle_antisym; [|exact B]. apply fle_opp in A. replace (- - x) with x in A by ring. replace (- (0 : F)) with (0 : F) in A by ring. exact A. }
      subst x. ring.
    - ring.
    - apply not_le_lt in A. apply not_le_lt in B. exfalso. apply flt_opp in A.
      replace (- - x) with x in A by ring. replace (- (0 : F)) with (0 : F) in A by ring. exact (flt_asym _ _ A B).
  Qed.
  Lemma fabs_sub_comm x y : fabs (x - y) = fabs (y - x).
  Proof. rewrite <- fabs_opp. f_equal. ring. Qed.
  Lemma fabs_mul x y : fabs (x * y) = fabs x * fabs y.
  Proof.
    destruct (fle_lt_dec 0 x) as [A|A], (fle_lt_dec 0 y) as [B|B].
    - rewrite !fabs_pos; auto. apply fle_mul; assumption.
    - rewrite (fabs_pos x) by exact A. rewrite <- (fabs_opp y), <- (fabs_opp (x * y)).
      assert (C : fle 0 (- y)). { apply flt_opp in B. replace (- (0:F)) with (0:F) in B by ring. apply flt_le; exact B. }
      replace (- (x * y)) with (x * - y) by ring. rewrite !fabs_pos; auto. apply fle_mul; assumption.
    - rewrite (fabs_pos y) by exact B. rewrite <- (fabs_opp x), <- (fabs_opp (x * y)).
      assert (C : fle 0 (- x)). { apply flt_opp in A. replace (- (0:F)) with (0:F) in A by ring. apply flt_le; exact A. }
      replace (- (x * y)) with (- x * y) by ring. rewrite !fabs_pos; auto. apply fle_mul; assumption.
    - rewrite <- (fabs_opp x), <- (fabs_opp y).
      assert (C : fle 0 (- x)). { apply flt_opp in A. replace (- (0:F)) with (0:F) in A by ring. apply flt_le; exact A. }
      assert (D : fle 0 (- y)). { apply flt_opp in B. replace (- (0:F)) with (0:F) in B by ring. apply flt_le; exact B. }
      replace (x * y) with (- x * - y) by ring. rewrite !fabs_pos; auto. apply fle_mul; assumption.
  Qed.
  Lemma fabs_eq_zero x : fabs x = 0 -> x = 0.
  Proof.
    unfold fabs. destruct (fle_dec 0 x); intros H; [exact H|]. transitivity (- - x); [ring|]. rewrite H. ring.
  Qed.

  (** Natural numbers in the field. *)
  Fixpoint fnat (n : nat) : F := match n with 0%nat => 0 | Datatypes.S m => 1 + fnat m end.
  Lemma fnat_nonneg n : fle 0 (fnat n).
  Proof.
    induction n as [|n IH]; cbn [fnat]; [apply fle_refl|]. replace (0 : F) with (0 + 0 : F) by ring.
    apply fle_add2; [apply fle_0_1|exact IH].
  Qed.
  Lemma fnat_pos n : (0 < n)%nat -> flt 0 (fnat n).
  Proof.
    destruct n as [|n]; [lia|]. intros _. cbn [fnat]. apply flt_le_trans with (1 : F); [apply flt_0_1|].
    apply (proj2 (fle_sub_iff _ _)). replace (1 + fnat n - 1) with (fnat n) by ring. apply fnat_nonneg.
  Qed.
  Lemma fnat_neq n : (0 < n)%nat -> fnat n <> 0.
  Proof. intros H. apply flt_neq', fnat_pos, H. Qed.
  Lemma fnat_add n m : fnat (n + m) = fnat n + fnat m.
  Proof. induction n as [|n IH]; cbn [fnat Nat.add]; [ring|rewrite IH; ring]. Qed.
  Lemma fnat_mul n m : fnat (n * m) = fnat n * fnat m.
  Proof. induction n as [|n IH]; cbn [fnat Nat.mul]; [ring|rewrite fnat_add, IH; ring]. Qed.
  Lemma Fsum_const {A} c (l : list A) : Fsum (fun _ => c) l = fnat (length l) * c.
  Proof. induction l as [|x l IH]; cbn [Fsum length fnat]; [ring|rewrite IH; ring]. Qed.

  (** Comparisons as booleans. *)
  Definition fltb x y : bool := if fle_dec y x then false else true.
  Lemma fltb_iff x y : fltb x y = true <-> flt x y.
  Proof.
    unfold fltb. destruct (fle_dec y x) as [H|H]; split; intros G; try discriminate; try reflexivity.
    - destruct (flt_not_le _ _ G H).
    - apply not_le_lt; exact H.
  Qed.
  Lemma fltb_false x y : fltb x y = false <-> fle y x.
  Proof. unfold fltb. destruct (fle_dec y x); split; intros G; congruence. Qed.
  Definition feqb x y : bool := if fdec x y then true else false.
  Lemma feqb_iff x y : feqb x y = true <-> x = y.
  Proof. unfold feqb. destruct (fdec x y); split; intros H; congruence. Qed.

  (** Sorting is by content. *)
  Lemma fleb_total x y : fleb x y = true \/ fleb y x = true.
  Proof. unfold fleb. destruct (fle_dec x y), (fle_dec y x); auto. destruct (fle_total x y); contradiction. Qed.
  Lemma fleb_trans x y z : fleb x y = true -> fleb y z = true -> fleb x z = true.
  Proof. rewrite !fleb_iff. apply fle_trans. Qed.
  Lemma fleb_antisym x y : fleb x y = true -> fleb y x = true -> x = y.
  Proof. rewrite !fleb_iff. apply fle_antisym. Qed.
  Lemma fsort_perm (l : list F) : Permutation (fsort l) l.
  Proof. apply isort_perm. Qed.
  Lemma fsort_unique (l m : list F) : Permutation l m -> fsort l = fsort m.
  Proof. apply isort_unique; [apply fleb_total|apply fleb_trans|apply fleb_antisym]. Qed.
  Lemma fsort_sorted (l : list F) : StronglySorted fle (fsort l).
  Proof.
    unfold fsort. pose proof (isort_ssorted fleb fleb_total fleb_trans l) as H. induction H as [|x m H IH G]; constructor; [exact IH|].
    rewrite Forall_forall in *. intros y Hy. apply fleb_iff. apply G. exact Hy.
  Qed.
End Ord.
