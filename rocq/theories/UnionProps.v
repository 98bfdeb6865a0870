(** C04: unions of multipole arrays. *)
From Verif Require Import Base SortLib FrameModel EvalModel EvalSpec EllLemmas.
From Coq Require Import Permutation Lia QArith Qcanon.
Close Scope Qc_scope. Close Scope Q_scope.
Open Scope list_scope.

Section Props.
  Context {F : Type} {K : Fld F} {O : OFld (F := F)}.

  Lemma union1d_In (a b : list F) x : In x (union1d a b) <-> In x a \/ In x b.
  Proof. unfold union1d. rewrite fsort_In, nodup_In, in_app_iff. reflexivity. Qed.
  Lemma union1d_increasing (a b : list F) : increasing (union1d a b).
  Proof. apply fsort_increasing. apply NoDup_nodup. Qed.
  Lemma fold_union_In (l : list (list F)) a x : In x (fold_left union1d l a) <-> In x a \/ exists b, In b l /\ In x b.
  Proof.
    revert a. induction l as [|b l IH]; intros a; cbn [fold_left].
    - split; [tauto|]. intros [H|(b & [] & _)]. exact H.
    - rewrite IH, union1d_In. split.
      + intros [[H|H]|(c & Hc & H)]; [tauto|right; exists b; cbn; tauto|right; exists c; cbn; tauto].
      + intros [H|(c & [e|Hc] & H)]; [tauto|subst; tauto|right; eauto].
  Qed.
  Lemma fold_union_increasing (l : list (list F)) a : increasing a -> increasing (fold_left union1d l a).
  Proof. revert a. induction l as [|b l IH]; intros a H; cbn; [exact H|]. apply IH, union1d_increasing. Qed.

  Theorem C04_exact_union (arrays : list (list F)) : (2 <= length arrays)%nat ->
    exists r, arrays_union arrays = Ok r /\ increasing r /\ forall x, In x r <-> exists a, In a arrays /\ In x a.
  Proof.
    destruct arrays as [|a [|b rest]]; cbn [length]; try lia. intros _. eexists. split; [reflexivity|]. split.
    - apply fold_union_increasing, union1d_increasing.
    - intros x. rewrite fold_union_In, union1d_In. split.
      + intros [[H|H]|(c & Hc & H)]; [exists a|exists b|exists c]; cbn in *; tauto.
      + intros (c & [e|Hc] & H); [subst; tauto|right; eauto].
  Qed.
  Theorem C04_union_any_order (arrays arrays' : list (list F)) : Permutation arrays arrays' -> arrays_union arrays = arrays_union arrays'.
  Proof.
    intros P. pose proof (Permutation_length P) as E. destruct (Nat.le_gt_cases 2 (length arrays)) as [H|H].
    - destruct (C04_exact_union arrays H) as (r & Hr & Sr & Ir). destruct (C04_exact_union arrays') as (s & Hs & Ss & Is); [lia|].
      rewrite Hr, Hs. f_equal. apply increasing_unique; [exact Sr|exact Ss|]. intros x. rewrite Ir, Is.
      split; intros (a & Ha & G); exists a; (split; [|exact G]). { eapply Permutation_in; [exact P|exact Ha]. } eapply Permutation_in; [symmetry; exact P|exact Ha].
    - destruct arrays as [|a [|b t]], arrays' as [|a' [|b' t']]; cbn [length] in H, E; try lia; reflexivity.
  Qed.
  (** Unlike the intersection, a single array is refused too. *)
  Theorem C04_union_needs_two (arrays : list (list F)) : (length arrays < 2)%nat -> arrays_union arrays = Err EIndexError.
  Proof. destruct arrays as [|a [|b rest]]; cbn [length]; try lia; reflexivity. Qed.
End Props.

Example C04_union_instance : arrays_union [[qz 3; qz 1]; [qz 2; qz 3]; [qz 5]] = Ok [qz 1; qz 2; qz 3; qz 5].
Proof. vm_compute. reflexivity. Qed.

Print Assumptions C04_exact_union.
Print Assumptions C04_union_any_order.
Print Assumptions C04_union_needs_two.
