From Verif Require Import Base SortLib StrLib FrameModel FrameLemmas FisherModel HeapModel ResultsModel.
Open Scope list_scope.

Lemma list_set_length {A} (l : list A) n x : length (list_set l n x) = length l.
Proof. revert n; induction l as [|y l IH]; intros [|n]; cbn; [reflexivity..|rewrite IH; reflexivity]. Qed.
Lemma list_set_same {A} (l : list A) n x : n < length l -> nth_error (list_set l n x) n = Some x.
Proof. revert n; induction l as [|y l IH]; intros [|n] H; cbn in *; [lia|lia|reflexivity|apply IH; lia]. Qed.
Lemma list_set_other {A} (l : list A) n m x : m <> n -> nth_error (list_set l n x) m = nth_error l m.
Proof. revert n m; induction l as [|y l IH]; intros [|n] [|m] H; cbn; try reflexivity; [congruence|apply IH; congruence]. Qed.
Lemma nth_error_app_l {A} (l m : list A) n x : nth_error l n = Some x -> nth_error (l ++ m) n = Some x.
Proof. intros H. rewrite nth_error_app1; [exact H|]. apply nth_error_Some. congruence. Qed.

Section HeapLemmas.
  Context {F : Type} {K : Fld F} {SO : SetOrder}.
  Implicit Types h : heap F.

  Lemma hget_view h a f : hget h a = Ok f <-> view h a = Some f.
  Proof. unfold hget. destruct (view h a); split; intros E; congruence. Qed.
  Lemma view_lt h a f : view h a = Some f -> a < length (obs h).
  Proof. unfold view. destruct (nth_error (obs h) a) eqn:E; [|discriminate]. intros _. apply nth_error_Some. congruence. Qed.

  (** Old objects and frames kept, new ones added. *)
  Definition grows h h' : Prop := (exists l, frs h' = frs h ++ l) /\ exists l, obs h' = obs h ++ l.
  Lemma grows_refl h : grows h h.
  Proof. split; exists []; rewrite app_nil_r; reflexivity. Qed.
  Lemma grows_trans h1 h2 h3 : grows h1 h2 -> grows h2 h3 -> grows h1 h3.
  Proof.
    intros [(a & A) (b & B)] [(c & C) (d & D)]. split.
    - exists (a ++ c). rewrite C, A, app_assoc. reflexivity.
    - exists (b ++ d). rewrite D, B, app_assoc. reflexivity.
  Qed.
  Lemma grows_view h h' a f : grows h h' -> view h a = Some f -> view h' a = Some f.
  Proof.
    intros [(l & L) (m & M)] V. unfold view in *. destruct (nth_error (obs h) a) as [o|] eqn:E; [|discriminate].
    rewrite M, (nth_error_app_l _ _ _ _ E). unfold deref in *. destruct (nth_error (frs h) (o_mat o)) as [x|] eqn:E'; [|discriminate].
    rewrite L, (nth_error_app_l _ _ _ _ E'). exact V.
  Qed.
  Lemma grows_length h h' : grows h h' -> length (obs h) <= length (obs h').
  Proof. intros [_ (l & L)]. rewrite L, app_length. lia. Qed.

  Lemma alloc_spec (f : fisher F) h : let (h', a) := h_alloc f h in
    grows h h' /\ a = length (obs h) /\ view h' a = Some f.
  Proof.
    cbn. split; [split; eexists; reflexivity|]. split; [reflexivity|]. unfold view. cbn [obs].
    rewrite nth_error_app2, Nat.sub_diag by lia. cbn. unfold deref. cbn [o_mat frs]. rewrite nth_error_app2, Nat.sub_diag by lia.
    cbn. destruct f; reflexivity.
  Qed.
  Lemma copy_spec a h : match h_copy a h with
    | (h', Ok b) => exists f, view h a = Some f /\ grows h h' /\ b = length (obs h) /\ view h' b = Some (fcopy f)
    | (h', Err e) => view h a = None /\ h' = h /\ e = EAttributeError
    end.
  Proof.
    unfold h_copy, hget. destruct (view h a) as [f|]; [|auto]. pose proof (alloc_spec (fcopy f) h) as H.
    destruct (h_alloc (fcopy f) h) as [h' b]. exists f. intuition.
  Qed.
  (** Sums and differences: explicit heap. *)
  Definition new_obj (n : nat) (f : fisher F) : obj F := mkObj n (fname f) (fcosmo f) (fnuis f) (finverse f) (fcorr f) (fmflag f).
  Lemma copy_eq a h f : view h a = Some f ->
    h_copy a h = (mkHeap (frs h ++ [fmat f]) (obs h ++ [new_obj (length (frs h)) (fcopy f)]), Ok (length (obs h))).
  Proof. intros V. unfold h_copy, hget. rewrite V. reflexivity. Qed.
  Lemma app_nth_add {A} (l m : list A) k : nth_error (l ++ m) (length l + k) = nth_error m k.
  Proof. rewrite nth_error_app2 by lia. f_equal. lia. Qed.
  Lemma app_nth_0 {A} (l m : list A) : nth_error (l ++ m) (length l) = nth_error m 0.
  Proof. rewrite nth_error_app2, Nat.sub_diag by lia. reflexivity. Qed.
  Lemma list_set_app {A} (l m : list A) k x : list_set (l ++ m) (length l + k) x = l ++ list_set m k x.
  Proof. induction l as [|y l IH]; cbn; [reflexivity|rewrite IH; reflexivity]. Qed.
  Lemma combine_spec op sym a b h f g : view h a = Some f -> view h b = Some g ->
    exists h' c, h_combine op sym a b h = (h', Ok c) /\ grows h h' /\ length (obs h) <= c /\
      view h' c = Some (fcombine op sym f g).
  Proof.
    intros Va Vb. unfold h_combine. rewrite (copy_eq _ _ _ Va).
    set (h1 := mkHeap (frs h ++ [fmat f]) (obs h ++ [new_obj (length (frs h)) (fcopy f)])).
    assert (G1 : grows h h1) by (split; eexists; reflexivity).
    rewrite (copy_eq _ _ _ (grows_view _ _ _ _ G1 Vb)).
    assert (L1 : length (obs h1) = length (obs h) + 1) by (cbn; rewrite app_length; reflexivity).
    assert (L2 : length (frs h1) = length (frs h) + 1) by (cbn; rewrite app_length; reflexivity).
    set (h2 := mkHeap (frs h1 ++ [fmat g]) (obs h1 ++ [new_obj (length (frs h1)) (fcopy g)])).
    assert (Eo : obs h2 = obs h ++ [new_obj (length (frs h) + 0) (fcopy f); new_obj (length (frs h) + 1) (fcopy g)])
      by (unfold h2; cbn [obs]; rewrite L2; unfold h1; cbn [obs]; rewrite <- app_assoc, Nat.add_0_r; reflexivity).
    assert (Ef : frs h2 = frs h ++ [fmat f; fmat g]) by (unfold h2, h1; cbn [frs]; rewrite <- app_assoc; reflexivity).
    rewrite L1.
    assert (V1 : view h2 (length (obs h)) = Some (fcopy f)).
    { unfold view. rewrite Eo, app_nth_0. cbn. unfold deref. cbn [o_mat new_obj]. rewrite Ef, app_nth_add. reflexivity. }
    assert (V2 : view h2 (length (obs h) + 1) = Some (fcopy g)).
    { unfold view. rewrite Eo, app_nth_add. cbn. unfold deref. cbn [o_mat new_obj]. rewrite Ef, app_nth_add. reflexivity. }
    unfold h_zeropad. rewrite (proj2 (hget_view _ _ _) V1), (proj2 (hget_view _ _ _) V2).
    set (m1 := set_diff _ (phys (fcopy f))). set (m2 := set_diff _ (phys (fcopy g))).
    assert (P1 : h_poke (length (obs h)) (pad1 m1) h2 = mkHeap (frs h ++ [pad1 m1 (fmat f); fmat g]) (obs h2)).
    { unfold h_poke. rewrite Eo, app_nth_0. cbn [nth_error o_mat new_obj]. rewrite Ef, app_nth_add. cbn [nth_error]. rewrite list_set_app. reflexivity. }
    rewrite P1.
    assert (P2 : h_poke (length (obs h) + 1) (pad1 m2) (mkHeap (frs h ++ [pad1 m1 (fmat f); fmat g]) (obs h2)) =
                 mkHeap (frs h ++ [pad1 m1 (fmat f); pad1 m2 (fmat g)]) (obs h2)).
    { unfold h_poke. cbn [obs frs]. rewrite Eo, app_nth_add. cbn [nth_error o_mat new_obj]. rewrite app_nth_add. cbn [nth_error]. rewrite list_set_app. reflexivity. }
    rewrite P2. set (h3 := mkHeap (frs h ++ [pad1 m1 (fmat f); pad1 m2 (fmat g)]) (obs h2)).
    assert (W1 : view h3 (length (obs h)) = Some (with_mat (fcopy f) (pad1 m1 (fmat f)))).
    { unfold view, h3. cbn [obs]. rewrite Eo, app_nth_0. cbn [nth_error]. unfold deref. cbn [o_mat new_obj frs]. rewrite app_nth_add. reflexivity. }
    assert (W2 : view h3 (length (obs h) + 1) = Some (with_mat (fcopy g) (pad1 m2 (fmat g)))).
    { unfold view, h3. cbn [obs]. rewrite Eo, app_nth_add. cbn [nth_error]. unfold deref. cbn [o_mat new_obj frs]. rewrite app_nth_add. reflexivity. }
    rewrite (proj2 (hget_view _ _ _) W1), (proj2 (hget_view _ _ _) W2).
    match goal with |- context [h_alloc ?x h3] => set (r := x); pose proof (alloc_spec r h3) as A; destruct (h_alloc r h3) as [h4 c] end.
    destruct A as (A1 & A2 & A3). exists h4, c. split; [reflexivity|]. split.
    - apply grows_trans with h3; [|exact A1]. split; [eexists; reflexivity|]. unfold h3; cbn [obs]. rewrite Eo. eexists; reflexivity.
    - split; [|exact A3]. subst c. unfold h3; cbn [obs]. rewrite Eo, app_length. lia.
  Qed.
  (** Methods that assign to their object: the others are untouched. *)
  Lemma assign_other rb a b f h g : b <> a -> view h b = Some g -> view (h_assign rb a f h) b = Some g.
  Proof.
    intros N V. unfold h_assign. destruct (nth_error (obs h) a) as [o|]; [|exact V].
    unfold view in *. destruct rb; cbn [obs frs]; rewrite list_set_other by exact N; destruct (nth_error (obs h) b) as [o'|]; try discriminate;
      unfold deref in *; cbn [frs]; [|exact V].
    destruct (nth_error (frs h) (o_mat o')) as [m|] eqn:E; [|discriminate]. rewrite (nth_error_app_l _ _ _ _ E). exact V.
  Qed.
  Lemma assign_same rb a f h g : view h a = Some g ->
    view (h_assign rb a f h) a = Some (if rb then f else with_mat f (fmat g)).
  Proof.
    intros V. pose proof (view_lt _ _ _ V) as L. unfold h_assign, view in *. destruct (nth_error (obs h) a) as [o|] eqn:E; [|discriminate].
    unfold deref in V. destruct (nth_error (frs h) (o_mat o)) as [m|] eqn:Em; [|discriminate]. injection V as <-.
    destruct rb; cbn [obs frs]; rewrite list_set_same by exact L; unfold deref; cbn [frs o_mat].
    - rewrite nth_error_app2, Nat.sub_diag by lia. cbn. destruct f; reflexivity.
    - rewrite Em. reflexivity.
  Qed.
  Lemma assign_length rb a f h : length (obs (h_assign rb a f h)) = length (obs h).
  Proof. unfold h_assign. destruct (nth_error (obs h) a); [|reflexivity]. destruct rb; cbn; apply list_set_length. Qed.
End HeapLemmas.
