From Verif Require Import Base SortLib ParamModel OrdLib EvalModel EvalSpec NumModel DensModel DensSpec EllLemmas FishEval FishEval4.
From Coq Require Import Field Sorted.
Open Scope string_scope.
Open Scope list_scope.

Section Lemmas.
  Context {F : Type} {K : Fld F} {O : OFld (F := F)}.
  Add Field DensLemmasF : (fth (F := F)).
  Open Scope fld_scope.
  Context (N : numerics F) (I : ideal N).

  Lemma n_bins_eq (d : density F) : n_bins d = (length (dedges d) - 1)%nat.
  Proof.
    unfold n_bins, z_bin_centers. rewrite map_length, combine_length. destruct (dedges d) as [|a l]; [reflexivity|].
    assert (E : length (removelast (a :: l)) = length l).
    { pose proof (app_removelast_last a (l := a :: l) ltac:(discriminate)) as H. apply (f_equal (@length _)) in H. rewrite app_length in H. cbn [length] in *. lia. }
    rewrite E. cbn [tl length]. lia.
  Qed.
  Lemma increasingb_iff (l : list F) : increasingb l = true <-> increasing l.
  Proof.
    induction l as [|x l IH]; [cbn; split; [constructor|reflexivity]|]. destruct l as [|y l].
    - cbn. split; [intros _; constructor; constructor|reflexivity].
    - change (increasingb (x :: y :: l)) with (fltb x y && increasingb (y :: l)). rewrite andb_true_iff, IH, fltb_iff. split.
      + intros [H1 H2]. constructor; [exact H2|]. inversion H2; subst. constructor; [exact H1|]. eapply Forall_impl; [|eassumption]. cbn. intros z Hz. eapply flt_le_trans; [exact H1|]. apply flt_le; exact Hz.
      + intros H. inversion H as [|? ? H1 H2]; subst. inversion H2; subst. auto.
  Qed.
  Lemma make_spline_iff (x y : list F) f : make_spline N x y = Ok f <-> f = spline N x y /\ increasing x /\ (3 < length x)%nat /\ length x = length y.
  Proof.
    unfold make_spline. destruct (increasingb x) eqn:E1, (3 <? length x)%nat eqn:E2, (Nat.eqb (length x) (length y)) eqn:E3; cbn [andb];
      try (apply increasingb_iff in E1); rewrite ?Nat.ltb_lt, ?Nat.ltb_ge, ?Nat.eqb_eq, ?Nat.eqb_neq in *;
      (split; [intros H; try discriminate; try (split; [congruence|auto])|intros (H1 & H2 & H3 & H4); try congruence; try (exfalso; lia)]).
    all: try (apply increasingb_iff in H2; congruence).
  Qed.
  Lemma rmapM_pure {A B} (f : A -> res B) (g : A -> B) l : (forall x, In x l -> f x = Ok (g x)) -> rmapM f l = Ok (map g l).
  Proof. induction l as [|x l IH]; intros H; [reflexivity|]. cbn [rmapM map]. rewrite (H x (or_introl eq_refl)). cbn [rbind]. rewrite IH; [reflexivity|]. intros y Hy. apply H. right. exact Hy. Qed.
  Lemma index_iff {A} (l : list A) i x : index l i = Ok x <-> nth_error l i = Some x.
  Proof. unfold index. destruct (nth_error l i); split; congruence. Qed.
  Lemma index_nth (l : list F) i : (i < length l)%nat -> index l i = Ok (nth i l 0).
  Proof. intros H. apply index_iff. apply nth_error_nth'. exact H. Qed.
  Lemma last_nth {A} (x : A) r : nth_error (x :: r) (length r) = Some (last r x).
  Proof.
    assert (E : forall r (a b : A), r <> [] -> last r a = last r b).
    { clear. induction r as [|z r IH]; intros a b H; [congruence|]. destruct r as [|w r]; [reflexivity|]. cbn [last]. apply IH. discriminate. }
    revert x. induction r as [|y r IH]; intros x; [reflexivity|]. cbn [length nth_error]. rewrite (IH y). f_equal.
    destruct r as [|z r]; [reflexivity|]. change (last (y :: z :: r) x) with (last (z :: r) x). apply E. discriminate.
  Qed.
  Lemma z_min_iff (d : density F) z : z_min d = Ok z <-> nth_error (ddom d) 0 = Some z.
  Proof. unfold z_min. destruct (ddom d); cbn; split; congruence. Qed.
  Lemma z_max_iff (d : density F) z : z_max d = Ok z <-> nth_error (ddom d) (length (ddom d) - 1) = Some z.
  Proof.
    unfold z_max. destruct (ddom d) as [|x r]; [cbn; split; congruence|]. replace (length (x :: r) - 1)%nat with (length r) by (cbn; lia). rewrite last_nth. split; congruence.
  Qed.
  Lemma increasing_nth (l : list F) i j : increasing l -> (i < j < length l)%nat -> flt (nth i l 0) (nth j l 0).
  Proof.
    intros S. revert i j. induction S as [|x l S IH H]; cbn [length]; intros i j L; [lia|]. rewrite Forall_forall in H. destruct i as [|i], j as [|j]; try lia; cbn [nth].
    - apply H. apply nth_In. lia.
    - apply IH. lia.
  Qed.
  Lemma increasing_nth_le (l : list F) i j : increasing l -> (i <= j < length l)%nat -> fle (nth i l 0) (nth j l 0).
  Proof. intros S L. destruct (Nat.eq_dec i j) as [->|n]; [apply fle_refl|]. apply flt_le. apply increasing_nth; [exact S|lia]. Qed.

  (** Integrals over adjoining bins. *)
  Lemma quad_point f a : quad N f a a = 0.
  Proof. pose proof (quad_split _ I f a a a (fle_refl a) (fle_refl a)) as H. assert (E : quad N f a a + quad N f a a - quad N f a a = quad N f a a - quad N f a a) by (rewrite <- H; reflexivity). transitivity (quad N f a a + quad N f a a - quad N f a a); [ring|]. rewrite E. ring. Qed.
  Lemma quad_edges f (l : list F) n : increasing l -> (n < length l)%nat ->
    Fsum (fun i => quad N f (nth i l 0) (nth (i + 1) l 0)) (seq 0 n) = quad N f (nth 0 l 0) (nth n l 0).
  Proof.
    intros S. induction n as [|n IH]; intros L; [cbn; symmetry; apply quad_point|]. rewrite seq_S, Fsum_app, IH by lia. cbn [Fsum Nat.add]. rewrite Nat.add_1_r.
    rewrite (quad_split _ I f (nth 0 l 0) (nth n l 0) (nth (Datatypes.S n) l 0)); [ring| |]; apply increasing_nth_le; auto; lia.
  Qed.
  Lemma quad_bins f (d : density F) : increasing (dedges d) -> dedges d <> [] ->
    Fsum (fun i => quad N f (nth i (dedges d) 0) (nth (i + 1) (dedges d) 0)) (seq 0 (n_bins d)) = quad N f (nth 0 (dedges d) 0) (nth (n_bins d) (dedges d) 0).
  Proof. intros S H. apply quad_edges; [exact S|]. rewrite n_bins_eq. destruct (dedges d); [congruence|cbn; lia]. Qed.

  (** The response in the words of the specification. *)
  Lemma gaussian_normal m s c amp zp z : s <> 0 -> 1 + z <> 0 -> gaussian_response N (mkPar amp m s c) zp z = amp * normal N m s c zp z.
  Proof.
    intros Hs Hz. unfold gaussian_response, normal. cbn [amplitude sigma cscale z_mean]. pose proof (root2pi_pos _ I) as R. apply flt_neq' in R.
    match goal with |- _ * nexp N ?a = _ * (nexp N ?b / _) => replace a with b end.
    - field. repeat split; assumption.
    - assert (T : fnat 2 <> (0 : F)) by (apply fnat_neq; lia). field. repeat split; assumption.
  Qed.

  Context {d : density F} {y zlo zhi r} (C : counts d y zlo zhi r).

  Definition ready_density : density F :=
    mkDens (dprobe d) (dz_grid d) (dniz d) (ddom d)
      (Some (map (fun i => quad N (fun z => quad N (fun zp => gaussian_response N (mkPar (1 - r_fo r) (r_zb r) (r_sb r) (r_cb r)) zp z + gaussian_response N (mkPar (r_fo r) (r_zo r) (r_so r) (r_co r)) zp z) (nth i (dedges d) 0) (nth (i + 1) (dedges d) 0) * spline N (ddom d) y z) zlo zhi) (seq 0 (n_bins d))))
      (dbins d) (dedges d) (dresp d) (Some (mkPar (1 - r_fo r) (r_zb r) (r_sb r) (r_cb r))) (Some (mkPar (r_fo r) (r_zo r) (r_so r) (r_co r))) (dhas d) (dinput d) (Some (spline N (ddom d) y)) (dnspl d) (diniz d) (dfsky d) true.

  Lemma convolved_ok (e : density F) i g c s : dhas e = false -> (i < n_bins e)%nat -> dgood e = Some g -> dcat e = Some c -> sigma g <> 0 -> sigma c <> 0 -> dspl e = Some s ->
    convolved N e i = Ok (fun z => quad N (fun zp => gaussian_response N g zp z + gaussian_response N c zp z) (nth i (dedges e) 0) (nth (i + 1) (dedges e) 0) * s z).
  Proof.
    intros H L G Cc Sg Sc S. unfold convolved, instrument_response. rewrite H, G, Cc, S. rewrite n_bins_eq in L. rewrite !index_nth by lia. cbn [rbind attr].
    destruct (fdec (sigma g) 0); [contradiction|]. destruct (fdec (sigma c) 0); [contradiction|]. reflexivity.
  Qed.
  Lemma set_up_ok : r_sb r <> 0 -> r_so r <> 0 -> set_up N d = (ready_density, Ok tt).
  Proof.
    intros Hb Ho. destruct C as [co_has0 co_input0 co_len0 co_many0 co_inc0 co_lo0 co_hi0 co_fo0 co_zb0 co_sb0 co_cb0 co_zo0 co_so0 co_co0]. unfold set_up, interpolate_input. rewrite co_has0, co_input0.
    assert (E : make_spline N (ddom d) y = Ok (spline N (ddom d) y)) by (apply make_spline_iff; repeat split; auto). rewrite E. cbn [with_splines dhas]. rewrite co_has0.
    unfold resp_params, dget_str at 1 2 3 4. cbn [with_splines dresp]. rewrite co_fo0, co_zb0, co_sb0, co_cb0. cbn [rbind].
    unfold dget_str. cbn [with_params with_splines dresp dcat dgood]. rewrite co_fo0, co_zo0, co_so0, co_co0. cbn [rbind with_params with_splines dgood dcat].
    unfold evaluate_norms. change (n_bins _) with (n_bins d).
    match goal with |- context [rmapM (norm_factor N ?e) _] => set (e1 := e) end.
    assert (R : rmapM (norm_factor N e1) (seq 0 (n_bins d)) = Ok (map (fun i => quad N (fun z => quad N (fun zp => gaussian_response N (mkPar (1 - r_fo r) (r_zb r) (r_sb r) (r_cb r)) zp z + gaussian_response N (mkPar (r_fo r) (r_zo r) (r_so r) (r_co r)) zp z) (nth i (dedges d) 0) (nth (i + 1) (dedges d) 0) * spline N (ddom d) y z) zlo zhi) (seq 0 (n_bins d)))).
    { apply rmapM_pure. intros i Hi. apply in_seq in Hi. unfold norm_factor. 
      rewrite (proj2 (z_min_iff e1 zlo) co_lo0), (proj2 (z_max_iff e1 zhi) co_hi0). cbn [rbind].
      rewrite (convolved_ok e1 i (mkPar (1 - r_fo r) (r_zb r) (r_sb r) (r_cb r)) (mkPar (r_fo r) (r_zo r) (r_so r) (r_co r)) (spline N (ddom d) y)); auto; try reflexivity. change (n_bins e1) with (n_bins d). lia. }
    rewrite R. reflexivity.
  Qed.

  (** The norm factors and values in the words of the specification. *)
  Lemma scatter_eq zp z : r_sb r <> 0 -> r_so r <> 0 -> 1 + z <> 0 ->
    gaussian_response N (mkPar (1 - r_fo r) (r_zb r) (r_sb r) (r_cb r)) zp z + gaussian_response N (mkPar (r_fo r) (r_zo r) (r_so r) (r_co r)) zp z = scatter N r zp z.
  Proof. intros. rewrite !gaussian_normal by assumption. reflexivity. Qed.
  Lemma edge_le i : increasing (dedges d) -> (i < n_bins d)%nat -> fle (edge d i) (edge d (i + 1)).
  Proof. intros S L. rewrite n_bins_eq in L. apply increasing_nth_le; [exact S|lia]. Qed.
  Lemma conv_eq i z : r_sb r <> 0 -> r_so r <> 0 -> 1 + z <> 0 -> increasing (dedges d) -> (i < n_bins d)%nat ->
    quad N (fun zp => gaussian_response N (mkPar (1 - r_fo r) (r_zb r) (r_sb r) (r_cb r)) zp z + gaussian_response N (mkPar (r_fo r) (r_zo r) (r_so r) (r_co r)) zp z) (nth i (dedges d) 0) (nth (i + 1) (dedges d) 0) * spline N (ddom d) y z
    = counts_in N d y r (edge d i) (edge d (i + 1)) z.
  Proof.
    intros Hb Ho Hz S L. unfold counts_in, edge. rewrite (quad_ext _ I _ (fun zp => scatter N r zp z)); [ring|apply (edge_le i S L)|]. intros zp _. apply scatter_eq; assumption.
  Qed.
  Lemma lo_hi : fle zlo zhi.
  Proof.
    pose proof (co_lo _ _ _ _ _ C) as L. pose proof (co_hi _ _ _ _ _ C) as H. pose proof (co_many _ _ _ _ _ C) as M.
    apply (nth_error_nth _ _ 0) in L. apply (nth_error_nth _ _ 0) in H. rewrite <- L, <- H. apply increasing_nth_le; [apply (co_inc _ _ _ _ _ C)|lia].
  Qed.
  Lemma above z : flt (- (1)) zlo -> fle zlo z -> flt 0 (1 + z).
  Proof. intros H1 H2. assert (flt (- (1)) z) by (eapply flt_le_trans; eassumption). apply (flt_sub_iff (- (1)) z) in H. replace (1 + z) with (z - - (1)) by ring. exact H. Qed.
  Lemma norm_eq i : r_sb r <> 0 -> r_so r <> 0 -> flt (- (1)) zlo -> increasing (dedges d) -> (i < n_bins d)%nat ->
    quad N (fun z => quad N (fun zp => gaussian_response N (mkPar (1 - r_fo r) (r_zb r) (r_sb r) (r_cb r)) zp z + gaussian_response N (mkPar (r_fo r) (r_zo r) (r_so r) (r_co r)) zp z) (nth i (dedges d) 0) (nth (i + 1) (dedges d) 0) * spline N (ddom d) y z) zlo zhi
    = number_in N d y r zlo zhi (edge d i) (edge d (i + 1)).
  Proof.
    intros Hb Ho Hz S L. unfold number_in. apply (quad_ext _ I); [apply lo_hi|]. intros z [Z1 Z2]. apply conv_eq; auto. apply flt_neq'. apply above; assumption.
  Qed.
  Lemma normalized_ok i : r_sb r <> 0 -> r_so r <> 0 -> flt (- (1)) zlo -> increasing (dedges d) -> (i < n_bins d)%nat ->
    exists f, normalized N ready_density i = Ok f /\ forall z, 1 + z <> 0 ->
      f z = if fdec (number_in N d y r zlo zhi (edge d i) (edge d (i + 1))) 0 then None else Some (counts_in N d y r (edge d i) (edge d (i + 1)) z / number_in N d y r zlo zhi (edge d i) (edge d (i + 1))).
  Proof.
    intros Hb Ho Hz S L. eexists. split.
    - unfold normalized. change (dhas ready_density) with (dhas d). rewrite (co_has _ _ _ _ _ C).
      rewrite (convolved_ok ready_density i _ _ _ (co_has _ _ _ _ _ C) L eq_refl eq_refl Hb Ho eq_refl). cbn [rbind attr ready_density dnorms].
      rewrite (proj2 (index_iff _ i _) (map_nth_error _ i (seq 0 (n_bins d)) (nth_error_nth' _ 0%nat ltac:(rewrite seq_length; exact L)))). cbn [rbind]. reflexivity.
    - intros z Z. cbn beta. rewrite seq_nth by exact L. cbn [Nat.add]. rewrite norm_eq by assumption. cbn [ready_density dedges]. rewrite conv_eq by assumption. reflexivity.
  Qed.
  Lemma fill_rows_ok e zs g n i0 : (forall i, (i0 <= i < i0 + n)%nat -> density_row N e zs i = Ok (g i)) -> fill_rows N e zs n i0 = (map g (seq i0 n), Ok tt).
  Proof.
    revert i0. induction n as [|n IH]; intros i0 H; [reflexivity|]. cbn [fill_rows seq map]. rewrite H by lia. rewrite (IH (Datatypes.S i0)); [reflexivity|]. intros i Hi. apply H. lia.
  Qed.
End Lemmas.
