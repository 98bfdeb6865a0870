(** C118: the comparison of two runs. *)
From Verif Require Import Base SortLib StrLib FrameModel ParamModel OrdLib OrdLib NumModel NumProps NameModel NameLemmas BatchModel StemLemmas3 CompareModel.
From Verif Require UsageProps.
From Coq Require Import Field Qcanon.
Open Scope list_scope.

Section C118.
  Context {F : Type} {K : Fld F} {O : OFld (F := F)}.
  Add Field Ff118 : (fth (F := F)).
  Open Scope fld_scope.

  (** An entry passes when its difference is small with respect to the mean ... of
      a positive pair.  *)
  Definition passes (thr x y : F) : Prop :=
    flt (x + y) 0 \/ (x + y = 0 /\ flt (fnat 100 * fabs (x - y)) thr) \/ (flt 0 (x + y) /\ flt (fnat 200 * fabs (x - y)) (thr * (x + y))).
  Definition small (thr : F) (x y : tab F) : Prop := forall i j, In i (t_rows x) -> In j (t_cols x) -> passes thr (t_val x i j) (t_val y i j).
  Definition alike (x y : tab F) : Prop := (forall i, In i (t_rows x) <-> In i (t_rows y)) /\ (forall j, In j (t_cols x) <-> In j (t_cols y)).

  Lemma pow10_pos n : flt 0 (pow10 n : F).
  Proof.
    unfold pow10. apply flt_inv. induction n as [|n IH]; cbn [fpow]; [apply flt_0_1|]. apply flt_mul; [apply fnat_pos; lia|exact IH].
  Qed.
  Lemma same_set_iff a b : same_set a b = true <-> (forall x, In x a <-> In x b).
  Proof.
    unfold same_set. rewrite andb_true_iff, !forallb_forall. split.
    - intros [A B] x. split; intros H; [apply smem_In, A, H|apply smem_In, B, H].
    - intros H. split; intros x Hx; apply smem_In, H, Hx.
  Qed.
  Lemma pad_passes thr x y : flt 0 thr -> (~ fle thr (pad_table x y)) <-> passes thr x y.
  Proof.
    intros P. assert (H2 : fnat (F := F) 2 <> 0) by (apply fnat_neq; lia). destruct (flt_trichotomy (x + y) 0) as [[L|E]|G].
    - split; [intros _; left; exact L|]. intros _ A. rewrite (C48_table_negative _ _ L) in A. destruct (C48_array x y) as [_ [N _]].
      apply (flt_not_le _ _ P). apply (fle_trans _ _ _ A). replace (0 : F) with (- 0 : F) by ring. apply fle_opp, N.
    - assert (V : pad_table x y = fnat 100 * fabs (x - y)).
      { unfold pad_table. replace (feqb (x + y) 0) with true by (symmetry; apply feqb_iff, E). field. apply (flt_neq' _ _ flt_0_1). }
      rewrite V. split.
      + intros N. right. left. split; [exact E|]. apply not_le_lt, N.
      + intros [L|[[_ L]|[L _]]]; [destruct (flt_neq _ _ L E)|apply flt_not_le, L|destruct (flt_neq' _ _ L E)].
    - assert (Nz := flt_neq' _ _ G). assert (V : pad_table x y * (x + y) = fnat 200 * fabs (x - y)).
      { unfold pad_table. destruct (feqb (x + y) 0) eqn:E; [apply feqb_iff in E; contradiction|]. change 200%nat with (100 * 2)%nat. rewrite fnat_mul. field. split; assumption. }
      split.
      + intros N. right. right. split; [exact G|]. rewrite <- V. apply flt_mul_r; [exact G|]. apply not_le_lt, N.
      + intros [L|[[E _]|[_ L]]] A; [apply (flt_not_le _ _ L), flt_le, G|contradiction|]. rewrite <- V in L. apply (flt_not_le _ _ L). apply fle_mul_r; [apply flt_le, G|exact A].
  Qed.
  Lemma below_small thr (x y t : tab F) : flt 0 thr -> pad_tab x y = Ok t -> below thr t = true <-> small thr x y.
  Proof.
    intros P H. unfold pad_tab in H. destruct (negb _); [discriminate|]. destruct (negb _); [discriminate|]. injection H as <-. unfold below, small. cbn [t_rows t_cols t_val].
    rewrite forallb_forall. split.
    - intros H i j Hi Hj. specialize (H i Hi). rewrite forallb_forall in H. specialize (H j Hj). apply (pad_passes _ _ _ P). destruct (fle_dec thr _); [discriminate|assumption].
    - intros H i Hi. apply forallb_forall. intros j Hj. specialize (H i j Hi Hj). apply (pad_passes _ _ _ P) in H. destruct (fle_dec thr _); [contradiction|reflexivity].
  Qed.
  Lemma pad_tab_ok (x y : tab F) : (exists t, pad_tab x y = Ok t) <-> alike x y.
  Proof.
    unfold pad_tab, alike. rewrite <- !same_set_iff. destruct (same_set (t_rows x) (t_rows y)); cbn [negb]; [|split; [intros [t D]; discriminate|intros [D _]; discriminate]].
    destruct (same_set (t_cols x) (t_cols y)); cbn [negb]; split; try (intros [t D]; discriminate); try (intros [_ D]; discriminate); [split; reflexivity|intros _; eexists; reflexivity].
  Qed.
  Lemma pad_tab_err (x y : tab F) e : pad_tab x y = Err e -> e = EException.
  Proof. unfold pad_tab. destruct (negb _); [intros D; injection D as <-; reflexivity|]. destruct (negb _); [intros D; injection D as <-; reflexivity|discriminate]. Qed.
  Lemma keyed {V} (g : string -> res (string * V)) (G : forall k p, g k = Ok p -> fst p = k) : forall l d, rmapM g l = Ok d ->
    dkeys d = l /\ (forall k, In k l -> exists t, g k = Ok (k, t) /\ dget String.eqb d k = Some t).
  Proof.
    induction l as [|k l IH]; intros d H; cbn [rmapM] in H; [injection H as <-; split; [reflexivity|intros k []]|].
    destruct (g k) as [[k' t]|e] eqn:E; cbn [rbind] in H; [|discriminate]. pose proof (G _ _ E) as Hk. cbn [fst] in Hk. subst k'. destruct (rmapM g l) as [d'|e]; cbn [rbind] in H; [|discriminate]. injection H as <-.
    destruct (IH _ eq_refl) as [A B]. split; [unfold dkeys in *; cbn [map fst]; rewrite A; reflexivity|].
    intros k' Hk. cbn [dget]. destruct (String.eqb k k') eqn:Q; [apply String.eqb_eq in Q; subst k'; exists t; split; [exact E|reflexivity]|]. apply String.eqb_neq in Q. destruct Hk as [<-|Hk]; [contradiction|]. apply B, Hk.
  Qed.
  Lemma dget_mapv {V W} (h : V -> W) (d : dict string V) k : dget String.eqb (map (fun kt => (fst kt, h (snd kt))) d) k = option_map h (dget String.eqb d k).
  Proof. induction d as [|[k' t] d IH]; [reflexivity|]. cbn [map dget fst snd]. destruct (String.eqb k' k); [reflexivity|apply IH]. Qed.
  Lemma dkeys_mapv {V W} (h : V -> W) (d : dict string V) : dkeys (map (fun kt => (fst kt, h (snd kt))) d) = dkeys d.
  Proof. unfold dkeys. rewrite map_map. apply map_ext. intros [k t]. reflexivity. Qed.
  Lemma rmapM_total {A B} (f : A -> res B) l : (forall x, In x l -> exists y, f x = Ok y) -> exists r, rmapM f l = Ok r.
  Proof.
    induction l as [|x l IH]; intros H; cbn [rmapM]; [eexists; reflexivity|]. destruct (H x (or_introl eq_refl)) as [y ->]. cbn [rbind]. destruct IH as [r ->]; [intros z Hz; apply H; right; exact Hz|]. eexists. reflexivity.
  Qed.
  Lemma common_iff k1 k2 k : In k (common k1 k2) <-> In k k1 /\ In k k2.
  Proof. unfold common. rewrite filter_In, smem_In. tauto. Qed.
  Lemma fisher_key a b k p : fisher_metric (F := F) a b k = Ok p -> fst p = k.
  Proof. unfold fisher_metric. destruct (look _ k); cbn [rbind]; [|discriminate]. destruct (look _ k); cbn [rbind]; [|discriminate]. destruct (pad_tab _ _); cbn [rbind]; [|discriminate]. destruct (pad_tab _ _); cbn [rbind]; [|discriminate]. intros H. injection H as <-. reflexivity. Qed.
  Lemma errors_key a b k p : errors_metric (F := F) a b k = Ok p -> fst p = k.
  Proof. unfold errors_metric. destruct (look _ k); cbn [rbind]; [|discriminate]. destruct (look _ k); cbn [rbind]; [|discriminate]. destruct (pad_tab _ _); cbn [rbind]; [|discriminate]. intros H. injection H as <-. reflexivity. Qed.
  Lemma dget_key {V} (d : dict string V) k v : dget String.eqb d k = Some v -> In k (dkeys d).
  Proof. intros H. destruct (in_dec string_dec k (dkeys d)) as [I|N]; [exact I|]. apply (proj2 (dget_None _ String.eqb_spec d k)) in N. congruence. Qed.

  (** What is tested: the keys of both runs, and whether every entry passes. *)
  Theorem C118_tests (a b : loaded F) v : compare a b = Ok v ->
    exists ra rb, ld_results a = Some ra /\ ld_results b = Some rb /\
    (forall k, In k (dkeys (v_fisher v)) <-> In k (dkeys (ld_fishers a)) /\ In k (dkeys (ld_fishers b))) /\
    dkeys (v_inverse v) = dkeys (v_fisher v) /\
    (forall k, In k (dkeys (v_errors v)) <-> In k (dkeys ra) /\ In k (dkeys rb)) /\
    (forall k x y, dget String.eqb (ld_fishers a) k = Some x -> dget String.eqb (ld_fishers b) k = Some y ->
       exists m i, dget String.eqb (v_fisher v) k = Some m /\ dget String.eqb (v_inverse v) k = Some i /\
         alike (fst x) (fst y) /\ alike (snd x) (snd y) /\
         (m = true <-> small (pow10 5) (fst x) (fst y)) /\ (i = true <-> small (pow10 5) (snd x) (snd y))) /\
    (forall k x y, dget String.eqb ra k = Some x -> dget String.eqb rb k = Some y ->
       exists e, dget String.eqb (v_errors v) k = Some e /\ alike x y /\ (e = true <-> small (pow10 6) x y)).
  Proof.
    unfold compare. destruct (rmapM (fisher_metric a b) _) as [fs|] eqn:EF; cbn [rbind]; [|discriminate].
    destruct (ld_results a) as [ra|]; [|discriminate]. destruct (ld_results b) as [rb|]; [|discriminate].
    destruct (rmapM (errors_metric ra rb) _) as [es|] eqn:EE; cbn [rbind]; [|discriminate]. intros H. injection H as <-. exists ra, rb. split; [reflexivity|]. split; [reflexivity|].
    destruct (keyed _ (fisher_key a b) _ _ EF) as [KF GF]. destruct (keyed _ (errors_key ra rb) _ _ EE) as [KE GE]. cbn [v_fisher v_inverse v_errors]. unfold check. rewrite !dkeys_mapv.
    rewrite KF, KE.
    split; [intros k; apply common_iff|]. split; [reflexivity|]. split; [intros k; apply common_iff|]. split.
    - intros k x y Hx Hy. destruct (GF k (proj2 (common_iff _ _ _) (conj (dget_key _ _ _ Hx) (dget_key _ _ _ Hy)))) as [[m i] [G D]].
      rewrite !dget_mapv, D. cbn [option_map fst snd]. exists (below (pow10 5) m), (below (pow10 5) i). split; [reflexivity|]. split; [reflexivity|].
      unfold fisher_metric, look in G. rewrite Hx, Hy in G. cbn [rbind] in G. destruct (pad_tab (fst x) (fst y)) as [m'|] eqn:P1; cbn [rbind] in G; [|discriminate]. destruct (pad_tab (snd x) (snd y)) as [i'|] eqn:P2; cbn [rbind] in G; [|discriminate]. injection G as -> ->.
      split; [apply pad_tab_ok; exists m; exact P1|]. split; [apply pad_tab_ok; exists i; exact P2|]. split; apply below_small; auto using pow10_pos.
    - intros k x y Hx Hy. destruct (GE k (proj2 (common_iff _ _ _) (conj (dget_key _ _ _ Hx) (dget_key _ _ _ Hy)))) as [t [G D]].
      rewrite dget_mapv, D. cbn [option_map]. exists (below (pow10 6) t). split; [reflexivity|].
      unfold errors_metric, look in G. rewrite Hx, Hy in G. cbn [rbind] in G. destruct (pad_tab x y) as [t'|] eqn:P1; cbn [rbind] in G; [|discriminate]. injection G as ->.
      split; [apply pad_tab_ok; exists t; exact P1|]. apply below_small; auto using pow10_pos.
  Qed.

  (** When a comparison succeeds: both runs have results and the tables of equal
      keys have equal labels. *)
  Theorem C118_succeeds (a b : loaded F) : (exists v, compare a b = Ok v) <->
    exists ra rb, ld_results a = Some ra /\ ld_results b = Some rb /\
    (forall k x y, dget String.eqb (ld_fishers a) k = Some x -> dget String.eqb (ld_fishers b) k = Some y -> alike (fst x) (fst y) /\ alike (snd x) (snd y)) /\
    (forall k x y, dget String.eqb ra k = Some x -> dget String.eqb rb k = Some y -> alike x y).
  Proof.
    split.
    - intros [v H]. destruct (C118_tests _ _ _ H) as (ra & rb & A & B & _ & _ & _ & TF & TE). exists ra, rb. split; [exact A|]. split; [exact B|]. split.
      + intros k x y Hx Hy. destruct (TF k x y Hx Hy) as (m & i & _ & _ & U & V & _). split; assumption.
      + intros k x y Hx Hy. destruct (TE k x y Hx Hy) as (e & _ & U & _). exact U.
    - intros (ra & rb & A & B & LF & LE). unfold compare.
      assert (HF : exists fs, rmapM (fisher_metric a b) (common (dkeys (ld_fishers a)) (dkeys (ld_fishers b))) = Ok fs).
      { apply rmapM_total. intros k Hk. apply common_iff in Hk. destruct Hk as [Ha Hb]. unfold fisher_metric, look.
        destruct (dget String.eqb (ld_fishers a) k) as [x|] eqn:Ex; [|apply (dget_None _ String.eqb_spec) in Ex; contradiction].
        destruct (dget String.eqb (ld_fishers b) k) as [y|] eqn:Ey; [|apply (dget_None _ String.eqb_spec) in Ey; contradiction]. cbn [rbind].
        destruct (LF k x y Ex Ey) as [L1 L2]. apply pad_tab_ok in L1, L2. destruct L1 as [m ->], L2 as [i ->]. cbn [rbind]. eexists. reflexivity. }
      destruct HF as [fs ->]. cbn [rbind]. rewrite A, B.
      assert (HE : exists es, rmapM (errors_metric ra rb) (common (dkeys ra) (dkeys rb)) = Ok es).
      { apply rmapM_total. intros k Hk. apply common_iff in Hk. destruct Hk as [Ha Hb]. unfold errors_metric, look.
        destruct (dget String.eqb ra k) as [x|] eqn:Ex; [|apply (dget_None _ String.eqb_spec) in Ex; contradiction].
        destruct (dget String.eqb rb k) as [y|] eqn:Ey; [|apply (dget_None _ String.eqb_spec) in Ey; contradiction]. cbn [rbind].
        pose proof (LE k x y Ex Ey) as L1. apply pad_tab_ok in L1. destruct L1 as [m ->]. cbn [rbind]. eexists. reflexivity. }
      destruct HE as [es ->]. cbn [rbind]. eexists. reflexivity.
  Qed.

  Lemma alike_refl (x : tab F) : alike x x. Proof. split; tauto. Qed.
  Lemma alike_sym (x y : tab F) : alike x y -> alike y x. Proof. intros [A B]. split; intros i; [rewrite A|rewrite B]; tauto. Qed.
  Lemma passes_same thr x : flt 0 thr -> passes thr x x.
  Proof.
    intros P. unfold passes. replace (x - x) with (0 : F) by ring. rewrite fabs_zero. destruct (flt_trichotomy (x + x) 0) as [[L|E]|G]; [left; exact L|right; left|right; right].
    - split; [exact E|]. replace (fnat 100 * 0) with (0 : F) by ring. exact P.
    - split; [exact G|]. replace (fnat 200 * 0) with (0 : F) by ring. apply flt_mul; assumption.
  Qed.
  Lemma passes_sym thr x y : passes thr x y -> passes thr y x.
  Proof. unfold passes. replace (y + x) with (x + y) by ring. rewrite (fabs_sub_comm y x). tauto. Qed.
  Lemma small_sym thr (x y : tab F) : alike x y -> small thr x y <-> small thr y x.
  Proof. intros [A B]. unfold small. split; intros H i j Hi Hj; apply passes_sym, H; solve [apply A, Hi|apply B, Hj]. Qed.

  (** A run compared with itself: everything is tested and passes. *)
  Theorem C118_same (a : loaded F) ra : ld_results a = Some ra -> exists v, compare a a = Ok v /\
    (forall k, In k (dkeys (ld_fishers a)) -> dget String.eqb (v_fisher v) k = Some true /\ dget String.eqb (v_inverse v) k = Some true) /\
    (forall k, In k (dkeys ra) -> dget String.eqb (v_errors v) k = Some true).
  Proof.
    intros R. destruct (proj2 (C118_succeeds a a)) as [v Hv].
    { exists ra, ra. split; [exact R|]. split; [exact R|]. split; intros k x y Hx Hy; rewrite Hx in Hy; injection Hy as <-; try split; apply alike_refl. }
    exists v. split; [exact Hv|]. destruct (C118_tests _ _ _ Hv) as (ra' & rb' & A & B & _ & _ & _ & TF & TE). rewrite R in A, B. injection A as <-. injection B as <-.
    assert (S : forall t n, small (pow10 n) t t) by (intros t n i j _ _; apply passes_same, pow10_pos). split.
    - intros k Hk. destruct (dget String.eqb (ld_fishers a) k) as [x|] eqn:Ex; [|apply (dget_None _ String.eqb_spec) in Ex; contradiction].
      destruct (TF k x x Ex Ex) as (m & i & -> & -> & _ & _ & Hm & Hi). rewrite (proj2 Hm), (proj2 Hi) by apply S. split; reflexivity.
    - intros k Hk. destruct (dget String.eqb ra k) as [x|] eqn:Ex; [|apply (dget_None _ String.eqb_spec) in Ex; contradiction].
      destruct (TE k x x Ex Ex) as (e & -> & _ & He). rewrite (proj2 He) by apply S. reflexivity.
  Qed.

  Lemma bool_eq (x y : bool) (P : Prop) : (x = true <-> P) -> (y = true <-> P) -> x = y.
  Proof. destruct x, y; intros A B; try reflexivity; exfalso; destruct A, B; intuition discriminate. Qed.
  Lemma two_keys {V W} (d : dict string V) (e : dict string W) (u w : dict string bool) :
    (forall k, In k (dkeys u) <-> In k (dkeys d) /\ In k (dkeys e)) -> (forall k, In k (dkeys w) <-> In k (dkeys e) /\ In k (dkeys d)) ->
    (forall k x y, dget String.eqb d k = Some x -> dget String.eqb e k = Some y -> exists m, dget String.eqb u k = Some m /\ dget String.eqb w k = Some m) ->
    forall k, dget String.eqb u k = dget String.eqb w k.
  Proof.
    intros A B H k. destruct (dget String.eqb d k) as [x|] eqn:Ex; [destruct (dget String.eqb e k) as [y|] eqn:Ey|].
    - destruct (H k x y Ex Ey) as (m & -> & ->). reflexivity.
    - apply (dget_None _ String.eqb_spec) in Ey. rewrite (proj2 (dget_None _ String.eqb_spec u k)), (proj2 (dget_None _ String.eqb_spec w k)); [reflexivity|rewrite B|rewrite A]; tauto.
    - apply (dget_None _ String.eqb_spec) in Ex. rewrite (proj2 (dget_None _ String.eqb_spec u k)), (proj2 (dget_None _ String.eqb_spec w k)); [reflexivity|rewrite B|rewrite A]; tauto.
  Qed.
  (** The order of the two runs does not matter. *)
  Theorem C118_symmetric (a b : loaded F) v : compare a b = Ok v -> exists w, compare b a = Ok w /\
    forall k, dget String.eqb (v_errors v) k = dget String.eqb (v_errors w) k /\
      dget String.eqb (v_fisher v) k = dget String.eqb (v_fisher w) k /\ dget String.eqb (v_inverse v) k = dget String.eqb (v_inverse w) k.
  Proof.
    intros Hv. destruct (C118_tests _ _ _ Hv) as (ra & rb & A & B & KF & KI & KE & TF & TE).
    destruct (proj2 (C118_succeeds b a)) as [w Hw].
    { exists rb, ra. split; [exact B|]. split; [exact A|]. split.
      - intros k x y Hx Hy. destruct (TF k y x Hy Hx) as (m & i & _ & _ & U & W & _). split; apply alike_sym; assumption.
      - intros k x y Hx Hy. destruct (TE k y x Hy Hx) as (e & _ & U & _). apply alike_sym, U. }
    exists w. split; [exact Hw|]. destruct (C118_tests _ _ _ Hw) as (rb' & ra' & B' & A' & KF' & KI' & KE' & TF' & TE').
    rewrite A in A'. rewrite B in B'. injection A' as <-. injection B' as <-. intros k. split; [|split].
    - apply (two_keys ra rb); [exact KE|exact KE'|]. intros k' x y Hx Hy. destruct (TE _ _ _ Hx Hy) as (e & -> & L & E). destruct (TE' _ _ _ Hy Hx) as (e' & -> & _ & E'). exists e. split; [reflexivity|]. f_equal.
      symmetry. apply (bool_eq _ _ _ E). rewrite small_sym by exact L. exact E'.
    - apply (two_keys (ld_fishers a) (ld_fishers b)); [exact KF|exact KF'|]. intros k' x y Hx Hy. destruct (TF _ _ _ Hx Hy) as (m & i & -> & _ & L & _ & E & _). destruct (TF' _ _ _ Hy Hx) as (m' & i' & -> & _ & _ & _ & E' & _). exists m. split; [reflexivity|]. f_equal.
      symmetry. apply (bool_eq _ _ _ E). rewrite small_sym by exact L. exact E'.
    - apply (two_keys (ld_fishers a) (ld_fishers b)); [rewrite KI; exact KF|rewrite KI'; exact KF'|]. intros k' x y Hx Hy. destruct (TF _ _ _ Hx Hy) as (m & i & _ & -> & _ & L & _ & E). destruct (TF' _ _ _ Hy Hx) as (m' & i' & _ & -> & _ & _ & _ & E'). exists i. split; [reflexivity|]. f_equal.
      symmetry. apply (bool_eq _ _ _ E). rewrite small_sym by exact L. exact E'.
  Qed.

  (** Entries whose sum is negative are never reported: a matrix passes whatever
      its differences there. *)
  Theorem C118_negative_refuted (a b : loaded F) v k x y : compare a b = Ok v ->
    dget String.eqb (ld_fishers a) k = Some x -> dget String.eqb (ld_fishers b) k = Some y ->
    (forall i j, In i (t_rows (fst x)) -> In j (t_cols (fst x)) -> flt (t_val (fst x) i j + t_val (fst y) i j) 0 \/ t_val (fst x) i j = t_val (fst y) i j) ->
    dget String.eqb (v_fisher v) k = Some true.
  Proof.
    intros Hv Hx Hy H. destruct (C118_tests _ _ _ Hv) as (ra & rb & _ & _ & _ & _ & _ & TF & _). destruct (TF _ _ _ Hx Hy) as (m & i & -> & _ & _ & _ & E & _). f_equal. apply E.
    intros r c Hr Hc. destruct (H r c Hr Hc) as [L|Q]; [left; exact L|]. rewrite <- Q. apply passes_same, pow10_pos.
  Qed.

  Lemma rmapM_err {A B} (f : A -> res B) l e : rmapM f l = Err e -> exists x, In x l /\ f x = Err e.
  Proof.
    induction l as [|x l IH]; cbn [rmapM]; [discriminate|]. destruct (f x) as [y|e'] eqn:E; cbn [rbind].
    - destruct (rmapM f l) as [r|e']; cbn [rbind]; [discriminate|]. intros H. injection H as ->. destruct (IH eq_refl) as (z & I & Z). exists z. split; [right; exact I|exact Z].
    - intros H. injection H as ->. exists x. split; [left; reflexivity|exact E].
  Qed.
  (** How a comparison fails. *)
  Theorem C118_fails (a b : loaded F) e : compare a b = Err e ->
    (e = EAttributeError /\ (ld_results a = None \/ ld_results b = None)) \/
    (e = EException /\ ((exists k x y, dget String.eqb (ld_fishers a) k = Some x /\ dget String.eqb (ld_fishers b) k = Some y /\ ~ (alike (fst x) (fst y) /\ alike (snd x) (snd y))) \/
      (exists ra rb k x y, ld_results a = Some ra /\ ld_results b = Some rb /\ dget String.eqb ra k = Some x /\ dget String.eqb rb k = Some y /\ ~ alike x y))).
  Proof.
    assert (PE : forall x y : tab F, pad_tab x y = Err EException -> ~ alike x y) by (intros x y E L; apply pad_tab_ok in L; destruct L as [t L]; congruence).
    unfold compare. destruct (rmapM (fisher_metric a b) _) as [fs|e'] eqn:EF; cbn [rbind].
    - destruct (ld_results a) as [ra|] eqn:A; [|intros H; injection H as <-; left; auto]. destruct (ld_results b) as [rb|] eqn:B; [|intros H; injection H as <-; left; auto].
      destruct (rmapM (errors_metric ra rb) _) as [es|e'] eqn:EE; cbn [rbind]; [discriminate|]. intros H. injection H as ->. right.
      apply rmapM_err in EE. destruct EE as (k & I & E). apply common_iff in I. destruct I as [Ia Ib]. unfold errors_metric, look in E.
      destruct (dget String.eqb ra k) as [x|] eqn:Ex; [|apply (dget_None _ String.eqb_spec) in Ex; contradiction]. destruct (dget String.eqb rb k) as [y|] eqn:Ey; [|apply (dget_None _ String.eqb_spec) in Ey; contradiction].
      cbn [rbind] in E. destruct (pad_tab x y) as [t|e'] eqn:P; cbn [rbind] in E; [discriminate|]. injection E as ->. pose proof (pad_tab_err _ _ _ P). subst e. split; [reflexivity|].
      right. exists ra, rb, k, x, y. auto 6.
    - intros H. injection H as ->. right. apply rmapM_err in EF. destruct EF as (k & I & E). apply common_iff in I. destruct I as [Ia Ib]. unfold fisher_metric, look in E.
      destruct (dget String.eqb (ld_fishers a) k) as [x|] eqn:Ex; [|apply (dget_None _ String.eqb_spec) in Ex; contradiction]. destruct (dget String.eqb (ld_fishers b) k) as [y|] eqn:Ey; [|apply (dget_None _ String.eqb_spec) in Ey; contradiction].
      cbn [rbind] in E. destruct (pad_tab (fst x) (fst y)) as [t|e'] eqn:P; cbn [rbind] in E.
      + destruct (pad_tab (snd x) (snd y)) as [t'|e'] eqn:P'; cbn [rbind] in E; [discriminate|]. injection E as ->. pose proof (pad_tab_err _ _ _ P'). subst e. split; [reflexivity|]. left. exists k, x, y. split; [exact Ex|]. split; [exact Ey|]. intros [_ L]. exact (PE _ _ P' L).
      + injection E as ->. pose proof (pad_tab_err _ _ _ P). subst e. split; [reflexivity|]. left. exists k, x, y. split; [exact Ex|]. split; [exact Ey|]. intros [L _]. exact (PE _ _ P L).
  Qed.
  (** Without directory results nothing is tested. *)
  Theorem C118_no_results_refuted (fa fb : dict string (tab F * tab F)) rb :
    (forall v, compare (mkLoaded fa None) (mkLoaded fb rb) <> Ok v) /\ (forall v, compare (mkLoaded fb rb) (mkLoaded fa None) <> Ok v).
  Proof.
    split; intros v H.
    - destruct (proj1 (C118_succeeds _ _) (ex_intro _ v H)) as (x & y & A & _). discriminate.
    - destruct (proj1 (C118_succeeds _ _) (ex_intro _ v H)) as (x & y & _ & A & _). discriminate.
  Qed.

  (** The results of a run: read when every directory has one file of errors and
      one of relative errors, but not from the files that the code writes. *)
  Lemma ends_suffix a b : ends b (a ++ b)%string = true.
  Proof.
    unfold ends. apply existsb_exists. exists (String.length a). split.
    - apply in_seq. rewrite slen_app. lia.
    - apply String.eqb_eq. rewrite slen_app. replace (String.length a + String.length b - String.length a)%nat with (String.length b) by lia.
      induction a as [|c a IH]; cbn; [|exact IH]. clear. induction b as [|c b IH]; cbn; [reflexivity|rewrite IH; reflexivity].
  Qed.
  Theorem C118_results (l : list (string * (string * (tab F * tab F)))) :
    load_results None = Ok (None (A := dict string (tab F))) /\
    load_results (Some (map (fun c => (fst c, [(("errors" ++ fst (snd c) ++ ".csv")%string, fst (snd (snd c))); (("relative_errors" ++ fst (snd c) ++ ".csv")%string, snd (snd (snd c)))])) l)) =
      Ok (Some (map (fun c => (fst c, fst (snd (snd c)))) l)).
  Proof.
    split; [reflexivity|]. unfold load_results. cbv iota beta.
    match goal with |- (d <- rmapM ?f ?m ;; _) = _ => assert (H : rmapM f m = Ok (map (fun cf => (fst cf, match snd cf with (_, e) :: _ => e | [] => mkTab [] [] (fun _ _ => 0) end)) m)); [apply rmapM_Ok|rewrite H] end.
    2: { cbn [rbind]. rewrite map_map. reflexivity. }
    intros x Hx. apply in_map_iff in Hx. destruct Hx as ([c [n [e r]]] & <- & _). cbn [fst snd]. unfold one_file. cbn [filter fst snd].
      assert (A : glob_csv "errors" ("errors" ++ n ++ ".csv") = true) by (unfold glob_csv; cbn; apply ends_suffix).
      assert (B : glob_csv "errors" ("relative_errors" ++ n ++ ".csv") = false) by reflexivity.
      assert (C : glob_csv "relative_errors" ("errors" ++ n ++ ".csv") = false) by reflexivity.
      assert (D : glob_csv "relative_errors" ("relative_errors" ++ n ++ ".csv") = true) by (unfold glob_csv; cbn; apply ends_suffix).
      rewrite A, B, C, D. reflexivity.
  Qed.
  Theorem C118_own_results_refuted (l : list (string * dict string (tab F))) c name e r :
    In (c, written name e r) l -> load_results (Some l) = Err EException.
  Proof.
    intros I. unfold load_results. cbv iota.
    assert (W : forall cf, (exists p, (e <- one_file "errors" (snd cf) ;; _ <- one_file "relative_errors" (snd cf) ;; Ok (fst cf, e)) = Ok p) \/ (e <- one_file (F := F) "errors" (snd cf) ;; _ <- one_file "relative_errors" (snd cf) ;; Ok (fst (A := string) cf, e)) = Err EException).
    { intros cf. unfold one_file. destruct (filter _ (snd cf)) as [|f [|]]; cbn [rbind]; [right; reflexivity| |right; reflexivity]. destruct (filter _ (snd cf)) as [|f' [|]]; cbn [rbind]; [right; reflexivity|left; eexists; reflexivity|right; reflexivity]. }
    destruct (rmapM _ l) as [d|e'] eqn:E; cbn [rbind].
    - exfalso. assert (X := proj1 (UsageProps.rmapM_iff _ _ _) E). clear W E. induction X as [|x y l' d' H _ IH]; [destruct I|]. destruct I as [->|I]; [|exact (IH I)]. cbn [snd fst] in H. discriminate H.
    - apply rmapM_err in E. destruct E as (x & _ & E). cbv beta in E. destruct (W x) as [[q Q]|Q]; rewrite E in Q; [discriminate Q|injection Q as ->; reflexivity].
  Qed.
End C118.

(** ** Versions *)
Lemma version_at_sep (id r : string) : (version_at (id ++ String "_" r) = version_at id)%string.
Proof.
  assert (U : is_digit "_" = false) by reflexivity.
  destruct id as [|a [|b [|c [|d [|e [|f id]]]]]]; cbn [String.append version_at]; rewrite ?U; cbn [andb Ascii.eqb]; rewrite ?andb_false_r; try reflexivity.
  - destruct r as [|? [|? [|? [|? r]]]]; reflexivity.
  - destruct r as [|? [|? [|? r]]]; rewrite ?andb_false_r; reflexivity.
  - destruct r as [|? [|? r]]; rewrite ?andb_false_r; reflexivity.
  - destruct r as [|? r]; rewrite ?andb_false_r; reflexivity.
Qed.
Lemma find_version_sep (id r : string) : (find_version (id ++ String "_" r) = match find_version id with Some v => Some v | None => find_version r end)%string.
Proof.
  induction id as [|c id IH]; [cbn [String.append find_version]; pose proof (version_at_sep "" r) as E; cbn [String.append] in E; rewrite E; reflexivity|]. cbn [String.append find_version]. change (String c (id ++ String "_" r))%string with (String c id ++ String "_" r)%string. rewrite version_at_sep.
  destruct (version_at (String c id)); [reflexivity|exact IH].
Qed.
(** A version, as the code writes it. *)
Definition triple (a b c : ascii) : string := String a (String "." (String b (String "." (String c "")))).
(** The version is read from the name, unless the identifier has one itself. *)
Theorem C118_version (id stamp : string) a b c : is_digit a = true -> is_digit b = true -> is_digit c = true ->
  run_version (run_name id (triple a b c) stamp) = Ok (match find_version id with Some v => v | None => triple a b c end).
Proof.
  intros A B C. unfold run_version, run_name. change ("_" ++ ?x)%string with (String "_" x). cbn [String.append]. rewrite find_version_sep. destruct (find_version id); [reflexivity|].
  unfold triple. cbn [String.append find_version version_at]. rewrite A, B, C. destruct (String.eqb stamp ""); reflexivity.
Qed.
Lemma version_at_triple a b c q : is_digit a = true -> is_digit b = true -> is_digit c = true -> version_at (triple a b c ++ q)%string <> None.
Proof. intros A B C. unfold triple. cbn [String.append version_at]. rewrite A, B, C. cbn. discriminate. Qed.
(** A run whose name has no version cannot be loaded, whatever it contains. *)
Theorem C118_no_version_refuted (name : string) : run_version name = Err EAttributeError <->
  forall a b c p q, is_digit a = true -> is_digit b = true -> is_digit c = true -> name <> (p ++ triple a b c ++ q)%string.
Proof.
  unfold run_version. split.
  - intros H a b c p q A B C ->. assert (N : find_version (p ++ triple a b c ++ q)%string <> None).
    { clear H. pose proof (version_at_triple a b c q A B C) as V. induction p as [|x p IH]; cbn [String.append].
      - unfold triple in *. cbn [String.append find_version] in *. destruct (version_at _); [discriminate|contradiction].
      - cbn [find_version]. clear V. match goal with |- context [version_at ?t] => destruct (version_at t) end; [discriminate|exact IH]. }
    destruct (find_version _); [discriminate|apply N; reflexivity].
  - intros H. replace (find_version name) with (None (A := string)); [reflexivity|]. symmetry. induction name as [|x name IH]; [reflexivity|]. cbn [find_version].
    destruct (version_at (String x name)) eqn:E.
    + exfalso. unfold version_at in E. do 4 (destruct name as [|? name]; [discriminate|]). destruct (is_digit x) eqn:A; [|discriminate]. cbn [andb] in E.
      destruct (Ascii.eqb_spec a "."); [|discriminate]. cbn [andb] in E. destruct (is_digit a0) eqn:B; [|discriminate]. cbn [andb] in E. destruct (Ascii.eqb_spec a1 "."); [|discriminate]. cbn [andb] in E. destruct (is_digit a2) eqn:C; [|discriminate]. subst. apply (H x a0 a2 ""%string name A B C). reflexivity.
    + apply IH. intros a b c p q A B C ->. apply (H a b c (String x p) q A B C). reflexivity.
Qed.

(** Two runs: the first Fisher matrix differs by a factor two in an entry that is
    negative, and passes; the second differs in a positive one, and is reported. *)
Definition c118_tab (x y : Z) : tab Qc := mkTab ["Om"; "s8"]%string ["Om"; "s8"]%string (fun i j => if String.eqb i j then qz x else qz y).
Definition c118_a : loaded Qc := mkLoaded [("GC", (c118_tab 4 (-1), c118_tab 4 1)); ("WL", (c118_tab 4 1, c118_tab 4 1)); ("CG", (c118_tab 1 0, c118_tab 1 0))]%string (Some [("w0waCDM", c118_tab 1 1)]%string).
Definition c118_b : loaded Qc := mkLoaded [("WL", (c118_tab 4 2, c118_tab 4 1)); ("GC", (c118_tab 4 (-2), c118_tab 4 1))]%string (Some [("w0waCDM", c118_tab 1 1)]%string).
Example C118_instance :
  match compare c118_a c118_b with
  | Ok v => v_fisher v = [("GC", true); ("WL", false)]%string /\ v_inverse v = [("GC", true); ("WL", true)]%string /\ v_errors v = [("w0waCDM", true)]%string
  | Err _ => False
  end /\
  compare (mkLoaded (ld_fishers c118_a) None) c118_b = Err EAttributeError /\
  run_version "run_seyfert_1.3.8_2022-01-01T10-00-00" = Ok "1.3.8"%string /\ run_version "v2.0.1b_1.3.8" = Ok "2.0.1b"%string /\ run_version "my_run" = Err EAttributeError.
Proof. split; [vm_compute; repeat split|]. split; [reflexivity|repeat split]. Qed.


(** The thresholds are the powers of one tenth. *)
Theorem C118_thresholds {F} {K : Fld F} {O : OFld (F := F)} (n : nat) :
  fmul (fnat (10 ^ n)) (pow10 n) = (fo : F).
Proof.
  assert (E : forall n, fnat (10 ^ n) = (fpow (fnat 10) n : F)). { clear n. induction n as [|n IH]; [cbn [Nat.pow fpow fnat]; rewrite (Radd_comm (F_R fth)); apply (Radd_0_l (F_R fth))|]. rewrite Nat.pow_succ_r'. rewrite fnat_mul, IH. reflexivity. }
  rewrite E. unfold pow10. assert (N : fpow (fnat 10) n <> (fz : F)). { rewrite <- E. apply fnat_neq. pose proof (Nat.pow_nonzero 10 n ltac:(lia)). lia. }
  rewrite (Fdiv_def fth), (Rmul_comm (F_R fth)), <- (Rmul_assoc (F_R fth)), (Finv_l fth _ N), (Rmul_1_l (F_R fth)). reflexivity.
Qed.
(** A version may end with a letter. *)
Definition letters : list ascii := list_ascii_of_string "abcdefghijklmnopqrstuvwxyz".
Theorem C118_version_letter (id stamp : string) a b c l : is_digit a = true -> is_digit b = true -> is_digit c = true -> In l letters ->
  run_version (run_name id (triple a b c ++ String l "") stamp) = Ok (match find_version id with Some v => v | None => triple a b c ++ String l "" end)%string.
Proof.
  intros A B C L. unfold run_version, run_name. change ("_" ++ ?x)%string with (String "_" x). cbn [String.append]. rewrite find_version_sep. destruct (find_version id); [reflexivity|].
  assert (Lw : is_lower l = true) by (unfold letters in L; cbn in L; repeat (destruct L as [<-|L]; [reflexivity|]); destruct L).
  unfold triple. cbn [String.append find_version version_at]. rewrite A, B, C, Lw. reflexivity.
Qed.
(** No other character after the third figure belongs to the version. *)
Theorem C118_version_end a b c l r : is_digit a = true -> is_digit b = true -> is_digit c = true -> ~ In l letters ->
  run_version (triple a b c ++ String l r)%string = Ok (triple a b c).
Proof.
  intros A B C L. unfold run_version, triple. cbn [String.append find_version version_at]. rewrite A, B, C. cbn [andb Ascii.eqb Bool.eqb].
  destruct (is_lower l) eqn:Lw; [|reflexivity]. exfalso. apply L. clear -Lw. unfold letters.
  destruct l as [b0 b1 b2 b3 b4 b5 b6 b7]; destruct b0, b1, b2, b3, b4, b5, b6, b7; cbn in Lw; try discriminate; cbn; repeat (first [left; reflexivity|right]).
Qed.
(** The name of a run: identifier, version and the time, if it is asked for. *)
Theorem C118_name (id v stamp : string) : run_name id v "" = (id ++ "_" ++ v)%string /\ (stamp <> ""%string -> run_name id v stamp = (id ++ "_" ++ v ++ "_" ++ stamp)%string).
Proof.
  unfold run_name. split; [cbn; rewrite sapp_nil_r; reflexivity|]. intros N. destruct (String.eqb_spec stamp ""); [contradiction|reflexivity].
Qed.
Example C118_letter_instance : In "b"%char letters /\ ~ In "_"%char letters /\ run_version (run_name "run" "1.3.8b" "") = Ok "1.3.8b"%string /\ run_version "1.3.8_b" = Ok "1.3.8"%string.
Proof. split; [cbn; tauto|]. split; [intros H; cbn in H; repeat (destruct H as [H|H]; [discriminate|]); exact H|]. split; reflexivity. Qed.

Print Assumptions C118_tests.
Print Assumptions C118_succeeds.
Print Assumptions C118_same.
Print Assumptions C118_symmetric.
Print Assumptions C118_negative_refuted.
Print Assumptions C118_fails.
Print Assumptions C118_no_results_refuted.
Print Assumptions C118_results.
Print Assumptions C118_own_results_refuted.
Print Assumptions C118_version.
Print Assumptions C118_no_version_refuted.
Print Assumptions C118_thresholds.
Print Assumptions C118_version_letter.
Print Assumptions C118_version_end.
Print Assumptions C118_name.
