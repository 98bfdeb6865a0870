From Verif Require Import Base SortLib StrLib FrameModel FrameLemmas FisherModel HeapModel ResultsModel ResultsSpec HeapLemmas.
Open Scope list_scope.

Section ResultsLemmas.
  Context {F : Type} {K : Fld F} {O : OFld (F := F)} {S : SqrtFld F} {SO : SetOrder}.
  Implicit Types h : heap F.

  (** ** Two runs side by side
      [r] relates the addresses of one run to those of the other. *)
  Definition rel := nat -> nat -> Prop.
  Implicit Types r : rel.
  Definition sub (r r' : rel) : Prop := forall a b, r a b -> r' a b.
  Definition okr h1 h2 (r : rel) : Prop :=
    (forall a b, r a b -> exists f, view h1 a = Some f /\ view h2 b = Some f) /\
    (forall a b a' b', r a b -> r a' b' -> (a = a' <-> b = b')).
  Definition keeps (n : nat) h h' : Prop := forall a f, a < n -> view h a = Some f -> view h' a = Some f.
  (** Related programs: equal exceptions or related results; objects below [n]
      of the left run keep their contents. *)
  Definition sim (n : nat) (r : rel) {A B} (m1 : M F A) (m2 : M F B) (Q : rel -> A -> B -> Prop) : Prop :=
    forall h1 h2, n <= length (obs h1) -> okr h1 h2 r ->
    exists r', sub r r' /\ keeps n h1 (fst (m1 h1)) /\ n <= length (obs (fst (m1 h1))) /\
      match snd (m1 h1), snd (m2 h2) with
      | Ok x, Ok y => okr (fst (m1 h1)) (fst (m2 h2)) r' /\ Q r' x y
      | Err e, Err e' => e = e'
      | _, _ => False
      end.
  Lemma sub_refl r : sub r r. Proof. intros a b H; exact H. Qed.
  Lemma sub_trans r1 r2 r3 : sub r1 r2 -> sub r2 r3 -> sub r1 r3. Proof. intros A B a b H; auto. Qed.
  Lemma keeps_refl n h : keeps n h h. Proof. intros a f _ H; exact H. Qed.
  Lemma keeps_trans n h1 h2 h3 : keeps n h1 h2 -> keeps n h2 h3 -> keeps n h1 h3. Proof. intros A B a f L H; auto. Qed.
  Lemma keeps_grows n h h' : grows h h' -> keeps n h h'. Proof. intros G a f _ H. eapply grows_view; eauto. Qed.

  Lemma sim_ret n r {A B} (x : A) (y : B) (Q : rel -> A -> B -> Prop) : Q r x y -> sim n r (ret x) (ret y) Q.
  Proof. intros H h1 h2 L R. exists r. split; [apply sub_refl|]. split; [apply keeps_refl|]. cbn. auto. Qed.
  Lemma sim_raise n r {A B} e (Q : rel -> A -> B -> Prop) : sim n r (raise e) (raise e) Q.
  Proof. intros h1 h2 L R. exists r. split; [apply sub_refl|]. split; [apply keeps_refl|]. cbn. auto. Qed.
  Lemma sim_of_res n r {A B} (x : res A) (y : res B) (Q : rel -> A -> B -> Prop) :
    match x, y with Ok u, Ok v => Q r u v | Err e, Err e' => e = e' | _, _ => False end -> sim n r (of_res x) (of_res y) Q.
  Proof.
    intros H h1 h2 L R. exists r. split; [apply sub_refl|]. split; [apply keeps_refl|]. cbn. split; [exact L|].
    destruct x, y; auto.
  Qed.
  Lemma sim_bind n r {A B A' B'} (m1 : M F A) (m2 : M F B) (k1 : A -> M F A') (k2 : B -> M F B') Q Q' :
    sim n r m1 m2 Q -> (forall r' x y, sub r r' -> Q r' x y -> sim n r' (k1 x) (k2 y) Q') -> sim n r (bind m1 k1) (bind m2 k2) Q'.
  Proof.
    intros Hm Hk h1 h2 L R. destruct (Hm h1 h2 L R) as (r1 & S1 & K1 & L1 & H1). unfold bind.
    destruct (m1 h1) as [h1' [x|e]], (m2 h2) as [h2' [y|e']]; cbn [fst snd] in *; try contradiction.
    - destruct H1 as [R1 H1]. destruct (Hk r1 x y S1 H1 h1' h2' L1 R1) as (r2 & S2 & K2 & L2 & H2).
      exists r2. split; [eapply sub_trans; eauto|]. split; [eapply keeps_trans; eauto|]. split; [exact L2|]. exact H2.
    - exists r1. subst. auto.
  Qed.
  Lemma sim_post n r {A B} (m1 : M F A) (m2 : M F B) (Q Q' : rel -> A -> B -> Prop) :
    (forall r' x y, Q r' x y -> Q' r' x y) -> sim n r m1 m2 Q -> sim n r m1 m2 Q'.
  Proof.
    intros H Hm h1 h2 L R. destruct (Hm h1 h2 L R) as (r1 & S1 & K1 & L1 & H1). exists r1. repeat (split; [assumption|]).
    destruct (snd (m1 h1)), (snd (m2 h2)); auto. destruct H1; split; auto.
  Qed.

  (** ** Primitive operations *)
  Definition addp (r : rel) (c d : nat) : rel := fun a b => r a b \/ (a = c /\ b = d).
  Lemma okr_grow h1 h2 h1' h2' r c d f : okr h1 h2 r -> grows h1 h1' -> grows h2 h2' ->
    length (obs h1) <= c -> length (obs h2) <= d -> view h1' c = Some f -> view h2' d = Some f -> okr h1' h2' (addp r c d).
  Proof.
    intros [R1 R2] G1 G2 Lc Ld Vc Vd. split.
    - intros a b [H|[-> ->]]; [|exists f; auto]. destruct (R1 a b H) as (g & A & B). exists g. split; eapply grows_view; eauto.
    - assert (X : forall a b, r a b -> a < length (obs h1) /\ b < length (obs h2)).
      { intros a b H. destruct (R1 a b H) as (g & A & B). split; eapply view_lt; eauto. }
      intros a b a' b' [H|[-> ->]] [H'|[-> ->]].
      + apply R2; assumption.
      + apply X in H. lia.
      + apply X in H'. lia.
      + tauto.
  Qed.
  Lemma sim_copy n r a b : r a b -> sim n r (h_copy a) (h_copy b) (fun r' c d => r' c d /\ n <= c).
  Proof.
    intros Hr h1 h2 L R. pose proof (copy_spec a h1) as C1. pose proof (copy_spec b h2) as C2.
    destruct (proj1 R a b Hr) as (f & Va & Vb).
    destruct (h_copy a h1) as [h1' [c|e]]; [|destruct C1; congruence]. destruct (h_copy b h2) as [h2' [d|e]]; [|destruct C2; congruence].
    destruct C1 as (f1 & V1 & G1 & -> & W1). destruct C2 as (f2 & V2 & G2 & -> & W2). assert (f1 = f) by congruence. assert (f2 = f) by congruence. subst.
    exists (addp r (length (obs h1)) (length (obs h2))). cbn [fst snd]. split; [intros x y; left; assumption|].
    split; [apply keeps_grows; exact G1|]. split; [apply grows_length in G1; lia|]. split.
    - eapply okr_grow; eauto.
    - split; [right; auto|exact L].
  Qed.
  Lemma sim_combine n r op sym a b a' b' : r a b -> r a' b' ->
    sim n r (h_combine op sym a a') (h_combine op sym b b') (fun r' c d => r' c d /\ n <= c).
  Proof.
    intros Ha Hb h1 h2 L R. destruct (proj1 R _ _ Ha) as (f & V1 & V2). destruct (proj1 R _ _ Hb) as (g & W1 & W2).
    destruct (combine_spec op sym _ _ _ _ _ V1 W1) as (h1' & c & E1 & G1 & C1 & X1).
    destruct (combine_spec op sym _ _ _ _ _ V2 W2) as (h2' & d & E2 & G2 & C2 & X2). rewrite E1, E2.
    exists (addp r c d). cbn [fst snd]. split; [intros x y; left; assumption|]. split; [apply keeps_grows; exact G1|].
    split; [apply grows_length in G1; lia|]. split; [eapply okr_grow; eauto|]. split; [right; auto|lia].
  Qed.
  Lemma sim_method n r {A} rb (m : fisher F -> fisher F * res A) a b : r a b -> n <= a ->
    sim n r (h_method rb m a) (h_method rb m b) (fun r' x y => r' = r /\ x = y).
  Proof.
    intros Hr La h1 h2 L R. exists r. split; [apply sub_refl|]. destruct (proj1 R _ _ Hr) as (f & V1 & V2). unfold h_method.
    rewrite (proj2 (hget_view _ _ _) V1), (proj2 (hget_view _ _ _) V2). destruct (m f) as [f' x]; cbn [fst snd]. split.
    - intros a' g La' V. apply assign_other; [lia|exact V].
    - rewrite assign_length. split; [exact L|]. destruct x as [x|e]; [|reflexivity]. split; [|auto]. split; [|exact (proj2 R)].
      intros a' b' Hr'. destruct (Nat.eq_dec a' a) as [->|Na].
      + assert (b' = b) as -> by (symmetry; apply (proj2 R a b a b' Hr Hr'); reflexivity).
        eexists. split; [apply assign_same; exact V1|apply assign_same; exact V2].
      + assert (b' <> b) by (intros ->; apply Na; apply (proj2 R a' b a b Hr' Hr); reflexivity).
        destruct (proj1 R _ _ Hr') as (g & A1 & A2). exists g. split; apply assign_other; assumption.
  Qed.

  (** ** Dictionaries of objects *)
  Definition drel (n : nat) (r : rel) (p q : string * nat) : Prop := fst p = fst q /\ r (snd p) (snd q) /\ n <= snd p.
  Definition dictrel n r (d e : odict) : Prop := Forall2 (drel n r) d e.
  Lemma drel_mono n r r' p q : sub r r' -> drel n r p q -> drel n r' p q.
  Proof. intros H (A & B & C). split; [exact A|]. split; [apply H; exact B|exact C]. Qed.
  Lemma dictrel_mono n r r' d e : sub r r' -> dictrel n r d e -> dictrel n r' d e.
  Proof. intros H D. induction D; constructor; [eapply drel_mono; eauto|assumption]. Qed.
  Lemma dictrel_get n r d e k : dictrel n r d e ->
    match dget String.eqb d k, dget String.eqb e k with
    | Some a, Some b => r a b /\ n <= a | None, None => True | _, _ => False end.
  Proof.
    intros D. induction D as [|[k1 a] [k2 b] d e (E & Hr & L) D IH]; cbn; [exact I|]. cbn in *. subst k2.
    destruct (String.eqb k1 k); auto.
  Qed.
  Lemma dictrel_set n r d e k a b : dictrel n r d e -> r a b -> n <= a -> dictrel n r (dset String.eqb d k a) (dset String.eqb e k b).
  Proof.
    intros D Hr L. induction D as [|[k1 x] [k2 y] d e (E & Hxy & Lx) D IH]; cbn; [repeat constructor; auto|]. cbn in *. subst k2.
    destruct (String.eqb k1 k); constructor; auto; split; cbn; auto.
  Qed.
  Lemma dictrel_update n r d e d0 e0 : dictrel n r d e -> dictrel n r d0 e0 -> dictrel n r (dupdate String.eqb d0 d) (dupdate String.eqb e0 e).
  Proof.
    intros D. revert d0 e0. induction D as [|[k1 x] [k2 y] d e (E & Hxy & Lx) D IH]; intros d0 e0 D0; cbn; [exact D0|]. cbn in *. subst k2.
    apply IH. apply dictrel_set; assumption.
  Qed.
  Lemma dictrel_keys n r d e : dictrel n r d e -> dkeys d = dkeys e.
  Proof. intros D. induction D as [|p q d e (E & _) D IH]; cbn; [reflexivity|]. unfold dkeys in IH. rewrite E, IH. reflexivity. Qed.
  Lemma dictrel_ge n r d e k a : dictrel n r d e -> In (k, a) d -> n <= a.
  Proof. intros D. induction D as [|p q d e (_ & _ & L) D IH]; intros Hin; [destruct Hin|]. destruct Hin as [->|Hin]; [exact L|auto]. Qed.
  Lemma sim_for_each n r (f g : string * nat -> M F unit) d e : dictrel n r d e ->
    (forall r' p q, sub r r' -> drel n r' p q -> sim n r' (f p) (g q) (fun _ _ _ => True)) ->
    sim n r (for_each f d) (for_each g e) (fun _ _ _ => True).
  Proof.
    intros D. revert r e D. induction d as [|p d IH]; intros r e D H; inversion D as [|? q ? e' Hpq D']; subst; cbn; [apply sim_ret; exact I|].
    eapply sim_bind; [apply H; [apply sub_refl|exact Hpq]|]. intros r' _ _ Hs _. apply IH; [eapply dictrel_mono; eauto|].
    intros r2 p2 q2 Hs2 D2. apply H; [eapply sub_trans; eauto|exact D2].
  Qed.
  Lemma sim_map_each n r {Y} (f g : string * nat -> M F Y) d e : dictrel n r d e ->
    (forall r' p q, sub r r' -> drel n r' p q -> sim n r' (f p) (g q) (fun _ x y => x = y)) ->
    sim n r (map_each f d) (map_each g e) (fun _ x y => x = y).
  Proof.
    intros D. revert r e D. induction d as [|p d IH]; intros r e D H; inversion D as [|? q ? e' Hpq D']; subst; cbn; [apply sim_ret; reflexivity|].
    eapply sim_bind; [apply H; [apply sub_refl|exact Hpq]|]. intros r' x y Hs <-. eapply sim_bind; [apply IH; [eapply dictrel_mono; eauto|]|].
    - intros r2 p2 q2 Hs2 D2. apply H; [eapply sub_trans; eauto|exact D2].
    - intros r2 u v _ <-. apply sim_ret. reflexivity.
  Qed.

  (** Deep copies. *)
  Definition memrel n (r : rel) (m m' : dict nat nat) : Prop :=
    Forall2 (fun p q => r (fst p) (fst q) /\ r (snd p) (snd q) /\ n <= snd p) m m'.
  Definition baserel (r : rel) (d e : odict) : Prop := Forall2 (fun p q => fst p = fst q /\ r (snd p) (snd q)) d e.
  Definition inj (r : rel) : Prop := forall a b a' b', r a b -> r a' b' -> (a = a' <-> b = b').
  Lemma memrel_get n (r : rel) m m' a b : inj r -> memrel n r m m' -> r a b ->
    match dget Nat.eqb m a, dget Nat.eqb m' b with Some c, Some d => r c d /\ n <= c | None, None => True | _, _ => False end.
  Proof.
    intros J Hm Hr. induction Hm as [|[k1 x] [k2 y] m m' (A & B & C) Hm IH]; cbn; [exact I|]. cbn in *. destruct (J _ _ _ _ A Hr) as [J1 J2].
    destruct (Nat.eqb k1 a) eqn:E1, (Nat.eqb k2 b) eqn:E2; auto.
    - apply Nat.eqb_eq in E1. apply Nat.eqb_neq in E2. exfalso; auto.
    - apply Nat.eqb_eq in E2. apply Nat.eqb_neq in E1. exfalso; auto.
  Qed.
  Lemma dset_new {V} (m : dict nat V) a b : dget Nat.eqb m a = None -> dset Nat.eqb m a b = m ++ [(a, b)].
  Proof. induction m as [|[k x] m IH]; cbn; [reflexivity|]. destruct (Nat.eqb k a); [discriminate|]. intros E. rewrite IH by exact E. reflexivity. Qed.
  Lemma inj_sub r r' : inj r' -> sub r r' -> inj r.
  Proof. intros J H a b a' b' A B. apply J; auto. Qed.
  Lemma sim_with_inj n r {A B} (m1 : M F A) (m2 : M F B) Q : (inj r -> sim n r m1 m2 Q) -> sim n r m1 m2 Q.
  Proof. intros H h1 h2 L R. apply H; [exact (proj2 R)|exact L|exact R]. Qed.
  Lemma baserel_mono r r' d e : sub r r' -> baserel r d e -> baserel r' d e.
  Proof. intros H D. induction D as [|p q d e (A & B) D IH]; constructor; auto. Qed.
  Lemma memrel_mono n r r' d e : sub r r' -> memrel n r d e -> memrel n r' d e.
  Proof. intros H D. induction D as [|p q d e (A & B & C) D IH]; constructor; auto. Qed.
  Lemma sim_deepcopy n d : forall r e m m', baserel r d e -> memrel n r m m' -> sim n r (deepcopy d m) (deepcopy e m') (dictrel n).
  Proof.
    induction d as [|[k a] d IH]; intros r e m m' D Hm; inversion D as [|? [k' b] ? e' (E & Hab) D']; subst; cbn in *.
    - apply sim_ret. constructor.
    - subst k'. apply sim_with_inj. intros J. pose proof (memrel_get n r m m' a b J Hm Hab) as G.
      destruct (dget Nat.eqb m a) as [c|] eqn:G1, (dget Nat.eqb m' b) as [c'|] eqn:G2; try contradiction.
      + eapply sim_bind; [apply IH; eauto|]. intros r' u v Hs Huv. apply sim_ret. constructor; [|exact Huv].
        destruct G as [G G']. repeat split; cbn; auto.
      + eapply sim_bind; [apply sim_copy; exact Hab|]. intros r' u v Hs (Huv & Lu).
        eapply sim_bind; [apply IH; [eapply baserel_mono; eauto|]|].
        * rewrite (dset_new _ _ _ G1), (dset_new _ _ _ G2). apply Forall2_app; [eapply memrel_mono; eauto|]. repeat constructor; cbn; auto.
        * intros r2 x y Hs2 Hxy. apply sim_ret. constructor; [repeat split; cbn; auto|exact Hxy].
  Qed.

  (** Combinations. *)
  Lemma sim_dict_at n r d e k : dictrel n r d e -> sim n r (dict_at d k) (dict_at e k) (fun r' a b => r' a b /\ n <= a).
  Proof.
    intros D. pose proof (dictrel_get n r d e k D) as G. unfold dict_at. destruct (dget String.eqb d k), (dget String.eqb e k); try contradiction.
    - apply sim_ret. exact G.
    - apply sim_raise.
  Qed.
  Lemma sim_fold_ops n l is : forall r d e a b, dictrel n r d e -> r a b -> n <= a ->
    sim n r (fold_ops d l is a) (fold_ops e l is b) (fun r' a b => r' a b /\ n <= a).
  Proof.
    induction is as [|i is IH]; intros r d e a b D Hab L; cbn; [apply sim_ret; auto|].
    destruct (nth_error l (i + 1)); [|apply sim_raise]. eapply sim_bind; [apply sim_dict_at; exact D|]. intros r' a' b' Hs [H' L'].
    eapply sim_bind.
    - unfold apply_op. destruct (String.eqb _ _); [apply (sim_combine n r' fadd)|apply (sim_combine n r' fsub)]; auto.
    - intros r2 a2 b2 Hs2 [H2 L2]. apply IH; auto. eapply dictrel_mono; [|exact D]. eapply sub_trans; eauto.
  Qed.
  Lemma dictrel_mem n r d e k : dictrel n r d e -> dmem String.eqb d k = dmem String.eqb e k.
  Proof. intros D. pose proof (dictrel_get n r d e k D) as G. unfold dmem. destruct (dget String.eqb d k), (dget String.eqb e k); try contradiction; reflexivity. Qed.
  Lemma sim_compute n r name d e : dictrel n r d e ->
    sim n r (compute_comb name d) (compute_comb name e)
      (fun r' x y => match x, y with Some a, Some b => r' a b /\ n <= a | None, None => True | _, _ => False end).
  Proof.
    intros D. unfold compute_comb. set (l := split_ops "" name).
    assert (E : existsb (fun x => negb (is_op x) && negb (dmem String.eqb d x)) l = existsb (fun x => negb (is_op x) && negb (dmem String.eqb e x)) l).
    { induction l as [|x l IH]; cbn; [reflexivity|]. rewrite (dictrel_mem n r d e x D), IH. reflexivity. }
    rewrite <- E. destruct (existsb _ l); [apply sim_ret; exact I|].
    eapply sim_bind; [apply sim_dict_at; exact D|]. intros r' a b Hs [Hab L].
    eapply sim_bind; [apply sim_fold_ops; eauto using dictrel_mono|]. intros r2 a2 b2 Hs2 H2. apply sim_ret. exact H2.
  Qed.
  Lemma sim_combs n posts : forall r d e, dictrel n r d e -> sim n r (eval_combs posts d) (eval_combs posts e) (dictrel n).
  Proof.
    induction posts as [|p posts IH]; intros r d e D; cbn; [apply sim_ret; exact D|].
    eapply sim_bind; [apply sim_compute; exact D|]. intros r' x y Hs H. apply IH.
    destruct x, y; try contradiction; [|eapply dictrel_mono; eauto]. destruct H. apply dictrel_set; auto. eapply dictrel_mono; eauto.
  Qed.

  (** Analyses. *)
  Definition anrel n (r : rel) (x y : analysis F) : Prop :=
    dictrel n r (an_fishers x) (an_fishers y) /\ an_fid x = an_fid y /\ an_errs x = an_errs y /\ an_rel x = an_rel y.
  Lemma sim_method_unit n r {A} rb (m : fisher F -> fisher F * res A) (a b : nat) : r a b -> n <= a ->
    sim n r (h_method rb m a) (h_method rb m b) (fun _ x y => x = y).
  Proof. intros. eapply sim_post; [|apply sim_method; assumption]. cbn. tauto. Qed.
  Lemma sim_init n r d e fid flag : dictrel n r d e ->
    sim n r (an_init None (IDict d) fid flag) (an_init None (IDict e) fid flag) (anrel n).
  Proof.
    intros D. unfold an_init. assert (D' := dictrel_update n r d e [] [] D (Forall2_nil _)).
    eapply sim_bind; [apply sim_for_each; [exact D'|]|].
    - intros r' p q Hs (A & B & C). eapply sim_post; [|apply sim_method; assumption]. cbn; tauto.
    - intros r1 _ _ S1 _. eapply sim_bind; [apply sim_for_each; [eapply dictrel_mono; eauto|]|].
      + intros r' p q Hs (A & B & C). eapply sim_post; [|apply sim_method; assumption]. cbn; tauto.
      + intros r2 _ _ S2 _. apply sim_ret. split; [|auto]. cbn. eapply dictrel_mono; [|exact D']. eapply sub_trans; eauto.
  Qed.
  Lemma sim_errors n r x y : anrel n r x y -> sim n r (eval_errors x) (eval_errors y) (anrel n).
  Proof.
    intros (D & E1 & E2 & E3). unfold eval_errors. remember (an_fishers x) as dx eqn:Ex. remember (an_fishers y) as dy eqn:Ey.
    assert (D0 := D). destruct D as [|p q d e Hpq D]; [apply sim_raise|].
    eapply sim_bind; [apply sim_map_each; [exact D0|]|].
    - intros r' [k a] [k' b] Hs (A & B & C). cbn in *. subst k'. eapply sim_bind; [apply sim_method_unit; eauto|].
      intros r2 u v _ <-. apply sim_ret. reflexivity.
    - intros r' t t' Hs <-. apply sim_of_res. cbn. split; [cbn; rewrite <- Ex, <- Ey; eapply dictrel_mono; eauto|]. cbn. rewrite E1. auto.
  Qed.
  Lemma sim_fixnuis n r a b : r a b -> n <= a -> sim n r (fix_nuis a) (fix_nuis b) (fun _ _ _ => True).
  Proof.
    intros Hr L h1 h2 Ln R. pose proof (proj1 R _ _ Hr) as (f & V1 & V2). unfold fix_nuis.
    rewrite (proj2 (hget_view _ _ _) V1), (proj2 (hget_view _ _ _) V2).
    eapply sim_post; [|eapply sim_method; eauto|exact Ln|exact R]. cbn; tauto.
  Qed.
  Theorem sim_results n r base1 base2 cosmology fids posts mb fx : baserel r base1 base2 ->
    sim n r (create_results base1 cosmology fids posts mb fx) (create_results base2 cosmology fids posts mb fx) (anrel n).
  Proof.
    intros D. unfold create_results. eapply sim_bind; [apply sim_deepcopy; [exact D|constructor]|]. intros r1 d e S1 D1.
    apply sim_bind with (Q := fun r' (x y : list string) => x = y).
    { apply sim_of_res. destruct (free_names cosmology); reflexivity. }
    intros r2 free ? S2 <-. assert (D2 : dictrel n r2 d e) by (eapply dictrel_mono; eauto).
    eapply sim_bind; [apply sim_for_each; [exact D2|]|].
    { intros r' p q Hs (A & B & C). eapply sim_post; [|apply sim_method; assumption]. cbn; tauto. }
    intros r3 _ _ S3 _. assert (D3 : dictrel n r3 d e) by (eapply dictrel_mono; eauto).
    apply sim_bind with (Q := fun _ (_ _ : unit) => True).
    { destruct fx; [|destruct mb; [|apply sim_ret; exact I]]; (apply sim_for_each; [exact D3|]); intros r' p q Hs (A & B & C).
      - apply sim_fixnuis; assumption.
      - eapply sim_bind; [apply sim_method; eauto|]. intros. apply sim_ret. exact I. }
    intros r4 _ _ S4 _. assert (D4 : dictrel n r4 d e) by (eapply dictrel_mono; eauto).
    eapply sim_bind; [apply sim_combs; exact D4|]. intros r5 d' e' S5 D5.
    eapply sim_bind; [apply sim_init; exact D5|]. intros r6 x y S6 H6. eapply sim_bind; [apply sim_errors; exact H6|].
    intros r7 x' y' S7 (A & B & C & E). apply sim_of_res. unfold eval_rel. rewrite <- C. destruct (an_errs x'); [|reflexivity].
    split; [exact A|]. cbn. rewrite B. auto.
  Qed.

  (** ** Consequences *)
  Definition same_pattern (b1 b2 : odict) : Prop :=
    forall i j k a k' a' l b l' b', nth_error b1 i = Some (k, a) -> nth_error b2 i = Some (l, b) ->
      nth_error b1 j = Some (k', a') -> nth_error b2 j = Some (l', b') -> (a = a' <-> b = b').
  Lemma contents_eq n r h1 h2 d e : okr h1 h2 r -> dictrel n r d e -> contents h1 d = contents h2 e.
  Proof.
    intros R D. unfold contents. induction D as [|p q d e (A & B & _) D IH]; cbn; [reflexivity|]. rewrite IH, A.
    destruct (proj1 R _ _ B) as (f & V1 & V2). rewrite V1, V2. reflexivity.
  Qed.
  Lemma results_same h1 h2 b1 b2 cosmology fids posts mb fx :
    live h1 b1 -> contents h1 b1 = contents h2 b2 -> same_pattern b1 b2 ->
    observe (create_results b1 cosmology fids posts mb fx h1) = observe (create_results b2 cosmology fids posts mb fx h2).
  Proof.
    intros Lv E P. set (r := fun a b => exists i k l, nth_error b1 i = Some (k, a) /\ nth_error b2 i = Some (l, b)).
    assert (Hr : okr h1 h2 r).
    { split.
      - intros a b (i & k & l & A & B). destruct (view h1 a) as [f|] eqn:V; [|exfalso; eapply Lv; [eapply nth_error_In; eauto|exact V]].
        exists f. split; [reflexivity|]. assert (X : nth_error (contents h1 b1) i = nth_error (contents h2 b2) i) by congruence.
        unfold contents in X. rewrite (map_nth_error _ _ _ A), (map_nth_error _ _ _ B) in X. cbn in X. congruence.
      - intros a b a' b' (i & k & l & A & B) (j & k' & l' & A' & B'). eapply P; eauto. }
    assert (Hb : baserel r b1 b2).
    { assert (G : forall l1 l2 (q : nat -> nat -> Prop), contents h1 l1 = contents h2 l2 ->
        (forall i k a l b, nth_error l1 i = Some (k, a) -> nth_error l2 i = Some (l, b) -> q a b) ->
        Forall2 (fun p q' => fst p = fst q' /\ q (snd p) (snd q')) l1 l2).
      { induction l1 as [|[k a] l1 IH]; intros [|[l b] l2] q X Y; try discriminate X; constructor.
        - unfold contents in X; cbn in X. injection X as X1 X2 X3. split; [exact X1|]. apply (Y 0 k a l b); reflexivity.
        - unfold contents in X; cbn in X. injection X as X1 X2 X3. apply IH; [exact X3|]. intros i; intros. eapply (Y (Datatypes.S i)); eauto. }
      apply G; [exact E|]. intros i k a l b A B. exists i, k, l. auto. }
    destruct (sim_results 0 r b1 b2 cosmology fids posts mb fx Hb h1 h2 (Nat.le_0_l _) Hr) as (r' & _ & _ & _ & X).
    unfold observe. destruct (create_results b1 _ _ _ _ _ h1) as [h1' [x|e]], (create_results b2 _ _ _ _ _ h2) as [h2' [y|e']]; cbn [fst snd] in X; try contradiction.
    - destruct X as (R' & D & E1 & E2 & E3). rewrite E1, E2, E3. rewrite (contents_eq 0 r' _ _ _ _ R' D). reflexivity.
    - rewrite X. reflexivity.
  Qed.
  (** Objects that were there before keep their contents; new ones are new. *)
  Lemma results_fresh h base cosmology fids posts mb fx : live h base ->
    let o := create_results base cosmology fids posts mb fx h in
    keeps (length (obs h)) h (fst o) /\ length (obs h) <= length (obs (fst o)) /\
    (forall an, snd o = Ok an -> forall k a, In (k, a) (an_fishers an) -> length (obs h) <= a).
  Proof.
    intros Lv o. set (r := fun a b : nat => a = b /\ exists k, In (k, a) base).
    assert (Hr : okr h h r).
    { split.
      - intros a b [<- (k & Hk)]. destruct (view h a) as [f|] eqn:V; [exists f; auto|]. exfalso. eapply Lv; eauto.
      - intros a b a' b' [<- _] [<- _]. tauto. }
    assert (Hb : baserel r base base).
    { assert (G : forall l, (forall p, In p l -> In p base) -> baserel r l l).
      { induction l as [|[k a] l IH]; intros X; constructor; [|apply IH; intros; apply X; right; assumption].
        split; [reflexivity|]. split; [reflexivity|]. exists k. apply X. left; reflexivity. }
      apply G; auto. }
    destruct (sim_results (length (obs h)) r base base cosmology fids posts mb fx Hb h h (le_n _) Hr) as (r' & _ & A & B & C).
    split; [exact A|]. split; [exact B|]. intros an E. subst o. rewrite E in C. destruct C as (_ & D & _).
    intros k a Hin. exact (dictrel_ge _ _ _ _ _ _ D Hin).
  Qed.
  Lemma keeps_all h h' a f : keeps (length (obs h)) h h' -> view h a = Some f -> view h' a = Some f.
  Proof. intros H V. apply H; [eapply view_lt; eauto|exact V]. Qed.
  Lemma session_keeps h h' : session h h' -> forall a f, view h a = Some f -> view h' a = Some f.
  Proof.
    intros Ss. induction Ss as [|h h' base c fids posts mb fx Lv Ss IH]; intros a f V; [exact V|]. apply IH.
    eapply keeps_all; [|exact V]. apply (results_fresh h base c fids posts mb fx Lv).
  Qed.
End ResultsLemmas.
