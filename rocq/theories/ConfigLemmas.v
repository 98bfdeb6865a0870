(** Lemmas about probe names, dictionaries and configurations. *)
From Verif Require Import Base LinalgLemmas SortLib StrLib KeyModel ParamModel EvalModel EvalSpec EllLemmas FishEval NameModel NameLemmas ConfigModel.
From Coq Require Import Sorted Permutation.
Open Scope list_scope.

(** The text [s] is one of the names of the i-th probe. *)
Definition is_name (i : nat) (s : string) : Prop :=
  nth_error long_names i = Some s \/ nth_error short_names i = Some s \/ nth_error alias_names i = Some s.
Definition all_names := long_names ++ short_names ++ alias_names.

Lemma probe_name_In s p : probe_name s = Ok p -> In s all_names.
Proof.
  unfold probe_name, all_names. destruct (smem_spec s long_names); [intros _; apply in_or_app; tauto|].
  destruct (smem_spec s short_names); [intros _; apply in_or_app; right; apply in_or_app; tauto|].
  destruct (smem_spec s alias_names); [intros _; apply in_or_app; right; apply in_or_app; tauto|discriminate].
Qed.
Lemma all_names_index s : In s all_names -> exists i, i < 4 /\ is_name i s.
Proof.
  unfold all_names, is_name. cbn. intros H. repeat destruct H as [<-|H]; try contradiction;
  first [exists 0; split; [lia|cbn; auto; fail]|exists 1; split; [lia|cbn; auto; fail]|exists 2; split; [lia|cbn; auto; fail]|exists 3; split; [lia|cbn; auto; fail]].
Qed.
Lemma is_name_In i s : is_name i s -> In s all_names.
Proof.
  unfold all_names. intros [H|[H|H]]; apply nth_error_In in H; apply in_or_app; [left; exact H|right; apply in_or_app; left; exact H|right; apply in_or_app; right; exact H].
Qed.
Lemma is_name_lt i s : is_name i s -> i < 4.
Proof. intros [H|[H|H]]; [apply (proj1 (nth_error_Some long_names i))|apply (proj1 (nth_error_Some short_names i))|apply (proj1 (nth_error_Some alias_names i))]; rewrite H; discriminate. Qed.
Lemma is_name_inj i j s : is_name i s -> is_name j s -> i = j.
Proof.
  intros Hi Hj. pose proof (is_name_lt _ _ Hi). pose proof (is_name_lt _ _ Hj).
  destruct i as [|[|[|[|i]]]]; try lia; destruct j as [|[|[|[|j]]]]; try lia; try reflexivity;
  unfold is_name in *; cbn in Hi, Hj; destruct Hi as [Hi|[Hi|Hi]]; injection Hi as <-; destruct Hj as [Hj|[Hj|Hj]]; discriminate.
Qed.
Definition name_of (k : kind) (i : nat) : string := nth i (names k) "".
Lemma probe_name_Ok i s : is_name i s -> exists k, probe_name s = Ok (mkPn s k) /\ s = name_of k i.
Proof.
  intros H. pose proof (is_name_lt _ _ H). destruct i as [|[|[|[|i]]]]; try lia; unfold is_name in H; cbn in H;
  destruct H as [H|[H|H]]; injection H as <-; eexists; split; reflexivity.
Qed.
Lemma pn_to_Ok k k' i : i < 4 -> pn_to k' (mkPn (name_of k i) k) = Ok (mkPn (name_of k' i) k').
Proof. intros L. destruct i as [|[|[|[|i]]]]; try lia; destruct k, k'; reflexivity. Qed.
Lemma name_of_is k i : i < 4 -> is_name i (name_of k i).
Proof. intros L. destruct i as [|[|[|[|i]]]]; try lia; destruct k; cbn; unfold is_name; cbn; auto. Qed.
Lemma name_of_inj k i j : i < 4 -> j < 4 -> name_of k i = name_of k j -> i = j.
Proof. intros Li Lj E. apply (is_name_inj i j (name_of k i)); [apply name_of_is; exact Li|rewrite E; apply name_of_is; exact Lj]. Qed.
Lemma pn_equiv_iff s t i j : is_name i s -> is_name j t -> exists p q, probe_name s = Ok p /\ probe_name t = Ok q /\ pn_equiv p q = Ok (Nat.eqb i j).
Proof.
  intros Hs Ht. destruct (probe_name_Ok i s Hs) as [k [Es Ns]]. destruct (probe_name_Ok j t Ht) as [k' [Et Nt]].
  exists (mkPn s k), (mkPn t k'). split; [exact Es|]. split; [exact Et|]. unfold pn_equiv. cbn [pn_kind pn_name]. subst t.
  rewrite (pn_to_Ok k' k j (is_name_lt _ _ Ht)). cbn [rbind pn_name]. f_equal. rewrite Ns.
  destruct (Nat.eqb_spec i j) as [->|N]; [apply String.eqb_refl|]. apply String.eqb_neq. intros E. apply N. apply (name_of_inj k); [exact (is_name_lt _ _ Hs)|exact (is_name_lt _ _ Ht)|exact E].
Qed.

(** ** Dictionaries *)
Section DictEq.
  Context {V : Type}.
  Definition same_map (R : V -> V -> Prop) (d e : dict string V) : Prop :=
    forall k, match dget String.eqb d k, dget String.eqb e k with Some x, Some y => R x y | None, None => True | _, _ => False end.
  Lemma dict_eqM_iff (veq : V -> V -> res bool) d e : dict_eqM veq d e = Ok true <->
    length d = length e /\ forall k v, In (k, v) d -> exists w, dget String.eqb e k = Some w /\ veq v w = Ok true.
  Proof.
    unfold dict_eqM. destruct (Nat.eqb_spec (length d) (length e)) as [L|L]; [|split; [discriminate|tauto]].
    set (f := fun (acc : res bool) (kv : string * V) => b <- acc ;; if b then match dget String.eqb e (fst kv) with None => Ok false | Some w => veq (snd kv) w end else Ok false).
    assert (S : forall l r, r <> Ok true -> fold_left f l r <> Ok true).
    { induction l as [|x l IH]; intros r Hr; [exact Hr|]. apply IH. unfold f. destruct r as [[|]|]; cbn [rbind]; congruence. }
    assert (G : fold_left f d (Ok true) = Ok true <-> forall k v, In (k, v) d -> exists w, dget String.eqb e k = Some w /\ veq v w = Ok true).
    { clear L. induction d as [|[k v] d IH]; cbn [fold_left]; [split; [intros _ ? ? []|reflexivity]|].
      unfold f at 2. cbn [rbind fst snd]. split.
      - intros E. destruct (dget String.eqb e k) as [w|] eqn:Ek; [|destruct (S d (Ok false)); [discriminate|exact E]].
        assert (Ev : veq v w = Ok true) by (destruct (veq v w) as [[|]|] eqn:Ev; [reflexivity| |]; (destruct (S d (Ok false)) || idtac); exfalso; eapply S; try exact E; discriminate).
        rewrite Ev in E. intros k' v' [X|X]; [injection X as <- <-; eauto|]. apply IH; assumption.
      - intros H. destruct (H k v (or_introl eq_refl)) as [w [Ek Ev]]. rewrite Ek, Ev. apply IH. intros k' v' X. apply H. right. exact X. }
    rewrite G. tauto.
  Qed.
  Lemma dict_eqM_map (veq : V -> V -> res bool) d e : NoDup (dkeys d) -> NoDup (dkeys e) ->
    (dict_eqM veq d e = Ok true <-> same_map (fun x y => veq x y = Ok true) d e).
  Proof.
    intros Nd Ne. rewrite dict_eqM_iff. unfold same_map. split.
    - intros [L H] k. destruct (dget String.eqb d k) as [x|] eqn:Ek.
      + apply (dget_In _ String.eqb_spec) in Ek. destruct (H k x Ek) as [w [-> Ew]]. exact Ew.
      + destruct (dget String.eqb e k) as [y|] eqn:Fk; [|exact I].
        apply (dget_None _ String.eqb_spec) in Ek. apply Ek.
        assert (Inc : incl (dkeys e) (dkeys d)).
        { apply NoDup_length_incl; [exact Nd|unfold dkeys; rewrite !map_length; lia|]. intros z Hz. apply in_map_iff in Hz. destruct Hz as [[z' v] [<- Hz]].
          destruct (H z' v Hz) as [w [Ew _]]. apply (dget_In _ String.eqb_spec) in Ew. apply (in_map fst) in Ew. exact Ew. }
        apply Inc. apply (dget_In _ String.eqb_spec) in Fk. apply (in_map fst) in Fk. exact Fk.
    - intros H. split.
      + assert (P : Permutation (dkeys d) (dkeys e)).
        { apply NoDup_Permutation; [exact Nd|exact Ne|]. intros k. specialize (H k). split; intros Hk.
          - destruct (dget String.eqb e k) eqn:E; [apply (dget_In _ String.eqb_spec) in E; apply (in_map fst) in E; exact E|].
            destruct (dget String.eqb d k) eqn:D; [contradiction|]. apply (dget_None _ String.eqb_spec) in D. contradiction.
          - destruct (dget String.eqb d k) eqn:E; [apply (dget_In _ String.eqb_spec) in E; apply (in_map fst) in E; exact E|].
            destruct (dget String.eqb e k) eqn:D; [contradiction|]. apply (dget_None _ String.eqb_spec) in D. contradiction. }
        apply Permutation_length in P. unfold dkeys in P. rewrite !map_length in P. exact P.
      + intros k v Hin. specialize (H k). rewrite (@dget_NoDup_In _ _ String.eqb String.eqb_spec d k v Nd Hin) in H.
        destruct (dget String.eqb e k) as [w|]; [eauto|contradiction].
  Qed.
  Lemma dict_eqM_total (f : V -> V -> bool) (veq : V -> V -> res bool) d e : (forall k v w, In (k, v) d -> dget String.eqb e k = Some w -> veq v w = Ok (f v w)) -> exists b, dict_eqM veq d e = Ok b.
  Proof.
    intros H. unfold dict_eqM. destruct (Nat.eqb (length d) (length e)); [|eauto].
    assert (G : forall l b, incl l d -> exists b', fold_left (fun (acc : res bool) (kv : string * V) => b <- acc ;; if b then match dget String.eqb e (fst kv) with None => Ok false | Some w => veq (snd kv) w end else Ok false) l (Ok b) = Ok b').
    { induction l as [|[k v] l IH]; intros b Hl; cbn [fold_left]; [eauto|]. cbn [rbind fst snd].
      assert (Hl' : incl l d) by (intros z Hz; apply Hl; right; exact Hz).
      destruct b; [|apply IH; exact Hl']. destruct (dget String.eqb e k) as [w|] eqn:E; [|apply IH; exact Hl'].
      rewrite (H k v w (Hl _ (or_introl eq_refl)) E). apply IH. exact Hl'. }
    apply G. intros z Hz. exact Hz.
  Qed.
  Lemma same_map_mono (R R' : V -> V -> Prop) d e : (forall k x y, dget String.eqb d k = Some x -> dget String.eqb e k = Some y -> (R x y <-> R' x y)) -> (same_map R d e <-> same_map R' d e).
  Proof.
    intros H. unfold same_map. split; intros G k; specialize (G k); specialize (H k);
    destruct (dget String.eqb d k), (dget String.eqb e k); auto; apply (H _ _ eq_refl eq_refl); exact G.
  Qed.
End DictEq.

(** ** Pairs of probes *)
Lemma pairs2_both {A} (l : list A) a b : In (a, b) (pairs2 l) -> In a l /\ In b l.
Proof.
  induction l as [|x l IH]; cbn [pairs2]; [intros []|]. intros [e|H]; [injection e as <- <-; cbn; auto|].
  apply in_app_or in H. destruct H as [H|H].
  - apply in_map_iff in H. destruct H as (y & e & Hy). injection e as <- <-. cbn; auto.
  - destruct (IH H). cbn; auto.
Qed.
Lemma pairs2_nodup {A} (l : list A) : NoDup l -> NoDup (pairs2 l) /\ forall a b, In (a, b) (pairs2 l) -> In (b, a) (pairs2 l) -> a = b.
Proof.
  induction l as [|x l IH]; intros N; cbn [pairs2]; [split; [constructor|intros ? ? []]|].
  inversion N as [|? ? Hx N']; subst. destruct (IH N') as [N1 N2]. split.
  - constructor.
    + intros H. apply in_app_or in H. destruct H as [H|H]; [apply in_map_iff in H; destruct H as [y [E Hy]]; injection E as ->; contradiction|].
      apply pairs2_both in H. tauto.
    + apply NoDup_app_intro.
      * clear - N'. induction l as [|y l IH]; cbn; [constructor|]. inversion N'; subst. constructor; [|apply IH; assumption].
        intros H. apply in_map_iff in H. destruct H as [z [E Hz]]. injection E as ->. contradiction.
      * exact N1.
      * intros [u v] H G. apply in_map_iff in H. destruct H as [y [E Hy]]. injection E as <- <-. apply pairs2_both in G. tauto.
  - intros a b H G.
    assert (C : forall a b, In (a, b) ((x, x) :: map (pair x) l ++ pairs2 l) -> (a = x /\ In b (x :: l)) \/ (In a l /\ In b l /\ In (a, b) (pairs2 l))).
    { clear - l. intros a b [E|H]; [injection E as <- <-; left; split; [reflexivity|left; reflexivity]|]. apply in_app_or in H. destruct H as [H|H].
      - apply in_map_iff in H. destruct H as [y [E Hy]]. injection E as <- <-. left. split; [reflexivity|right; exact Hy].
      - right. destruct (pairs2_both _ _ _ H). auto. }
    destruct (C _ _ H) as [[-> Hb]|[Ha [Hb Hp]]], (C _ _ G) as [[-> Ha']|[Hb' [Ha' Hq]]]; [reflexivity|contradiction|contradiction|]. apply N2; assumption.
Qed.
Lemma pairs2_length {A} (l : list A) : 2 * length (pairs2 l) = length l * (length l + 1).
Proof. induction l as [|x l IH]; [reflexivity|]. cbn [pairs2 length]. rewrite app_length, map_length. nia. Qed.
Lemma pairs2_inj {A} (l m : list A) : pairs2 l = pairs2 m -> l = m.
Proof.
  intros E. assert (L : length l = length m).
  { pose proof (pairs2_length l) as P. pose proof (pairs2_length m) as Q. rewrite E in P. nia. }
  revert m E L. induction l as [|x l IH]; intros [|y m] E L; try discriminate; [reflexivity|]. cbn [pairs2] in E. injection E as <- E. injection L as L.
  f_equal. assert (G : forall (u v : list A) r r', length u = length v -> map (pair x) u ++ r = map (pair x) v ++ r' -> u = v).
  { clear. induction u as [|a u IH]; intros [|b v] r r' L E; try discriminate; [reflexivity|]. cbn in E. injection E as <- E. injection L as L. f_equal. eapply IH; eassumption. }
  eapply G; eassumption.
Qed.
Lemma pairs_eqb_iff a b : pairs_eqb a b = true <-> a = b.
Proof. unfold pairs_eqb. match goal with |- context [if ?c then _ else _] => destruct c end; split; congruence. Qed.

Lemma nth_error_ext' {A} (l m : list A) : (forall i, nth_error l i = nth_error m i) -> l = m.
Proof.
  revert m. induction l as [|x l IH]; intros [|y m] H; [reflexivity|discriminate (H 0)|discriminate (H 0)|].
  pose proof (H 0) as E. cbn in E. injection E as <-. f_equal. apply IH. intros i. exact (H (S i)).
Qed.

Section Cfg.
  Context {F : Type} {K : Fld F} {O : OFld (F := F)}.

  (** ** Comparisons *)
  Definition same_par (p q : param F) : Prop :=
    pp_name p = pp_name q /\ fiducial p = fiducial q /\ is_cosmo p = is_cosmo q /\ current p = current q.
  Lemma par_eq_iff (p q : param F) : par_eq p q = true <-> same_par p q.
  Proof.
    unfold par_eq, same_par. rewrite !andb_true_iff, String.eqb_eq, Bool.eqb_true_iff.
    destruct (fdec (fiducial p) (fiducial q)), (fdec (current p) (current q)); intuition congruence.
  Qed.
  (** Two scalars are the same number or the same other value. *)
  Definition same_scalar (a b : sval F) : Prop := (exists x, sv_num a = Some x /\ sv_num b = Some x) \/ a = b.
  Lemma sv_eqb_iff (a b : sval F) : sv_eqb a b = true <-> same_scalar a b.
  Proof.
    unfold sv_eqb, same_scalar. destruct (sv_num a) as [x|] eqn:Ea, (sv_num b) as [y|] eqn:Eb.
    - destruct (fdec x y) as [->|N]; split; try discriminate; eauto. intros [[z [E G]]|E]; [congruence|]. subst b. congruence.
    - split; [discriminate|]. intros [[z [E G]]|E]; congruence.
    - split; [discriminate|]. intros [[z [E G]]|E]; congruence.
    - destruct a, b; cbn in Ea, Eb; try discriminate; split; try discriminate; auto.
      + intros [[z [E G]]|E]; discriminate.
      + intros [[z [E G]]|E]; discriminate.
      + intros H. apply String.eqb_eq in H. subst. auto.
      + intros [[z [E G]]|E]; [discriminate|]. injection E as ->. apply String.eqb_refl.
  Qed.
  (** numpy's notion of equal arrays: a one-element array is stretched. *)
  Definition same_array (a b : list F) : Prop :=
    a = b \/ (length a <> length b /\ exists x, (a = [x] /\ forall y, In y b -> y = x) \/ (b = [x] /\ forall y, In y a -> y = x)).
  Lemma leqb_eq (a b : list F) : leqb a b = true <-> a = b.
  Proof.
    revert b. induction a as [|x a IH]; intros [|y b]; cbn; try (split; congruence).
    destruct (fdec x y) as [->|N]; cbn; [rewrite IH; split; congruence|]. split; [discriminate|]. intros E. congruence.
  Qed.
  Lemma all_eq_iff (x : F) l : all_eq x l = true <-> forall y, In y l -> y = x.
  Proof.
    unfold all_eq. rewrite forallb_forall. split; intros H y Hy; specialize (H y Hy); destruct (fdec x y); congruence.
  Qed.
  Lemma arr_eqb_iff (a b : list F) : arr_eqb a b = true <-> same_array a b.
  Proof.
    unfold arr_eqb, same_array. destruct (Nat.eqb_spec (length a) (length b)) as [L|L].
    - rewrite leqb_eq. split; [auto|]. intros [E|[N _]]; [exact E|contradiction].
    - assert (Sa : forall x, a = [x] -> (all_eq x b = true <-> a = b \/ (length a <> length b /\ exists x, (a = [x] /\ forall y, In y b -> y = x) \/ (b = [x] /\ forall y, In y a -> y = x)))).
      { intros x ->. rewrite all_eq_iff. split.
        - intros H. right. split; [exact L|]. exists x. left. auto.
        - intros [E|[_ [z [[E H]|[E H]]]]]; [subst b; destruct L; reflexivity|injection E as <-; exact H|subst b; destruct L; reflexivity]. }
      assert (Sb : forall x, b = [x] -> (all_eq x a = true <-> a = b \/ (length a <> length b /\ exists x, (a = [x] /\ forall y, In y b -> y = x) \/ (b = [x] /\ forall y, In y a -> y = x)))).
      { intros x ->. rewrite all_eq_iff. split.
        - intros H. right. split; [exact L|]. exists x. right. auto.
        - intros [E|[_ [z [[E H]|[E H]]]]]; [subst a; destruct L; reflexivity|subst a; destruct L; reflexivity|injection E as <-; exact H]. }
      assert (Sn : (forall x, a <> [x]) -> (forall x, b <> [x]) -> (false = true <-> a = b \/ (length a <> length b /\ exists x, (a = [x] /\ forall y, In y b -> y = x) \/ (b = [x] /\ forall y, In y a -> y = x)))).
      { intros Na Nb. split; [discriminate|]. intros [E|[_ [z [[E H]|[E H]]]]]; [subst b; destruct L; reflexivity|destruct (Na z E)|destruct (Nb z E)]. }
      destruct a as [|x [|x' a]]; [|apply Sa; reflexivity|]; (destruct b as [|y [|y' b]]; [apply Sn; discriminate|apply Sb; reflexivity|apply Sn; discriminate]).
  Qed.

  Definition same_opt_file (a b : option string) : Prop := match a, b with Some f, Some g => f = g | _, _ => True end.
  Definition same_probe (a b : pcfg F) : Prop :=
    (exists i, is_name i (pc_name a) /\ is_name i (pc_name b)) /\
    same_array (pc_ells a) (pc_ells b) /\ same_array (pc_widths a) (pc_widths b) /\
    pc_density a = pc_density b /\ pc_marg a = pc_marg b /\
    same_map same_par (pc_nuis a) (pc_nuis b) /\ same_map same_scalar (pc_specific a) (pc_specific b) /\
    same_opt_file (pc_bias a) (pc_bias b).
  Definition wf_pcfg (c : pcfg F) : Prop := In (pc_name c) all_names /\ NoDup (dkeys (pc_nuis c)) /\ NoDup (dkeys (pc_specific c)).
  Lemma eqM_pure {V} (f : V -> V -> bool) (R : V -> V -> Prop) d e : (forall x y, f x y = true <-> R x y) -> NoDup (dkeys d) -> NoDup (dkeys e) ->
    exists b, dict_eqM (fun x y => Ok (f x y)) d e = Ok b /\ (b = true <-> same_map R d e).
  Proof.
    intros H Nd Ne. destruct (dict_eqM_total f (fun x y => Ok (f x y)) d e) as [b Eb]; [reflexivity|]. exists b. split; [exact Eb|].
    assert (G : b = true <-> dict_eqM (fun x y => Ok (f x y)) d e = Ok true) by (rewrite Eb; split; congruence).
    rewrite G, dict_eqM_map by assumption. apply same_map_mono. intros k x y _ _. rewrite <- H. split; congruence.
  Qed.
  Lemma pcfg_eq_iff (a b : pcfg F) : wf_pcfg a -> wf_pcfg b -> exists r, pcfg_eq a b = Ok r /\ (r = true <-> same_probe a b).
  Proof.
    intros (Na & Da & Sa) (Nb & Db & Sb). apply all_names_index in Na, Nb. destruct Na as [i [_ Hi]]. destruct Nb as [j [_ Hj]].
    destruct (pn_equiv_iff _ _ i j Hi Hj) as (p & q & Ep & Eq & Epq). unfold pcfg_eq. rewrite Ep, Eq. cbn [rbind]. rewrite Epq. cbn [rbind].
    destruct (eqM_pure par_eq same_par (pc_nuis a) (pc_nuis b) par_eq_iff Da Db) as [n [-> Hn]]. cbn [rbind].
    destruct (eqM_pure sv_eqb same_scalar (pc_specific a) (pc_specific b) sv_eqb_iff Sa Sb) as [s [-> Hs]]. cbn [rbind].
    eexists. split; [reflexivity|]. unfold same_probe. rewrite !andb_true_iff, Hn, Hs, !arr_eqb_iff, String.eqb_eq, Bool.eqb_true_iff, Nat.eqb_eq.
    assert (Ij : i = j <-> exists i0, is_name i0 (pc_name a) /\ is_name i0 (pc_name b)).
    { split; [intros ->; exists j; auto|]. intros [z [A B]]. rewrite (is_name_inj _ _ _ Hi A), (is_name_inj _ _ _ Hj B). reflexivity. }
    assert (Fb : match pc_bias a, pc_bias b with Some f, Some g => String.eqb f g | _, _ => true end = true <-> same_opt_file (pc_bias a) (pc_bias b)).
    { unfold same_opt_file. destruct (pc_bias a), (pc_bias b); try tauto. apply String.eqb_eq. }
    rewrite Ij, Fb. tauto.
  Qed.

  (** ** Loading *)
  Lemma load_pcfg_spec (probes : dict string (jprobe F)) i c : i < 4 -> load_pcfg probes (name_of Long i) = Ok c ->
    exists j g, dget String.eqb probes (name_of Alias i) = Some j /\ j_grid j = Ok g /\ pc_name c = name_of Long i /\ pc_ells c = fst g /\ pc_widths c = snd g /\
      pc_density c = j_density j /\ pc_specific c = j_specific j /\ pc_nuis c = [].
  Proof.
    intros L. unfold load_pcfg. assert (E : probe_name (name_of Long i) = Ok (mkPn (name_of Long i) Long)) by (destruct i as [|[|[|[|i]]]]; try lia; reflexivity).
    rewrite E. cbn [rbind]. rewrite (pn_to_Ok Long Alias i L). cbn [rbind pn_name]. unfold dgetr.
    destruct (dget String.eqb probes (name_of Alias i)) as [j|]; [|discriminate]. cbn [rbind]. destruct (j_grid j) as [g|] eqn:G; [|discriminate]. cbn [rbind].
    intros H. injection H as <-. exists j, g. repeat split; try reflexivity; auto.
  Qed.
  Definition jload (probes : dict string (jprobe F)) (acc : res (dict string (pcfg F))) (kv : string * jprobe F) : res (dict string (pcfg F)) :=
      d <- acc ;;
      if j_present (snd kv) then
        p <- probe_name (fst kv) ;;
        l <- pn_to Long p ;;
        c <- load_pcfg probes (pn_name l) ;;
        Ok (dset String.eqb d (pn_name l) c)
      else Ok d.
  Lemma jload_err probes l e : fold_left (jload probes) l (Err e) = Err e.
  Proof. induction l as [|x l IH]; [reflexivity|exact IH]. Qed.
  Lemma load_spec (probes : dict string (jprobe F)) d : load_probes probes = Ok d ->
    NoDup (dkeys d) /\
    (forall long, In long (dkeys d) <-> exists i name j, In (name, j) probes /\ j_present j = true /\ is_name i name /\ long = name_of Long i) /\
    (forall long c, dget String.eqb d long = Some c -> exists i, i < 4 /\ long = name_of Long i /\ load_pcfg probes long = Ok c).
  Proof.
    unfold load_probes. change (fold_left _ probes (Ok [])) with (fold_left (jload probes) probes (Ok [])).
    assert (G : forall l seen d0 d1, incl l probes -> fold_left (jload probes) l (Ok d0) = Ok d1 ->
      NoDup (dkeys d0) -> (forall long, In long (dkeys d0) <-> exists i name j, In (name, j) seen /\ j_present j = true /\ is_name i name /\ long = name_of Long i) ->
      (forall long c, dget String.eqb d0 long = Some c -> exists i, i < 4 /\ long = name_of Long i /\ load_pcfg probes long = Ok c) ->
      NoDup (dkeys d1) /\ (forall long, In long (dkeys d1) <-> exists i name j, In (name, j) (seen ++ l) /\ j_present j = true /\ is_name i name /\ long = name_of Long i) /\
      (forall long c, dget String.eqb d1 long = Some c -> exists i, i < 4 /\ long = name_of Long i /\ load_pcfg probes long = Ok c)).
    { induction l as [|[nm j] l IH]; intros seen d0 d1 Hl E N I C.
      - cbn in E. injection E as <-. rewrite app_nil_r. auto.
      - cbn [fold_left] in E. unfold jload at 2 in E. cbn [rbind fst snd] in E.
        replace (seen ++ (nm, j) :: l) with ((seen ++ [(nm, j)]) ++ l) by (rewrite <- app_assoc; reflexivity).
        assert (Hl' : incl l probes) by (intros z Hz; apply Hl; right; exact Hz).
        destruct (j_present j) eqn:P.
        + destruct (probe_name nm) as [p|] eqn:Ep; [|cbn [rbind] in E; rewrite jload_err in E; discriminate].
          pose proof (probe_name_In _ _ Ep) as Hin. apply all_names_index in Hin. destruct Hin as [i [Li Hi]].
          destruct (probe_name_Ok i nm Hi) as [k [Ek Nk]]. rewrite Ep in Ek. injection Ek as ->. cbn [rbind] in E. rewrite Nk in E. rewrite (pn_to_Ok k Long i Li) in E. cbn [rbind pn_name] in E.
          destruct (load_pcfg probes (name_of Long i)) as [c|] eqn:Ec; [|cbn [rbind] in E; rewrite jload_err in E; discriminate]. cbn [rbind] in E.
          apply (IH (seen ++ [(nm, j)]) _ d1 Hl' E).
          * apply NoDup_dset; [apply String.eqb_spec|exact N].
          * intros long. rewrite (dkeys_dset _ String.eqb_spec). assert (Kin : In long (if dmem String.eqb d0 (name_of Long i) then dkeys d0 else dkeys d0 ++ [name_of Long i]) <-> In long (dkeys d0) \/ long = name_of Long i).
            { unfold dmem. destruct (dget String.eqb d0 (name_of Long i)) eqn:D.
              - split; [auto|]. intros [H| ->]; [exact H|]. apply (dget_In _ String.eqb_spec) in D. apply (in_map fst) in D. exact D.
              - rewrite in_app_iff. cbn. intuition congruence. }
            rewrite Kin, I. split.
            -- intros [(i' & n' & j' & A & B)| ->]; [exists i', n', j'; split; [apply in_or_app; left; exact A|exact B]|].
               exists i, nm, j. split; [apply in_or_app; right; left; reflexivity|auto].
            -- intros (i' & n' & j' & A & B1 & B2 & B3). apply in_app_or in A. destruct A as [A|[A|[]]]; [left; exists i', n', j'; auto|]. injection A as <- <-.
               right. rewrite B3. f_equal. exact (is_name_inj _ _ _ B2 Hi).
          * intros long c' D. destruct (string_dec (name_of Long i) long) as [<-|Ne].
            -- rewrite (dget_dset_same _ String.eqb_spec) in D. injection D as <-. exists i. auto.
            -- rewrite (dget_dset_other _ String.eqb_spec) in D by exact Ne. apply C. exact D.
        + apply (IH (seen ++ [(nm, j)]) d0 d1 Hl' E N); [|exact C]. intros long. rewrite I. split.
          * intros (i' & n' & j' & A & B). exists i', n', j'. split; [apply in_or_app; left; exact A|exact B].
          * intros (i' & n' & j' & A & B1 & B2). apply in_app_or in A. destruct A as [A|[A|[]]]; [exists i', n', j'; auto|]. injection A as <- <-. congruence. }
    intros E. destruct (G probes [] [] d) as (A & B & C); [intros z Hz; exact Hz|exact E|constructor| | |].
    - intros long. split; [intros []|intros (i & n & j & [] & _)].
    - intros long c D. discriminate.
    - auto.
  Qed.
  Lemma long_no_underscore i : i < 4 -> has "_" (name_of Long i) = false.
  Proof. intros L. destruct i as [|[|[|[|i]]]]; try lia; reflexivity. Qed.

  (** ** Multipoles of a pair *)
  Lemma comb_value (d : dict string (pcfg F)) p q a b : has "_" p = false -> has "_" q = false ->
    dget String.eqb d p = Some a -> dget String.eqb d q = Some b ->
    comb_multipoles d (comb_key p q) =
      if Nat.eqb (length (pc_ells a)) (length (pc_widths a)) then
        match intersect1d (pc_ells a) (pc_ells b) with
        | [] => Err EException
        | c => Ok (c, select c (pc_ells a) (pc_widths a))
        end
      else Err EIndexError.
  Proof.
    intros Hp Hq Ea Eb. unfold comb_multipoles. rewrite comb_probes_key by assumption. unfold dgetr. rewrite Ea, Eb. cbn [rbind].
    destruct (Nat.eqb _ _); [|reflexivity]. destruct (intersect1d (pc_ells a) (pc_ells b)); reflexivity.
  Qed.
  Lemma intersect1d_sym (a b : list F) : intersect1d a b = intersect1d b a.
  Proof. apply increasing_unique; try apply intersect1d_increasing. intros x. rewrite !intersect1d_In. tauto. Qed.
End Cfg.
