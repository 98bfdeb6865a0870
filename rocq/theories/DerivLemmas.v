(** The derivative vectors of the spectra. *)
From Verif Require Import Base SortLib StrLib MatInv LinalgModel FrameModel KeyModel KeySpec KeyLemmas
  ParamModel EvalModel EvalSpec EllLemmas CovLemmas CovLemmas2.
From Coq Require Import Sorted Permutation.
Open Scope list_scope.

Lemma rfold_skey {A} (f : A -> clkey -> res A) m a : rfold f (map skey m) a = rfold (fun x e => f x (skey e)) m a.
Proof. revert a. induction m as [|e m IH]; intros a; cbn; [reflexivity|]. destruct (f a (skey e)); cbn; [apply IH|reflexivity]. Qed.

Section Deriv.
  Context {F : Type} {K : Fld F} {O : OFld (F := F)}.
  Open Scope fld_scope.
  Implicit Types d : spectra (F := F).

  Definition comp_cl d (x : F) (u : (probe * probe) * (nat * nat)) : option F :=
    cl_at d (fst (fst u)) (snd (fst u)) x (fst (snd u)) (snd (snd u)).
  (** Rows laid out by the labels C with values g. *)
  Definition vlaid {Y} (ells : list F) (C : list Y) (g : F -> Y -> option F) (rows : list (list F)) : Prop :=
    length rows = length ells /\
    forall t x row, nth_error ells t = Some x -> nth_error rows t = Some row -> map (g x) C = map Some row.

  Lemma vcube_ok nb d p q ells m : laid ells (seq 0 (nb p)) (seq 0 (nb q)) (fun x i j => cl_at d p q x i j) m -> ells <> [] ->
    exists rows, vec_cube (probe_eqb p q) m = Ok rows /\ vlaid ells (comps1 nb p q) (comp_cl d) rows.
  Proof.
    intros (a & b & e & h) Ne. rewrite seq_length in a, b.
    set (f := fun M : nat -> nat -> F => map (fun ij => M (fst ij) (snd ij)) (bin_pairs nb p q)).
    assert (E : vec_cube (probe_eqb p q) m = Ok (map f (crows m))).
    { unfold vec_cube. destruct (crows m) as [|M0 Ms] eqn:Em; [destruct ells; [congruence|discriminate e]|].
      generalize (M0 :: Ms). intros Ms'. induction Ms' as [|M Ms' IH]; [reflexivity|]. cbn [rmapM map]. rewrite IH.
      replace (if probe_eqb p q then vecp _ else Ok _) with (@Ok (list F) (f M)); [reflexivity|].
      unfold f, bin_pairs. destruct (probe_eqb_spec p q) as [<-|N].
      - unfold vecp. cbn [nr nc ent]. rewrite a, b, Nat.eqb_refl. cbn [negb]. rewrite triu_flat. reflexivity.
      - unfold vec. cbn [nr nc ent]. rewrite a, b. reflexivity. }
    exists (map f (crows m)). split; [exact E|]. split; [rewrite map_length; exact e|].
    intros t x row Ht Hr. rewrite nth_error_map in Hr. destruct (nth_error (crows m) t) as [M|] eqn:EM; [|discriminate].
    cbn [option_map] in Hr. injection Hr as <-. unfold comps1, f. rewrite !map_map. apply map_ext_in. intros [i j] Hij.
    unfold comp_cl. cbn [fst snd]. apply bin_pairs_In in Hij.
    apply (h t x M i j i j Ht EM).
    - rewrite (nth_error_nth' _ 0%nat) by (rewrite seq_length; tauto). rewrite seq_nth by tauto. reflexivity.
    - rewrite (nth_error_nth' _ 0%nat) by (rewrite seq_length; tauto). rewrite seq_nth by tauto. reflexivity.
  Qed.

  Lemma hjoin_ok {Y} ells (g : F -> Y -> option F) (Cs : list (list Y)) bs : bs <> [] ->
    Forall2 (fun C b => vlaid ells C g b) Cs bs -> exists rows, hjoin bs = Ok rows /\ vlaid ells (concat Cs) g rows.
  Proof.
    intros Nb H. induction H as [|C b Cs bs Hb H IH]; [congruence|].
    destruct H as [|C' b' Cs' bs' Hb' H'].
    - exists b. split; [reflexivity|]. cbn [concat]. rewrite app_nil_r. exact Hb.
    - destruct IH as (c & Ec & Lc); [discriminate|].
      change (hjoin (b :: b' :: bs')) with (b0 <- hjoin (b' :: bs') ;;
        if Nat.eqb (length b) (length b0) then Ok (map (fun xy => fst xy ++ snd xy) (combine b b0)) else Err EValueError).
      rewrite Ec. cbn [rbind]. destruct Hb as [l1 h1], Lc as [l2 h2]. rewrite l1, l2, Nat.eqb_refl. eexists. split; [reflexivity|].
      split; [rewrite map_length, combine_length; lia|].
      intros t x row Ht Hr. rewrite nth_error_map in Hr.
      destruct (nth_error (combine b c) t) as [[r1 r2]|] eqn:E; [|discriminate]. cbn [option_map fst snd] in Hr. injection Hr as <-.
      apply combine_nth_err in E. destruct E as [E1 E2].
      change (concat (C :: C' :: Cs')) with (C ++ concat (C' :: Cs')). rewrite !map_app.
      rewrite (h1 t x r1 Ht E1), (h2 t x r2 Ht E2). reflexivity.
  Qed.

  (** Selection of the entries of the data vector. *)
  Section Sel.
  Context {V : Type} (val : probe * probe -> V).
  Lemma sput_In (dd : list (spelled * V)) e v x : In x (sput dd e v) -> In x dd \/ (snd (fst x) = snd e /\ snd x = v).
  Proof.
    induction dd as [|[e' v'] dd IH]; cbn [sput].
    - intros [<-|[]]. right; auto.
    - destruct (same_pair _ _ _ _) eqn:E; intros [<-|H].
      + apply same_pair_iff in E. right. cbn [fst snd]. destruct (snd e'), (snd e); cbn in E. intuition congruence.
      + left; right; exact H.
      + left; left; reflexivity.
      + destruct (IH H); [left; right; assumption|right; assumption].
  Qed.
  Definition selected (m : list spelled) (acc : list (spelled * V)) := fold_left (fun w e => sput w e (val (snd e))) m acc.
  Lemma selected_In m : forall acc x, (forall y, In y acc -> snd y = val (snd (fst y))) ->
    In x (selected m acc) -> snd x = val (snd (fst x)) /\ (In x acc \/ In (snd (fst x)) (map snd m)).
  Proof.
    induction m as [|e m IH]; intros acc x H Hin; cbn [selected fold_left] in Hin; [auto|].
    destruct (IH (sput acc e (val (snd e))) x) as [A B]; [|exact Hin|].
    - intros y Hy. apply sput_In in Hy. destruct Hy as [Hy|[E1 E2]]; [auto|]. destruct y as [[k pq] v]. cbn in E1, E2 |- *. subst. reflexivity.
    - split; [exact A|]. destruct B as [B|B]; [|right; right; exact B].
      apply sput_In in B. destruct B as [B|[E1 E2]]; [left; exact B|right; left; symmetry; exact E1].
  Qed.
  Lemma selected_find m : forall acc p q, In (p, q) (map snd m) \/ sfind acc p q = Some (val (p, q)) ->
    (sfind acc p q = None \/ sfind acc p q = Some (val (p, q))) -> sfind (selected m acc) p q = Some (val (p, q)).
  Proof.
    induction m as [|e m IH]; intros acc p q H H0; cbn [selected fold_left].
    - destruct H as [[]|H]; exact H.
    - apply IH; rewrite sfind_sput; destruct (same_pair _ _ p q) eqn:E; auto.
      + apply same_pair_iff in E. destruct e as [k [a b]]. cbn in *. destruct E as [-> ->]. auto.
      + destruct H as [[H|H]|H]; auto. exfalso. destruct e as [k [a b]]. cbn in *. injection H as -> ->.
        rewrite same_pair_refl in E. discriminate.
      + apply same_pair_iff in E. destruct e as [k [a b]]. cbn in *. destruct E as [-> ->]. auto.
  Qed.
  End Sel.

  Lemma vec_common nb d l : wf_spectra nb d -> l <> [] ->
    (forall e, In e l -> available d (fst (snd e)) (snd (snd e))) ->
    exists ells, increasing ells /\ (forall x, In x ells <-> forall e, In e l -> In x (ells_at d (fst (snd e)) (snd (snd e)))) /\
      (ells = [] -> deriv_vector (map skey l) (raw_spectra d) = Err EValueError) /\
      (ells <> [] -> exists rows, deriv_vector (map skey l) (raw_spectra d) = Ok (ells, rows) /\ vlaid ells (components nb l) (comp_cl d) rows).
  Proof.
    intros W Nl Av. destruct (smart_pair d) as (sl & sc & El & Ec & L).
    assert (Lk : forall e, In e l -> lk d (fst (snd e)) (snd (snd e)) = Some (dflt_lk d (snd e))).
    { intros e He. destruct (lk_available _ _ _ (Av e He)) as (l0 & c0 & E0). unfold dflt_lk. rewrite E0. reflexivity. }
    set (ve := fun pq => fst (dflt_lk d pq)). set (vc := fun pq => snd (dflt_lk d pq)).
    set (el := selected ve l []). set (cl := selected vc l []).
    assert (Es : select_cls (map skey l) (raw_spectra d) = Ok (kd_of el, kd_of cl)).
    { unfold select_cls. rewrite El, Ec. cbn [rbind]. rewrite rfold_skey.
      assert (G : forall m a b, (forall e, In e m -> In e l) ->
        rfold (fun acc e => l0 <- get_ells sl (skey e);; sl0 <- kd_set (fst acc) (skey e) l0;; b <- get_cl sc (skey e);; sc0 <- kd_set (snd acc) (skey e) b;; Ok (sl0, sc0)) m (kd_of a, kd_of b)
        = Ok (kd_of (selected ve m a), kd_of (selected vc m b))).
      { induction m as [|e m IH]; intros a b Hm; [reflexivity|]. cbn [rfold fst snd].
        pose proof (Lk e (Hm e (or_introl eq_refl))) as Le. destruct e as [k [p q]]. cbn [fst snd] in Le.
        change (skey (k, (p, q))) with (pkey k p q) at 1 3.
        destruct (L k p q) as [L1 L2]. rewrite L1, L2, Le. cbn [option_map opt_res rbind].
        rewrite !kd_set_key. cbn [rbind]. rewrite IH by (intros e' He'; apply Hm; right; exact He'). reflexivity. }
      apply (G l [] []). auto. }
    assert (Hel : forall v, In v (map snd (kd_of el)) <-> exists e, In e l /\ v = ve (snd e)).
    { intros v. unfold kd_of. rewrite map_map. cbn [snd]. rewrite in_map_iff. split.
      - intros ([e' w] & E & Hin). cbn [snd] in E. subst w. destruct (selected_In ve l [] _ (fun y H => match H with end) Hin) as [E1 [[]|E2]].
        cbn [fst snd] in *. apply in_map_iff in E2. destruct E2 as (e & Ee & He). exists e. split; [exact He|]. rewrite Ee. exact E1.
      - intros (e & He & ->). destruct e as [k [p q]].
        assert (Ef : sfind el p q = Some (ve (p, q))) by (apply selected_find; [left; apply (in_map snd l (k, (p, q)) He)|left; reflexivity]).
        clear - Ef. induction el as [|[[k' [a b]] v] el IH]; cbn [sfind] in Ef; [discriminate|].
        destruct (same_pair a b p q); [injection Ef as ->; eexists; split; [|left; reflexivity]; reflexivity|].
        destruct (IH Ef) as (x & E & Hx). exists x. split; [exact E|right; exact Hx]. }
    assert (Hcl : forall e' c, In (e', c) cl -> c = vc (snd e') /\ exists e, In e l /\ snd e = snd e').
    { intros e' c Hin. destruct (selected_In vc l [] _ (fun y H => match H with end) Hin) as [E1 [[]|E2]]. cbn [fst snd] in *.
      split; [exact E1|]. apply in_map_iff in E2. destruct E2 as (e & Ee & He). eauto. }
    assert (Ge : forall e' , In (snd e') (map snd l) -> get_ells (kd_of el) (skey e') = Ok (ve (snd e'))).
    { intros [k [p q]] H. unfold get_ells, smart_get, skey. cbn [fst snd] in *. rewrite kd_get_key.
      assert (Ef : sfind el p q = Some (ve (p, q))) by (apply selected_find; auto). rewrite Ef. reflexivity. }
    assert (WF : forall e, In e l -> let v := dflt_lk d (snd e) in
      cnr (snd v) = nb (fst (snd e)) /\ cnc (snd v) = nb (snd (snd e)) /\ length (fst v) = length (crows (snd v)) /\ increasing (fst v) /\
      ells_at d (fst (snd e)) (snd (snd e)) = fst v /\
      forall s x m i j, nth_error (fst v) s = Some x -> nth_error (crows (snd v)) s = Some m -> cl_at d (fst (snd e)) (snd (snd e)) x i j = Some (m i j)).
    { intros e He v. apply (lk_wf nb d); [exact W|]. rewrite (Lk e He). unfold v. destruct (dflt_lk d (snd e)); reflexivity. }
    unfold deriv_vector. rewrite Es. cbn [rbind fst snd].
    destruct (mask_common_ok (map snd (kd_of el)) (get_ells (kd_of el)) (kd_of cl)) as ([ells masked] & Em).
    { intros E0. destruct l as [|e m]; [congruence|]. assert (H : In (ve (snd e)) (map snd (kd_of el))) by (apply Hel; exists e; split; [left|]; reflexivity).
      rewrite E0 in H. destruct H. }
    { intros k c Hin. unfold kd_of in Hin. apply in_map_iff in Hin. destruct Hin as ([e' c'] & E & Hin). cbn [fst snd] in E. injection E as <- <-.
      destruct (Hcl e' c' Hin) as [-> (e & He & Ee)]. exists (ve (snd e')). split; [apply Ge; rewrite <- Ee; apply in_map; exact He|].
      rewrite <- Ee. destruct (WF e He) as (_ & _ & E & _). exact E. }
    destruct (mask_common_aligned _ _ _ _ _ Em) as (Si & Mi & F2).
    { intros v Hv. apply Hel in Hv. destruct Hv as (e & He & ->). destruct (WF e He) as (_ & _ & _ & S & _). exact S. }
    { intros k c v Hin Ev. unfold kd_of in Hin. apply in_map_iff in Hin. destruct Hin as ([e' c'] & E & Hin). cbn [fst snd] in E. injection E as <- <-.
      destruct (Hcl e' c' Hin) as [-> (e & He & Ee)]. rewrite Ge in Ev by (rewrite <- Ee; apply in_map; exact He). injection Ev as <-.
      apply Hel. exists e. split; [exact He|]. rewrite Ee. reflexivity. }
    rewrite Em. cbn [rbind fst snd].
    assert (MM : forall x, In x ells <-> forall e, In e l -> In x (ells_at d (fst (snd e)) (snd (snd e)))).
    { intros x. rewrite Mi. split.
      - intros H e He. destruct (WF e He) as (_ & _ & _ & _ & -> & _). apply H. apply Hel. eauto.
      - intros H v Hv. apply Hel in Hv. destruct Hv as (e & He & ->). specialize (H e He). destruct (WF e He) as (_ & _ & _ & _ & E & _). rewrite E in H. exact H. }
    exists ells. split; [exact Si|]. split; [exact MM|].
    (* the masked dictionary *)
    assert (exists cl', masked = kd_of cl' /\ forall e, In e l -> exists c, sfind cl' (fst (snd e)) (snd (snd e)) = Some c /\
      laid ells (seq 0 (nb (fst (snd e)))) (seq 0 (nb (snd (snd e)))) (fun x i j => cl_at d (fst (snd e)) (snd (snd e)) x i j) c) as (cl' & -> & Hm).
    { assert (exists cl', masked = kd_of cl' /\ Forall2 (fun x y => fst y = fst x /\ exists v, get_ells (kd_of el) (skey (fst x)) = Ok v /\ aligned ells v (snd x) (snd y)) cl cl') as (cl' & E' & F2').
      { clear - F2. clearbody cl. remember (kd_of cl) as kc eqn:Ek. revert cl Ek. induction F2 as [|[k c] [k' c'] kc m (e & v & Ev & Al) F2 IH]; intros cl Ek.
        - exists []. destruct cl; [|discriminate]. split; [reflexivity|constructor].
        - destruct cl as [|[e0 c0] cl]; [discriminate|]. injection Ek as -> -> Ek. destruct (IH cl Ek) as (cl' & -> & H'). cbn [fst snd] in *. subst k'.
          exists ((e0, c') :: cl'). split; [reflexivity|]. constructor; [|exact H']. cbn [fst snd]. eauto. }
      exists cl'. split; [exact E'|]. intros e He. destruct e as [k [p q]]. cbn [fst snd].
      assert (Ef : sfind cl p q = Some (vc (p, q))) by (apply selected_find; [left; apply (in_map snd l (k, (p, q)) He)|left; reflexivity]).
      assert (exists c, sfind cl' p q = Some c /\ aligned ells (ve (p, q)) (vc (p, q)) c) as (c & Ec' & Al).
      { clear - F2' Ef Ge He. clearbody cl. induction F2' as [|[[k1 [a b]] c1] [e2 c2] cl cl' (E & v & Ev & Al) F2 IH]; cbn [sfind] in *; [discriminate|].
        cbn [fst snd] in *. subst e2. destruct (same_pair a b p q) eqn:E0.
        - apply same_pair_iff in E0. destruct E0 as [-> ->]. injection Ef as ->. exists c2. split; [reflexivity|].
          rewrite Ge in Ev by (apply (in_map snd l (k, (p, q)) He)). injection Ev as <-. exact Al.
        - apply IH; assumption. }
      exists c. split; [exact Ec'|]. destruct (WF _ He) as (w1 & w2 & w3 & w4 & w5 & w6). cbn [fst snd] in *. destruct Al as (a1 & a2 & a3 & a4).
      unfold laid. rewrite !seq_length. split; [rewrite a1; exact w1|]. split; [rewrite a2; exact w2|]. split; [exact a3|].
      intros t x M r s i j Ht HM Hi Hj.
      assert (Hx : In x (ve (p, q))) by (unfold ve; rewrite <- w5; apply nth_error_In in Ht; apply (proj1 (MM x) Ht _ He)).
      apply In_nth_error in Hx. destruct Hx as (s' & Hs'). rewrite (a4 t s' x Ht Hs') in HM.
      apply nth_error_In in Hi as Hi'. apply nth_error_In in Hj as Hj'. apply in_seq in Hi'. apply in_seq in Hj'.
      assert (Lr : r < nb p) by (apply Nat.lt_le_trans with (length (seq 0 (nb p))); [apply nth_error_Some; rewrite Hi; discriminate|rewrite seq_length; lia]).
      assert (Ls : s < nb q) by (apply Nat.lt_le_trans with (length (seq 0 (nb q))); [apply nth_error_Some; rewrite Hj; discriminate|rewrite seq_length; lia]).
      rewrite (nth_error_nth' _ 0%nat) in Hi by (rewrite seq_length; exact Lr). rewrite seq_nth in Hi by exact Lr. cbn in Hi. injection Hi as <-.
      rewrite (nth_error_nth' _ 0%nat) in Hj by (rewrite seq_length; exact Ls). rewrite seq_nth in Hj by exact Ls. cbn in Hj. injection Hj as <-.
      exact (w6 s' x M r s Hs' HM). }
    rewrite rmapM_skey.
    assert (Ekd : forall e, In e l -> exists c, kd_get (kd_of cl') (skey e) = Ok c /\ is_auto (skey e) = Ok (probe_eqb (fst (snd e)) (snd (snd e))) /\
      laid ells (seq 0 (nb (fst (snd e)))) (seq 0 (nb (snd (snd e)))) (fun x i j => cl_at d (fst (snd e)) (snd (snd e)) x i j) c).
    { intros e He. destruct (Hm e He) as (c & E & Lc). exists c. destruct e as [k [p q]]. unfold skey. cbn [fst snd] in *.
      rewrite kd_get_key, E, auto_key. auto. }
    split.
    - intros ->. destruct l as [|e m]; [congruence|]. cbn [rmapM]. destruct (Ekd e (or_introl eq_refl)) as (c & -> & -> & (_ & _ & Lc & _)).
      cbn [rbind]. unfold vec_cube. destruct (crows c); [reflexivity|discriminate].
    - intros Ne.
      destruct (rmapM_exists (fun a => b <- kd_get (kd_of cl') (skey a);; a0 <- is_auto (skey a);; vec_cube a0 b)
        (fun e rows => vlaid ells (comps1 nb (fst (spk e)) (snd (spk e))) (comp_cl d) rows) l) as (bs & -> & HB).
      { intros e He. destruct (Ekd e He) as (c & -> & -> & Lc). cbn [rbind]. apply vcube_ok; assumption. }
      cbn [rbind]. destruct (hjoin_ok ells (comp_cl d) (map (fun e => comps1 nb (fst (spk e)) (snd (spk e))) l) bs) as (rows & -> & Lr).
      + intros E0. subst bs. inversion HB as [E0|]. symmetry in E0. contradiction.
      + apply Forall2_map_l. exact HB.
      + cbn [rbind]. exists rows. split; [reflexivity|]. rewrite components_concat. exact Lr.
  Qed.
End Deriv.
