(** Lemmas about collections of noisy spectra. *)
From Verif Require Import Base SortLib StrLib MatInv LinalgModel LinalgLemmas EvalModel EvalSpec EllLemmas FrameModel NameModel NameLemmas OrdLib FishEval FishEval4
  DeltaModel DeltaSpec DeltaLemmas.
From Coq Require Import Field.
Open Scope list_scope.

Section DeltaL2.
  Context {F : Type} {K : Fld F} {O : OFld (F := F)} {SQ : SqrtFld F}.
  Open Scope fld_scope.

  Lemma nth_update_same {A} (l : list A) n x d : (n < length l)%nat -> nth n (update_nth l n x) d = x.
  Proof.
    intros H. unfold update_nth. rewrite app_nth2; rewrite firstn_length_le by lia; [|lia]. rewrite Nat.sub_diag. reflexivity.
  Qed.
  Lemma nth_update_other {A} (l : list A) n m x d : (n < length l)%nat -> n <> m -> nth m (update_nth l n x) d = nth m l d.
  Proof.
    intros H N. unfold update_nth. destruct (Nat.lt_ge_cases m n) as [L|L].
    - rewrite app_nth1 by (rewrite firstn_length_le; lia). rewrite <- (firstn_skipn n l) at 2. rewrite app_nth1 by (rewrite firstn_length_le; lia). reflexivity.
    - rewrite app_nth2 by (rewrite firstn_length_le; lia). rewrite firstn_length_le by lia.
      destruct (m - n)%nat as [|k] eqn:E; [lia|]. cbn [nth].
      rewrite <- (firstn_skipn (Datatypes.S n) l) at 2. rewrite app_nth2 by (rewrite firstn_length_le; lia).
      rewrite firstn_length_le by lia. f_equal. lia.
  Qed.
  Lemma length_update {A} (l : list A) n x : (n < length l)%nat -> length (update_nth l n x) = length l.
  Proof.
    intros H. unfold update_nth. rewrite app_length. cbn [length]. rewrite firstn_length_le by lia. rewrite skipn_length. lia.
  Qed.

  Definition tidy (cl : dcoll F) : Prop :=
    NoDup (dkeys (singles cl)) /\ NoDup (map snd (singles cl)) /\ forall r, In r (map snd (singles cl)) -> (r < length (heap cl))%nat.

  (** ** Evaluating every block *)
  Lemma is_auto_evaluate fc fs (b b' : block F) : evaluate fc fs b = Ok b' -> is_auto_block b' = is_auto_block b /\ b_name b' = b_name b.
  Proof.
    intros H. apply evaluate_noise in H. destruct H as (n & _ & _ & E0 & E1 & E2 & _). unfold is_auto_block. rewrite E1, E2. auto.
  Qed.
  Definition auto_entries (cl : dcoll F) (l : list (string * nat)) (e : dict string nat) : dict string nat :=
    fold_left (fun e (kr : string * nat) => if is_auto_block (deref cl (snd kr)) then dset String.eqb e (b_name (deref cl (snd kr))) (snd kr) else e) l e.
  Lemma auto_entries_ext (c1 c2 : dcoll F) l e :
    (forall kr, In kr l -> is_auto_block (deref c1 (snd kr)) = is_auto_block (deref c2 (snd kr)) /\ b_name (deref c1 (snd kr)) = b_name (deref c2 (snd kr))) ->
    auto_entries c1 l e = auto_entries c2 l e.
  Proof.
    unfold auto_entries. revert e. induction l as [|kr l IH]; intros e H; [reflexivity|]. cbn [fold_left].
    destruct (H kr (or_introl eq_refl)) as [-> ->]. apply IH. intros x Hx. apply H. right; exact Hx.
  Qed.
  Lemma evaluate_fold fc fs l : forall cl cl' : dcoll F, rfold (evaluate_one fc fs) l cl = Ok cl' ->
    NoDup (map snd l) -> (forall r, In r (map snd l) -> (r < length (heap cl))%nat) ->
    singles cl' = singles cl /\ length (heap cl') = length (heap cl) /\
    (forall k r, In (k, r) l -> evaluate fc fs (deref cl r) = Ok (deref cl' r)) /\
    (forall r, ~ In r (map snd l) -> deref cl' r = deref cl r) /\
    entries cl' = auto_entries cl l (entries cl).
  Proof.
    induction l as [|[k r] l IH]; intros cl cl' H Nd Hr.
    - injection H as <-. repeat split; auto. intros ? ? [].
    - cbn [rfold] in H. unfold evaluate_one at 1 in H. cbn [snd] in H.
      destruct (evaluate fc fs (deref cl r)) as [b|] eqn:E; [|discriminate]. cbn [rbind] in H. cbv zeta in H.
      inversion Nd as [|? ? Nr Nd']; subst. assert (Lr : (r < length (heap cl))%nat) by (apply Hr; left; reflexivity).
      set (c1 := if is_auto_block b then _ else _) in H.
      assert (H1 : heap c1 = update_nth (heap cl) r b) by (unfold c1; destruct (is_auto_block b); reflexivity).
      assert (H2 : singles c1 = singles cl) by (unfold c1; destruct (is_auto_block b); reflexivity).
      assert (H3 : entries c1 = if is_auto_block b then dset String.eqb (entries cl) (b_name b) r else entries cl) by (unfold c1; destruct (is_auto_block b); reflexivity).
      assert (Hl : length (heap c1) = length (heap cl)) by (rewrite H1; apply length_update; exact Lr).
      assert (D1 : deref c1 r = b) by (unfold deref; rewrite H1; apply nth_update_same; exact Lr).
      assert (D2 : forall m, m <> r -> deref c1 m = deref cl m) by (intros m Nm; unfold deref; rewrite H1; apply nth_update_other; [exact Lr|congruence]).
      destruct (IH c1 cl' H Nd') as (A1 & A2 & A3 & A4 & A5).
      { intros m Hm. rewrite Hl. apply Hr. right; exact Hm. }
      split; [congruence|]. split; [congruence|]. split; [|split].
      + intros k0 r0 [E0|E0].
        * injection E0 as <- <-. rewrite (A4 r Nr), D1. exact E.
        * rewrite <- (A3 k0 r0 E0). rewrite D2; [reflexivity|]. intros ->. apply Nr. apply (in_map snd) in E0. exact E0.
      + intros m Nm. cbn [map snd] in Nm. rewrite A4 by (intros C; apply Nm; right; exact C). apply D2. intros ->. apply Nm. left; reflexivity.
      + rewrite A5, H3. destruct (is_auto_evaluate _ _ _ _ E) as [Ea En].
        unfold auto_entries at 2. cbn [fold_left snd]. rewrite <- Ea, <- En.
        transitivity (auto_entries cl l (if is_auto_block b then dset String.eqb (entries cl) (b_name b) r else entries cl)).
        * apply auto_entries_ext. intros [k0 r0] Hk. cbn [snd]. rewrite D2; [auto|]. intros ->. apply Nr. apply (in_map snd) in Hk. exact Hk.
        * unfold auto_entries. destruct (is_auto_block b); reflexivity.
  Qed.
  Lemma evaluate_fold_ok fc fs l : forall cl : dcoll F, NoDup (map snd l) -> (forall r, In r (map snd l) -> (r < length (heap cl))%nat) ->
    (forall k r, In (k, r) l -> exists b, evaluate fc fs (deref cl r) = Ok b) -> exists cl', rfold (evaluate_one fc fs) l cl = Ok cl'.
  Proof.
    induction l as [|[k r] l IH]; intros cl Nd Hr H; [exists cl; reflexivity|]. cbn [rfold]. unfold evaluate_one at 1. cbn [snd].
    destruct (H k r (or_introl eq_refl)) as (b & E). rewrite E. cbn [rbind]. cbv zeta. inversion Nd as [|? ? Nr Nd']; subst.
    assert (Lr : (r < length (heap cl))%nat) by (apply Hr; left; reflexivity).
    set (c1 := if is_auto_block b then _ else _).
    assert (H1 : heap c1 = update_nth (heap cl) r b) by (unfold c1; destruct (is_auto_block b); reflexivity).
    apply IH; [exact Nd'| |].
    - intros m Hm. rewrite H1, length_update by exact Lr. apply Hr. right; exact Hm.
    - intros k0 r0 Hin. destruct (H k0 r0 (or_intror Hin)) as (b0 & E0). exists b0. rewrite <- E0. f_equal.
      unfold deref. rewrite H1. apply nth_update_other; [exact Lr|]. intros ->. apply Nr. apply (in_map snd) in Hin. exact Hin.
  Qed.

  (** ** Loading spectra *)
  Lemma load_cl_ok (cl cl' : dcoll F) kc : load_cl cl kc = Ok cl' -> ~ In (fst kc) (dkeys (singles cl)) ->
    exists name, (forall p q, fst kc = comb_key p q -> has "_" p = false -> has "_" q = false -> name = if String.eqb p q then p else fst kc) /\
      heap cl' = heap cl ++ [from_cl name (snd kc)] /\ singles cl' = singles cl ++ [(fst kc, length (heap cl))] /\ entries cl' = entries cl.
  Proof.
    unfold load_cl. intros H N. destruct (comb_probes (fst kc)) as [|p1 [|p2 [|? ?]]] eqn:E; try discriminate. injection H as <-.
    exists (if String.eqb p1 p2 then p1 else fst kc). split; [|split; [reflexivity|split; [|reflexivity]]].
    - intros p q Ek Hp Hq. rewrite Ek, comb_probes_key in E by assumption. injection E as -> ->. reflexivity.
    - cbn [singles]. clear E. induction (singles cl) as [|[k v] l IH]; [reflexivity|]. cbn [dset dkeys map fst] in *.
      destruct (String.eqb_spec k (fst kc)) as [->|Nk]; [exfalso; apply N; left; reflexivity|]. cbn [app]. f_equal. apply IH. intros C. apply N. right; exact C.
  Qed.
  Lemma load_fold cls : forall cl cl' : dcoll F, rfold load_cl cls cl = Ok cl' -> tidy cl -> NoDup (dkeys cls) ->
    (forall k, In k (dkeys cls) -> ~ In k (dkeys (singles cl))) ->
    tidy cl' /\ entries cl' = entries cl /\ dkeys (singles cl') = dkeys (singles cl) ++ dkeys cls /\
    (forall k r, In (k, r) (singles cl) -> In (k, r) (singles cl') /\ deref cl' r = deref cl r) /\
    forall k a, In (k, a) cls -> exists r name, In (k, r) (singles cl') /\ deref cl' r = from_cl name a /\
      (forall p q, k = comb_key p q -> has "_" p = false -> has "_" q = false -> name = if String.eqb p q then p else k).
  Proof.
    induction cls as [|[k a] cls IH]; intros cl cl' H T Nd Nk.
    - injection H as <-. cbn [dkeys map]. rewrite app_nil_r. repeat split; auto; try apply T. intros ? ? [].
    - cbn [rfold] in H. destruct (load_cl cl (k, a)) as [c1|] eqn:E; [|discriminate]. cbn [rbind] in H.
      inversion Nd as [|? ? Nk' Nd']; subst.
      destruct (load_cl_ok _ _ _ E) as (name & Hn & Hh & Hs & He); [apply Nk; left; reflexivity|]. cbn [fst snd] in *.
      destruct T as (T1 & T2 & T3).
      assert (T' : tidy c1).
      { unfold tidy, dkeys. rewrite Hs, Hh, !map_app, app_length. cbn [map fst snd length].
        split; [|split].
        - apply LinalgLemmas.NoDup_app_intro; [exact T1|repeat constructor; intros []|]. intros x Hx [<-|[]]. apply (Nk k); [left; reflexivity|exact Hx].
        - apply LinalgLemmas.NoDup_app_intro; [exact T2|repeat constructor; intros []|]. intros x Hx [<-|[]]. apply T3 in Hx. lia.
        - intros r Hr. apply in_app_iff in Hr. destruct Hr as [Hr|[<-|[]]]; [apply T3 in Hr|]; lia. }
      destruct (IH c1 cl' H T' Nd') as (A1 & A2 & A3 & A4 & A5).
      { intros k0 Hk0 C. unfold dkeys in C. rewrite Hs, map_app in C. apply in_app_iff in C. destruct C as [C|[C|[]]].
        - apply (Nk k0); [right; exact Hk0|exact C].
        - cbn in C. subst k0. contradiction. }
      split; [exact A1|]. split; [congruence|]. split; [|split].
      + rewrite A3. unfold dkeys. rewrite Hs, map_app. cbn [map fst]. rewrite <- app_assoc. reflexivity.
      + intros k0 r0 Hin. destruct (A4 k0 r0) as [B1 B2]; [rewrite Hs; apply in_app_iff; left; exact Hin|].
        split; [exact B1|]. rewrite B2. unfold deref. rewrite Hh. apply app_nth1. apply T3. apply (in_map snd) in Hin. exact Hin.
      + intros k0 a0 [E0|E0].
        * injection E0 as <- <-. exists (length (heap cl)), name. destruct (A4 k (length (heap cl))) as [B1 B2]; [rewrite Hs; apply in_app_iff; right; left; reflexivity|].
          split; [exact B1|]. split; [|exact Hn]. rewrite B2. unfold deref. rewrite Hh, app_nth2 by lia. rewrite Nat.sub_diag. reflexivity.
        * exact (A5 k0 a0 E0).
  Qed.
  Lemma tidy_empty : tidy empty_coll.
  Proof. repeat split; try constructor. intros r []. Qed.

  (** ** Noise files *)
  Definition load_noise_one (nf : noise_file F) (cl : dcoll F) (kr : string * nat) : res (dcoll F) :=
    m <- dget_str nf (fst kr) ;;
    let '(r, c, v) := m in
    let b := deref cl (snd kr) in
    Ok (store cl (snd kr) (b_set_noise b (crepeat r c (length (b_ells b)) v))).
  Lemma load_noise_fold nf l : forall cl cl' : dcoll F, rfold (load_noise_one nf) l cl = Ok cl' ->
    NoDup (map snd l) -> (forall r, In r (map snd l) -> (r < length (heap cl))%nat) ->
    singles cl' = singles cl /\ length (heap cl') = length (heap cl) /\ entries cl' = entries cl /\
    (forall k r, In (k, r) l -> exists a b v, dget String.eqb nf k = Some (a, b, v) /\
       deref cl' r = b_set_noise (deref cl r) (crepeat a b (length (b_ells (deref cl r))) v)) /\
    (forall r, ~ In r (map snd l) -> deref cl' r = deref cl r).
  Proof.
    induction l as [|[k r] l IH]; intros cl cl' H Nd Hr.
    - injection H as <-. repeat split; auto. intros ? ? [].
    - cbn [rfold] in H. unfold load_noise_one at 1 in H. cbn [fst snd] in H.
      destruct (dget_str nf k) as [[[a b] v]|] eqn:E; [|discriminate]. cbn [rbind] in H. cbv zeta in H. apply dget_str_some in E.
      inversion Nd as [|? ? Nr Nd']; subst. assert (Lr : (r < length (heap cl))%nat) by (apply Hr; left; reflexivity).
      set (b1 := b_set_noise _ _) in H. set (c1 := store cl r b1) in H.
      assert (Hl : length (heap c1) = length (heap cl)) by (apply length_update; exact Lr).
      assert (D1 : deref c1 r = b1) by (apply nth_update_same; exact Lr).
      assert (D2 : forall m, m <> r -> deref c1 m = deref cl m) by (intros m Nm; apply nth_update_other; [exact Lr|congruence]).
      destruct (IH c1 cl' H Nd') as (A1 & A2 & A3 & A4 & A5).
      { intros m Hm. rewrite Hl. apply Hr. right; exact Hm. }
      split; [exact A1|]. split; [congruence|]. split; [exact A3|]. split.
      + intros k0 r0 [E0|E0].
        * injection E0 as <- <-. exists a, b, v. split; [exact E|]. rewrite (A5 r Nr). exact D1.
        * destruct (A4 k0 r0 E0) as (a0 & b0 & v0 & G1 & G2). exists a0, b0, v0. split; [exact G1|]. rewrite G2.
          rewrite D2; [reflexivity|]. intros ->. apply Nr. apply (in_map snd) in E0. exact E0.
      + intros m Nm. cbn [map snd] in Nm. rewrite A5 by (intros C; apply Nm; right; exact C). apply D2. intros ->. apply Nm. left; reflexivity.
  Qed.
  Lemma load_noise_fold_ok nf l : forall cl : dcoll F, (forall k, In k (dkeys l) -> exists v, dget String.eqb nf k = Some v) ->
    exists cl', rfold (load_noise_one nf) l cl = Ok cl'.
  Proof.
    induction l as [|[k r] l IH]; intros cl H; [exists cl; reflexivity|]. cbn [rfold]. unfold load_noise_one at 1. cbn [fst snd].
    destruct (H k (or_introl eq_refl)) as ([[a b] v] & E). unfold dget_str. rewrite E. cbn [rbind]. cbv zeta. apply IH. intros k0 Hk. apply H. right; exact Hk.
  Qed.
  Lemma load_noise_fold_missing nf l k : forall cl : dcoll F, In k (dkeys l) -> dget String.eqb nf k = None ->
    rfold (load_noise_one nf) l cl = Err EKeyError.
  Proof.
    induction l as [|[k0 r] l IH]; intros cl Hk H; [destruct Hk|]. cbn [rfold]. unfold load_noise_one at 1. cbn [fst snd].
    unfold dget_str. destruct (dget String.eqb nf k0) as [[[a b] v]|] eqn:E; cbn [rbind]; [|reflexivity].
    destruct Hk as [Hk|Hk]; [cbn in Hk; congruence|]. cbv zeta. apply IH; assumption.
  Qed.
  Lemma write_noise_get (cl : dcoll F) nf : write_noise cl = Ok nf -> NoDup (dkeys (singles cl)) ->
    dkeys nf = dkeys (singles cl) /\
    forall k r, In (k, r) (singles cl) -> exists n m rest, b_noise (deref cl r) = Some n /\ crows n = m :: rest /\ dget String.eqb nf k = Some (cnr n, cnc n, m).
  Proof.
    unfold write_noise. intros H Nd. apply rmapM_Forall2 in H.
    assert (Ek : dkeys nf = dkeys (singles cl)).
    { induction H as [|[k r] [k' v] l m E H IH]; [reflexivity|]. cbn [dkeys map fst snd] in *. inversion Nd; subst. f_equal; [|apply IH; assumption].
      destruct (b_noise (deref cl r)) as [n|]; [|discriminate]. destruct (crows n); [discriminate|]. congruence. }
    split; [exact Ek|]. intros k r Hin.
    assert (Hv : exists n m rest, b_noise (deref cl r) = Some n /\ crows n = m :: rest /\ In (k, (cnr n, cnc n, m)) nf).
    { clear Ek Nd. induction H as [|[k' r'] [k0 v] l mm E H IH]; [destruct Hin|]. destruct Hin as [E0|Hin].
      - injection E0 as -> ->. cbn [fst snd] in E. destruct (b_noise (deref cl r)) as [n|]; [|discriminate]. destruct (crows n) as [|m rest] eqn:Er; [discriminate|].
        exists n, m, rest. repeat split; auto. left. congruence.
      - destruct (IH Hin) as (n & m & rest & G1 & G2 & G3). exists n, m, rest. repeat split; auto. right; exact G3. }
    destruct Hv as (n & m & rest & G1 & G2 & G3). exists n, m, rest. repeat split; auto.
    apply (@dget_NoDup_In _ _ String.eqb String.eqb_spec); [rewrite Ek; exact Nd|exact G3].
  Qed.
End DeltaL2.
