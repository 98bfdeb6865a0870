(** Lemmas about the matrices of several probes. *)
From Verif Require Import Base SortLib StrLib MatInv LinalgModel LinalgLemmas EvalModel EvalSpec EllLemmas CovLemmas CovLemmas2 FrameModel
  NameModel NameLemmas OrdLib FishEval FishEval4 ConfigLemmas DeltaModel DeltaSpec DeltaLemmas DeltaLemmas2.
From Coq Require Import Field.
Open Scope list_scope.

(** ** Names *)
Definition plain (p : string) : Prop := has "+" p = false /\ p <> "XC"%string.
Lemma remove_last l : ~ In "XC"%string l -> remove_first "XC" (l ++ ["XC"%string]) = l.
Proof.
  induction l as [|x l IH]; intros H; [reflexivity|]. cbn [app remove_first]. destruct (String.eqb_spec x "XC") as [->|N].
  - exfalso. apply H. left; reflexivity.
  - f_equal. apply IH. intros C. apply H. right; exact C.
Qed.
Lemma name_round_trip ps : Forall plain ps -> probes_of_name (xc_name ps) = ps.
Proof.
  intros H. assert (Nx : ~ In "XC"%string ps) by (intros C; rewrite Forall_forall in H; destruct (H _ C) as [_ N]; congruence).
  assert (G : probes_of_name (join "+" (ps ++ ["XC"%string])) = ps).
  { unfold probes_of_name. change "+"%string with (cstr "+"). rewrite split_join.
    - cbv zeta. assert (E : smem "XC" (ps ++ ["XC"%string]) = true).
      { unfold smem. apply existsb_exists. exists "XC"%string. split; [apply in_app_iff; right; left; reflexivity|reflexivity]. }
      rewrite E. apply remove_last. exact Nx.
    - destruct ps; discriminate.
    - intros x Hx. apply in_app_iff in Hx. destruct Hx as [Hx|[<-|[]]]; [|reflexivity]. rewrite Forall_forall in H. apply H. exact Hx. }
  unfold xc_name. destruct ps as [|p [|q ps]]; [exact G| |exact G].
  inversion H as [|? ? [P1 P2] _]; subst. unfold probes_of_name. rewrite split_none by exact P1. cbv zeta.
  assert (E : smem "XC" [p] = false).
  { unfold smem. cbn [existsb]. destruct (String.eqb_spec "XC" p) as [E|_]; [congruence|reflexivity]. }
  rewrite E. reflexivity.
Qed.
Lemma xc_name_inj ps qs : Forall plain ps -> Forall plain qs -> xc_name ps = xc_name qs -> ps = qs.
Proof. intros A B E. rewrite <- (name_round_trip ps A), <- (name_round_trip qs B), E. reflexivity. Qed.

Lemma pairs_lt_In {A} (l : list A) a b : In (a, b) (pairs_lt l) -> In a l /\ In b l.
Proof.
  induction l as [|x l IH]; cbn [pairs_lt]; [intros []|]. intros H. apply in_app_iff in H. destruct H as [H|H].
  - apply in_map_iff in H. destruct H as (y & E & Hy). injection E as <- <-. cbn; auto.
  - destruct (IH H). cbn; auto.
Qed.
Lemma pairs_lt_all {A} (l : list A) a b : In a l -> In b l -> a <> b -> In (a, b) (pairs_lt l) \/ In (b, a) (pairs_lt l).
Proof.
  induction l as [|x l IH]; cbn [pairs_lt]; [intros []|]. intros [<-|Ha] [<-|Hb] N.
  - congruence.
  - left. apply in_app_iff. left. apply in_map. exact Hb.
  - right. apply in_app_iff. left. apply in_map. exact Ha.
  - destruct (IH Ha Hb N); [left|right]; apply in_app_iff; right; assumption.
Qed.
Lemma pairs_lt_nodup {A} (l : list A) : NoDup l -> NoDup (pairs_lt l) /\ forall a b, In (a, b) (pairs_lt l) -> a <> b /\ ~ In (b, a) (pairs_lt l).
Proof.
  induction l as [|x l IH]; intros N; cbn [pairs_lt]; [split; [constructor|intros ? ? []]|].
  inversion N as [|? ? Hx N']; subst. destruct (IH N') as [N1 N2]. split.
  - apply NoDup_app_intro; [|exact N1|].
    + apply FinFun.Injective_map_NoDup; [|exact N']. intros a b E. congruence.
    + intros [a b] Hab Hin. apply in_map_iff in Hab. destruct Hab as (y & E & _). injection E as <- <-. apply pairs_lt_In in Hin. tauto.
  - intros a b H. apply in_app_iff in H. destruct H as [H|H].
    + apply in_map_iff in H. destruct H as (y & E & Hy). injection E as <- <-. split; [congruence|]. intros C. apply in_app_iff in C. destruct C as [C|C].
      * apply in_map_iff in C. destruct C as (z & E & Hz). injection E as <- <-. contradiction.
      * apply pairs_lt_In in C. tauto.
    + destruct (N2 a b H) as [B1 B2]. split; [exact B1|]. intros C. apply in_app_iff in C. destruct C as [C|C]; [|contradiction].
      apply in_map_iff in C. destruct C as (z & E & Hz). injection E as -> ->. apply pairs_lt_In in H. tauto.
Qed.
Lemma xc_groups_len probes g : In g (xc_groups probes) -> (2 <= length g)%nat /\ incl g probes.
Proof.
  unfold xc_groups. destruct (Nat.leb_spec (length probes) 1) as [L|L]; [intros []|]. intros [<-|H]; [split; [lia|intros x Hx; exact Hx]|].
  destruct (Nat.ltb_spec 2 (length probes)); [|destruct H]. apply in_map_iff in H. destruct H as ([a b] & <- & Hab). apply pairs_lt_In in Hab.
  split; [cbn; lia|]. intros x [<-|[<-|[]]]; cbn; tauto.
Qed.
Lemma xc_groups_nodup probes : NoDup probes -> NoDup (xc_groups probes).
Proof.
  intros N. unfold xc_groups. destruct (Nat.leb_spec (length probes) 1) as [L|L]; [constructor|].
  destruct (Nat.ltb_spec 2 (length probes)) as [L2|L2]; [|repeat constructor; intros []].
  constructor.
  - intros H. apply in_map_iff in H. destruct H as ([a b] & E & _). rewrite <- E in L2. cbn in L2. lia.
  - apply FinFun.Injective_map_NoDup; [|apply pairs_lt_nodup; exact N]. intros [a b] [c e] E. cbn in E. congruence.
Qed.

Lemma NoDup_map_in {A B} (f : A -> B) l : (forall x y, In x l -> In y l -> f x = f y -> x = y) -> NoDup l -> NoDup (map f l).
Proof.
  induction l as [|a l IH]; intros H N; [constructor|]. inversion N as [|? ? Na N']; subst. cbn [map]. constructor.
  - intros C. apply in_map_iff in C. destruct C as (x & E & Hx). apply Na. rewrite <- (H x a (or_intror Hx) (or_introl eq_refl) E). exact Hx.
  - apply IH; [|exact N']. intros x y Hx Hy. apply H; right; assumption.
Qed.
Lemma xc_names_nodup probes : NoDup probes -> Forall plain probes -> NoDup (map xc_name (xc_groups probes)).
Proof.
  intros N P. apply NoDup_map_in; [|apply xc_groups_nodup; exact N]. intros g g' Hg Hg'.
  rewrite Forall_forall in P.
  apply xc_name_inj; apply Forall_forall; intros x Hx; apply P; [apply (proj2 (xc_groups_len _ _ Hg))|apply (proj2 (xc_groups_len _ _ Hg'))]; exact Hx.
Qed.

Section DeltaL3.
  Context {F : Type} {K : Fld F} {O : OFld (F := F)} {SQ : SqrtFld F}.
  Open Scope fld_scope.

  (** ** Selecting entries *)
  Lemma subdict_fold {V} (d : dict string V) keys : (forall k, In k keys -> dget String.eqb d k <> None) ->
    forall acc, exists r, rfold (fun acc k => v <- dget_str d k ;; Ok (dset String.eqb acc k v)) keys acc = Ok r /\
      forall k, dget String.eqb r k = if in_dec string_dec k keys then dget String.eqb d k else dget String.eqb acc k.
  Proof.
    induction keys as [|k0 keys IH]; intros H acc.
    - exists acc. split; [reflexivity|]. intros k. destruct (in_dec string_dec k []) as [[]|]. reflexivity.
    - cbn [rfold]. destruct (dget String.eqb d k0) as [v|] eqn:E; [|exfalso; apply (H k0); [left; reflexivity|exact E]].
      unfold dget_str at 1. rewrite E. cbn [rbind]. destruct (IH (fun k Hk => H k (or_intror Hk)) (dset String.eqb acc k0 v)) as (r & Er & Hr).
      exists r. split; [exact Er|]. intros k. rewrite Hr.
      destruct (in_dec string_dec k keys) as [Hin|Nin]; destruct (in_dec string_dec k (k0 :: keys)) as [Hin'|Nin']; try reflexivity.
      + exfalso. apply Nin'. right; exact Hin.
      + destruct Hin' as [->|C]; [|contradiction]. rewrite (dget_dset_same _ String.eqb_spec). symmetry; exact E.
      + rewrite (dget_dset_other _ String.eqb_spec); [reflexivity|]. intros ->. apply Nin'. left; reflexivity.
  Qed.
  Lemma subdict_ok {V} (d : dict string V) keys : (forall k, In k keys -> dget String.eqb d k <> None) ->
    exists r, subdict d keys = Ok r /\ NoDup (dkeys r) /\ forall k, dget String.eqb r k = if in_dec string_dec k keys then dget String.eqb d k else None.
  Proof.
    intros H. destruct (subdict_fold d keys H []) as (r & Er & Hr). exists r. split; [exact Er|]. split; [|exact Hr].
    assert (G : forall keys acc r, rfold (fun acc k => v <- dget_str d k ;; Ok (dset String.eqb acc k v)) keys acc = Ok r -> NoDup (dkeys acc) -> NoDup (dkeys r)).
    { clear. induction keys as [|k0 keys IH]; intros acc r E N; cbn [rfold] in E; [injection E as <-; exact N|].
      destruct (dget_str d k0) as [v|]; [|discriminate]. cbn [rbind] in E. apply IH in E; [exact E|]. apply (NoDup_dset _ String.eqb_spec). exact N. }
    apply (G _ _ _ Er). constructor.
  Qed.

  Section Matrix.
    Variables (nb : string -> nat) (probes : list string) (md : dict string (option (cube F))) (ld : dict string (list F)).
    Hypothesis G : good_blocks nb probes md ld.

    Definition okey (pq : string * string) : string :=
      if dmem String.eqb md (comb_key (fst pq) (snd pq)) then comb_key (fst pq) (snd pq) else comb_key (snd pq) (fst pq).
    Lemma dmem_iff {V} (d : dict string V) k : dmem String.eqb d k = true <-> dget String.eqb d k <> None.
    Proof. unfold dmem. destruct (dget String.eqb d k); split; congruence. Qed.
    Lemma dmem_false {V} (d : dict string V) k : dmem String.eqb d k = false <-> dget String.eqb d k = None.
    Proof. unfold dmem. destruct (dget String.eqb d k); split; congruence. Qed.
    Lemma relevant_ok pq : In (fst pq) probes -> In (snd pq) probes -> relevant md pq = Ok (okey pq).
    Proof.
      intros Hp Hq. unfold relevant, okey. destruct (dmem String.eqb md (comb_key (fst pq) (snd pq))) eqn:E; [reflexivity|].
      apply dmem_false in E. destruct (G _ _ Hp Hq) as (G1 & _). apply G1 in E. apply dmem_iff in E. rewrite E. reflexivity.
    Qed.
    Lemma okey_sym p q : In p probes -> In q probes -> okey (p, q) = okey (q, p).
    Proof.
      intros Hp Hq. unfold okey. cbn [fst snd]. destruct (string_dec p q) as [->|N]; [reflexivity|].
      destruct (dmem String.eqb md (comb_key p q)) eqn:E1, (dmem String.eqb md (comb_key q p)) eqn:E2; try reflexivity.
      - apply dmem_iff in E1, E2. destruct (G _ _ Hp Hq) as (_ & G2 & _). exfalso. apply E2. apply G2; assumption.
      - apply dmem_false in E1, E2. destruct (G _ _ Hp Hq) as (G1 & _). exfalso. apply (G1 E1). exact E2.
    Qed.
    Lemma okey_stored p q : In p probes -> In q probes -> exists l c, (okey (p, q) = comb_key p q /\ pair_block md ld p q = Some (l, c) \/
        okey (p, q) = comb_key q p /\ pair_block md ld p q = None /\ pair_block md ld q p = Some (l, c)) /\
        dget String.eqb ld (okey (p, q)) = Some l /\ dget String.eqb md (okey (p, q)) = Some (Some c) /\ increasing l /\ length l = length (crows c) /\ l = pair_ells md ld p q.
    Proof.
      intros Hp Hq. unfold okey, pair_ells. cbn [fst snd]. destruct (dmem String.eqb md (comb_key p q)) eqn:E.
      - apply dmem_iff in E. destruct (G _ _ Hp Hq) as (_ & _ & G3). destruct (G3 E) as (l & c & B & _ & _ & L & I). exists l, c. rewrite B.
        assert (B' := B). unfold pair_block in B'. destruct (dget String.eqb md (comb_key p q)) as [[c'|]|] eqn:Ec; try discriminate.
        destruct (dget String.eqb ld (comb_key p q)) as [l'|] eqn:El; [|discriminate]. injection B' as <- <-. repeat split; auto.
      - apply dmem_false in E. destruct (G _ _ Hp Hq) as (G1 & _). pose proof (G1 E) as E'. destruct (G _ _ Hq Hp) as (_ & _ & G3).
        destruct (G3 E') as (l & c & B & _ & _ & L & I). exists l, c.
        assert (B0 : pair_block md ld p q = None) by (unfold pair_block; rewrite E; reflexivity). rewrite B0, B.
        assert (B' := B). unfold pair_block in B'. destruct (dget String.eqb md (comb_key q p)) as [[c'|]|] eqn:Ec; try discriminate.
        destruct (dget String.eqb ld (comb_key q p)) as [l'|] eqn:El; [|discriminate]. injection B' as <- <-. repeat split; auto.
    Qed.
    Definition rel_keys : list string := map okey (pairs2 probes).
    Lemma rel_keys_In p q : In p probes -> In q probes -> In (okey (p, q)) rel_keys.
    Proof.
      intros Hp Hq. unfold rel_keys. destruct (pairs2_all _ _ _ Hp Hq) as [H|H]; [apply in_map; exact H|]. rewrite okey_sym by assumption. apply in_map. exact H.
    Qed.
    Lemma rel_keys_inv k : In k rel_keys -> exists p q, In p probes /\ In q probes /\ k = okey (p, q).
    Proof. intros H. apply in_map_iff in H. destruct H as ([p q] & <- & Hin). apply pairs2_In in Hin. exists p, q. tauto. Qed.

    Lemma xc_matrix_ok : probes <> [] -> exists ells m, xc_matrix probes md ld = Ok (ells, m) /\ increasing ells /\
      (forall x, In x ells <-> forall p q, In p probes -> In q probes -> In x (pair_ells md ld p q)) /\
      laid ells (positions nb probes) (positions nb probes) (pair_value md ld) m.
    Proof.
      intros Np. unfold xc_matrix.
      assert (E1 : rmapM (relevant md) (pairs2 probes) = Ok rel_keys).
      { apply rmapM_Ok. intros [p q] Hin. apply pairs2_In in Hin. apply relevant_ok; apply Hin. }
      rewrite E1. cbn [rbind].
      destruct (subdict_ok md rel_keys) as (sel & Es & Ns & Hs).
      { intros k Hk. destruct (rel_keys_inv k Hk) as (p & q & Hp & Hq & ->). destruct (okey_stored p q Hp Hq) as (l & c & _ & _ & Ec & _). congruence. }
      destruct (subdict_ok ld rel_keys) as (sell & El & Nl & Hl).
      { intros k Hk. destruct (rel_keys_inv k Hk) as (p & q & Hp & Hq & ->). destruct (okey_stored p q Hp Hq) as (l & c & _ & Ec & _). congruence. }
      rewrite Es. cbn [rbind]. rewrite El. cbn [rbind].
      assert (Vin : forall a, In a (map snd sell) <-> exists p q, In p probes /\ In q probes /\ a = pair_ells md ld p q).
      { intros a. split.
        - intros H. apply in_map_iff in H. destruct H as ([k a'] & <- & Hin). cbn [snd].
          pose proof (@dget_NoDup_In _ _ String.eqb String.eqb_spec _ _ _ Nl Hin) as Hg. rewrite Hl in Hg.
          destruct (in_dec string_dec k rel_keys) as [Hk|]; [|discriminate]. destruct (rel_keys_inv k Hk) as (p & q & Hp & Hq & ->).
          destruct (okey_stored p q Hp Hq) as (l & c & _ & Ec & _ & _ & _ & Ep). exists p, q. repeat split; auto. congruence.
        - intros (p & q & Hp & Hq & ->). destruct (okey_stored p q Hp Hq) as (l & c & _ & Ec & _ & _ & _ & <-).
          assert (Hg : dget String.eqb sell (okey (p, q)) = Some l).
          { rewrite Hl. destruct (in_dec string_dec (okey (p, q)) rel_keys) as [_|N]; [exact Ec|]. exfalso. apply N. apply rel_keys_In; assumption. }
          apply (dget_In _ String.eqb_spec) in Hg. apply (in_map snd) in Hg. exact Hg. }
      assert (Nv : map snd sell <> []).
      { destruct probes as [|p ps] eqn:Ep; [congruence|]. intros C. assert (H : In (pair_ells md ld p p) (map snd sell)).
        { apply Vin. exists p, p. cbn; auto. } rewrite C in H. destruct H. }
      destruct (intersection_inc (map snd sell) Nv) as (ells & Ei & Si & Mi).
      { intros a Ha. apply Vin in Ha. destruct Ha as (p & q & Hp & Hq & ->). destruct (okey_stored p q Hp Hq) as (l & c & _ & _ & _ & I & _ & <-). exact I. }
      rewrite Ei. cbn [rbind].
      assert (Mi' : forall x, In x ells <-> forall p q, In p probes -> In q probes -> In x (pair_ells md ld p q)).
      { intros x. rewrite Mi. split.
        - intros H p q Hp Hq. apply H. apply Vin. exists p, q. auto.
        - intros H a Ha. apply Vin in Ha. destruct Ha as (p & q & Hp & Hq & ->). apply H; assumption. }
      assert (Cell : forall p q, In p probes -> In q probes -> exists b,
        (kb <- (if dmem String.eqb sel (comb_key p q)
                then b <- dget_str sel (comb_key p q) ;; Ok (comb_key p q, b)
                else b <- dget_str sel (comb_key q p) ;; Ok (comb_key q p, option_map ctransp b)) ;;
         l <- dget_str ld (fst kb) ;;
         match snd kb with None => Err ETypeError | Some b => cmask ells l b end) = Ok b /\
        laid ells (map (pair p) (seq 0 (nb p))) (map (pair q) (seq 0 (nb q))) (pair_value md ld) b).
      { intros p q Hp Hq.
        assert (Sel : forall k, In k rel_keys -> dget String.eqb sel k = dget String.eqb md k).
        { intros k Hk. rewrite Hs. destruct (in_dec string_dec k rel_keys); [reflexivity|contradiction]. }
        pose proof (rel_keys_In p q Hp Hq) as Hin.
        destruct (okey_stored p q Hp Hq) as (l & c & Hor & Hlk & Hck & I & L & Epl).
        assert (Iell : incl ells l) by (intros x Hx; rewrite Epl; apply (proj1 (Mi' x) Hx); assumption).
        assert (Ready : forall b, length (crows b) = length (crows c) -> laid l (map (pair p) (seq 0 (nb p))) (map (pair q) (seq 0 (nb q))) (pair_value md ld) b ->
          exists b', cmask ells l b = Ok b' /\ laid ells (map (pair p) (seq 0 (nb p))) (map (pair q) (seq 0 (nb q))) (pair_value md ld) b').
        { intros b Lb Hb. assert (Em : exists b', cmask ells l b = Ok b') by (unfold cmask; rewrite Lb, L, Nat.eqb_refl; eauto).
          destruct Em as (b' & Em). exists b'. split; [exact Em|]. apply (laid_mask _ _ _ _ _ _ _ Iell Hb). apply cmask_aligned; assumption. }
        destruct Hor as [[Ek Hb]|[Ek [Hb0 Hb]]].
        - rewrite Ek in *. assert (Es' : dmem String.eqb sel (comb_key p q) = true) by (apply dmem_iff; rewrite Sel by exact Hin; congruence).
          rewrite Es'. unfold dget_str at 1. rewrite (Sel _ Hin), Hck. cbn [rbind fst snd]. unfold dget_str. rewrite Hlk. cbn [rbind].
          apply Ready; [reflexivity|].
          destruct (G _ _ Hp Hq) as (_ & _ & G3). destruct (G3 ltac:(congruence)) as (l' & c' & B & C1 & C2 & C3 & C4). rewrite Hb in B. injection B as <- <-.
          unfold laid. rewrite !map_length, !seq_length. repeat split; auto. intros t x M r s u v Ht HM Hu Hv.
          rewrite nth_error_map, nth_error_seq in Hu, Hv. destruct (r <? nb p)%nat; [|discriminate]. destruct (s <? nb q)%nat; [|discriminate].
          cbn in Hu, Hv. injection Hu as <-. injection Hv as <-. unfold pair_value. cbn [fst snd]. rewrite Hb.
          rewrite (row_at_nth l (crows c) t x M); auto using increasing_NoDup.
        - rewrite Ek in *. assert (Npq : dget String.eqb md (comb_key p q) = None).
          { destruct (dget String.eqb md (comb_key p q)) as [o|] eqn:E; [|reflexivity]. destruct (G _ _ Hp Hq) as (_ & _ & G3). destruct (G3 ltac:(congruence)) as (? & ? & B & _). congruence. }
          assert (Es' : dmem String.eqb sel (comb_key p q) = false).
          { apply dmem_false. rewrite Hs. destruct (in_dec string_dec (comb_key p q) rel_keys); [exact Npq|reflexivity]. }
          rewrite Es'. unfold dget_str at 1. rewrite (Sel _ Hin), Hck. cbn [rbind option_map fst snd]. unfold dget_str. rewrite Hlk. cbn [rbind].
          apply Ready; [cbn; apply map_length|].
          destruct (G _ _ Hq Hp) as (_ & _ & G3). destruct (G3 ltac:(congruence)) as (l' & c' & B & C1 & C2 & C3 & C4). rewrite Hb in B. injection B as <- <-.
          unfold laid. cbn [ctransp cnr cnc crows]. rewrite !map_length, !seq_length. repeat split; auto. intros t x M r s u v Ht HM Hu Hv.
          rewrite nth_error_map, nth_error_seq in Hu, Hv. destruct (r <? nb p)%nat; [|discriminate]. destruct (s <? nb q)%nat; [|discriminate].
          cbn in Hu, Hv. injection Hu as <-. injection Hv as <-. unfold pair_value. cbn [fst snd]. rewrite Hb0, Hb.
          rewrite nth_error_map in HM. destruct (nth_error (crows c) t) as [M0|] eqn:EM; [|discriminate]. cbn in HM. injection HM as <-.
          rewrite (row_at_nth l (crows c) t x M0); auto using increasing_NoDup. }
      match goal with |- context [rmapM ?f probes] => destruct (rmapM_exists f (fun p b => laid ells (map (pair p) (seq 0 (nb p))) (positions nb probes) (pair_value md ld) b) probes) as (rows & Er & Hr) end.
      { intros p Hp. match goal with |- context [rmapM ?f probes] => destruct (rmapM_exists f (fun q b => laid ells (map (pair p) (seq 0 (nb p))) (map (pair q) (seq 0 (nb q))) (pair_value md ld) b) probes) as (row & Erow & Hrow) end.
        { intros q Hq. exact (Cell p q Hp Hq). }
        rewrite Erow. cbn [rbind]. destruct (cat_h_ok ells (map (pair p) (seq 0 (nb p))) (pair_value md ld) (map (fun q => map (pair q) (seq 0 (nb q))) probes) row) as (b & Eb & Lb).
        - intros C. subst row. inversion Hrow as [E0|]. apply Np. symmetry; exact E0.
        - clear - Hrow. induction Hrow; constructor; assumption.
        - exists b. split; [exact Eb|]. unfold positions. rewrite flat_map_concat_map. exact Lb. }
      rewrite Er. cbn [rbind].
      destruct (cat_v_ok ells (positions nb probes) (pair_value md ld) (map (fun q => map (pair q) (seq 0 (nb q))) probes) rows) as (m & Em & Lm).
      - intros C. subst rows. inversion Hr as [E0|]. apply Np. symmetry; exact E0.
      - clear - Hr. remember (positions nb probes) as P. clear HeqP. induction Hr; constructor; assumption.
      - rewrite Em. cbn [rbind]. exists ells, m. split; [reflexivity|]. split; [exact Si|]. split; [exact Mi'|].
        rewrite <- flat_map_concat_map in Lm. exact Lm.
    Qed.
  End Matrix.

  Lemma xc_matrix_missing probes md (ld : dict string (list F)) p q : In (p, q) (pairs2 probes) ->
    dget String.eqb md (comb_key p q) = None -> dget String.eqb md (comb_key q p) = None -> xc_matrix (F := F) probes md ld = Err EKeyError.
  Proof.
    intros Hin E1 E2. unfold xc_matrix. assert (E : rmapM (relevant md) (pairs2 probes) = Err EKeyError); [|rewrite E; reflexivity].
    assert (R : relevant md (p, q) = Err EKeyError) by (unfold relevant, dmem; cbn [fst snd]; rewrite E1, E2; reflexivity).
    revert Hin. generalize (pairs2 probes). intros l. induction l as [|x l IH]; [intros []|]. intros [->|H]; cbn [rmapM].
    - rewrite R. reflexivity.
    - destruct (relevant md x) as [k|e] eqn:Ex; cbn [rbind].
      + rewrite (IH H). reflexivity.
      + unfold relevant in Ex. destruct (dmem String.eqb md (comb_key (fst x) (snd x))); [discriminate|]. destruct (dmem String.eqb md (comb_key (snd x) (fst x))); [discriminate|]. congruence.
  Qed.

  (** ** Adding the matrices to the collection *)
  Lemma add_fold md (ld : dict string (list F)) gs : forall cl cl' : dcoll F, rfold (add_xc md ld) gs cl = Ok cl' -> NoDup (map xc_name gs) ->
    singles cl' = singles cl /\ (forall r, (r < length (heap cl))%nat -> deref cl' r = deref cl r) /\ (length (heap cl) <= length (heap cl'))%nat /\
    (forall k, ~ In k (map xc_name gs) -> dget String.eqb (entries cl') k = dget String.eqb (entries cl) k) /\
    forall g, In g gs -> exists r ells m I, dget String.eqb (entries cl') (xc_name g) = Some r /\ (length (heap cl) <= r)%nat /\ (r < length (heap cl'))%nat /\
      xc_matrix g md ld = Ok (ells, m) /\ cube_inv m = Ok I /\
      deref cl' r = mkBlock (xc_name g) None None None ells None None (Some m) (Some I).
  Proof.
    induction gs as [|g gs IH]; intros cl cl' H Nd.
    - injection H as <-. repeat split; auto. intros ? [].
    - cbn [rfold] in H. unfold add_xc at 1 in H. destruct (xc_matrix g md ld) as [[ells m]|] eqn:Em; [|discriminate]. cbn [rbind fst snd] in H.
      unfold new_block at 1 in H. destruct (cube_inv m) as [I|] eqn:EI; [|discriminate]. cbn [rbind] in H.
      set (b := mkBlock _ _ _ _ _ _ _ _ _) in H. set (c1 := mkColl _ _ _) in H. inversion Nd as [|? ? Ng Nd']; subst.
      destruct (IH c1 cl' H Nd') as (A1 & A2 & A3 & A4 & A5).
      assert (Lh : length (heap c1) = Datatypes.S (length (heap cl))) by (unfold c1; cbn [heap]; rewrite app_length; cbn; lia).
      split; [exact A1|]. split; [|split; [lia|split]].
      + intros r Hr. rewrite A2 by lia. unfold deref, c1. cbn [heap]. apply app_nth1. exact Hr.
      + intros k Nk. cbn [map] in Nk. rewrite A4 by (intros C; apply Nk; right; exact C). unfold c1. cbn [entries].
        apply (dget_dset_other _ String.eqb_spec). intros E. apply Nk. left; exact E.
      + intros g0 [<-|Hg].
        * exists (length (heap cl)), ells, m, I. split; [|split; [lia|split; [lia|split; [exact Em|split; [exact EI|]]]]].
          -- rewrite A4 by exact Ng. unfold c1. cbn [entries]. apply (dget_dset_same _ String.eqb_spec).
          -- rewrite A2 by lia. unfold deref, c1. cbn [heap]. rewrite app_nth2 by lia. rewrite Nat.sub_diag. reflexivity.
        * destruct (A5 g0 Hg) as (r & e0 & m0 & I0 & B1 & B2 & B3 & B4 & B5 & B6). exists r, e0, m0, I0.
          split; [exact B1|]. split; [lia|]. split; [exact B3|]. auto.
  Qed.
End DeltaL3.
