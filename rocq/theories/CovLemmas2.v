(** The covariance of the spectra: from blocks to the matrix. *)
From Verif Require Import Base SortLib StrLib MatInv LinalgModel FrameModel KeyModel KeySpec KeyLemmas
  ParamModel EvalModel EvalSpec EllLemmas CovLemmas.
From Coq Require Import Sorted Permutation.
Open Scope list_scope.

Lemma rfold_app {A B} (f : A -> B -> res A) l m a : rfold f (l ++ m) a = (a' <- rfold f l a ;; rfold f m a').
Proof.
  revert a. induction l as [|x l IH]; intros a; cbn [app rfold]; [reflexivity|].
  destruct (f a x); cbn [rbind]; [apply IH|reflexivity].
Qed.
Lemma enum_nth {A} (l : list A) n x : nth_error (enum l) n = Some x <-> fst x = n /\ nth_error l n = Some (snd x).
Proof.
  unfold enum. destruct x as [k a]. rewrite combine_nth_err. cbn [fst snd]. split.
  - intros [H1 H2]. split; [|exact H2]. assert (L : n < length l) by (apply nth_error_Some; rewrite H2; discriminate).
    rewrite (nth_error_nth' _ 0) in H1 by (rewrite seq_length; exact L). rewrite seq_nth in H1 by exact L. cbn in H1. congruence.
  - intros [<- H2]. split; [|exact H2]. assert (L : k < length l) by (apply nth_error_Some; rewrite H2; discriminate).
    rewrite (nth_error_nth' _ 0) by (rewrite seq_length; exact L). rewrite seq_nth by exact L. reflexivity.
Qed.
Lemma enum_before {A} (l : list A) done rest row a col b : enum l = done ++ (row, a) :: rest ->
  In (col, b) (enum l) -> col < row -> In (col, b) done.
Proof.
  intros E Hin Hlt. apply In_nth_error in Hin. destruct Hin as (n & Hn).
  assert (R : nth_error (enum l) (length done) = Some (row, a)).
  { rewrite E, nth_error_app2 by lia. rewrite Nat.sub_diag. reflexivity. }
  pose proof (proj1 (enum_nth _ _ _) R) as [Er _]. pose proof (proj1 (enum_nth _ _ _) Hn) as [Ec _]. cbn [fst] in Er, Ec.
  rewrite E in Hn. rewrite nth_error_app1 in Hn by lia. eapply nth_error_In. exact Hn.
Qed.
Lemma enum_In {A} (l : list A) n a : In (n, a) (enum l) -> In a l.
Proof. unfold enum. apply in_combine_r. Qed.
Lemma In_enum {A} (l : list A) a : In a l -> exists n, In (n, a) (enum l).
Proof.
  intros H. apply In_nth_error in H. destruct H as (n & Hn). exists n. apply nth_error_In with n.
  apply enum_nth. split; [reflexivity|exact Hn].
Qed.

Section Cov2.
  Context {F : Type} {K : Fld F} {O : OFld (F := F)}.
  Add Field CovField2 : (fth (F := F)).
  Open Scope fld_scope.
  Implicit Types d : spectra (F := F).

  Lemma laid_transp {X} (ells : list F) (R C : list X) g c : (forall x u v, g x u v = g x v u) ->
    laid ells R C g c -> laid ells C R g (ctransp c).
  Proof.
    intros S (a & b & e & h). unfold laid. cbn [cnr cnc crows ctransp]. rewrite map_length. repeat split; auto.
    intros t x M r s u v Ht HM Hu Hv. rewrite nth_error_map in HM.
    destruct (nth_error (crows c) t) as [M0|] eqn:E; [|discriminate]. cbn in HM. injection HM as <-.
    rewrite S. exact (h t x M0 s r v u Ht E Hv Hu).
  Qed.
  Lemma gauss_sym d x u v : symmetric_spectra d -> gauss d x u v = gauss d x v u.
  Proof.
    intros S. destruct u as [[A B] [i j]], v as [[C D] [k m]]. unfold gauss.
    rewrite (proj2 (S C A) x k i), (proj2 (S D B) x m j), (proj2 (S C B) x k j), (proj2 (S D A) x m i).
    destruct (cl_at d A C x i k), (cl_at d B D x j m), (cl_at d A D x i m), (cl_at d B C x j k); try reflexivity.
    f_equal. f_equal. ring.
  Qed.
  Lemma good_transp nb d a b ells blk : symmetric_spectra d ->
    good_block nb d a b ells blk -> good_block nb d b a ells (ctransp blk).
  Proof.
    intros S (A & B & C). split; [exact A|]. split.
    - intros x. rewrite B.
      rewrite (proj1 (S (fst b) (fst a))), (proj1 (S (snd b) (snd a))), (proj1 (S (fst b) (snd a))), (proj1 (S (snd b) (fst a))). tauto.
    - apply laid_transp; [intros; apply gauss_sym; exact S|exact C].
  Qed.

  Definition spk (a : spelled) := snd a.
  Lemma keqb_key a b : keqb (skey a) (skey b) = same_pair (fst (spk a)) (snd (spk a)) (fst (spk b)) (snd (spk b)).
  Proof. unfold keqb, skey. rewrite equiv_key. destruct (same_pair _ _ _ _); reflexivity. Qed.
  Lemma kk_key a b a' b' : reflect (spk a = spk a' /\ spk b = spk b') (kk_eqb (skey a, skey b) (skey a', skey b')).
  Proof.
    unfold kk_eqb. cbn [fst snd]. rewrite !keqb_key.
    destruct (same_pair (fst (spk a)) _ _ _) eqn:E1; cbn [andb].
    - apply same_pair_iff in E1. destruct (same_pair _ _ _ _) eqn:E2; constructor.
      + apply same_pair_iff in E2. destruct (spk a), (spk a'), (spk b), (spk b'); cbn in *. intuition congruence.
      + intros [_ e]. rewrite e, same_pair_refl in E2. discriminate.
    - constructor. intros [e _]. rewrite e, same_pair_refl in E1. discriminate.
  Qed.

  Section Inv.
  Context (nb : probe -> nat) (d : spectra (F := F)) (l : list spelled).
  Definition item_ok (x : (clkey * clkey) * list F) (y : (clkey * clkey) * cube F) : Prop :=
    fst y = fst x /\ exists a b, In a l /\ In b l /\ fst x = (skey a, skey b) /\ good_block nb d (spk a) (spk b) (snd x) (snd y).
  Definition has_key (le : dict (clkey * clkey) (list F)) a b := exists v, dget kk_eqb le (skey a, skey b) = Some v.
  Definition blocks_ok (st : blocks (F := F)) : Prop := Forall2 item_ok (fst st) (snd st).

  Lemma dset_ok le lc a b ells blk : Forall2 item_ok le lc -> In a l -> In b l -> good_block nb d (spk a) (spk b) ells blk ->
    Forall2 item_ok (dset kk_eqb le (skey a, skey b) ells) (dset kk_eqb lc (skey a, skey b) blk).
  Proof.
    intros H Ha Hb G. induction H as [|[k1 v1] [k2 v2] le lc HI H IH]; cbn [dset].
    - constructor; [|constructor]. split; [reflexivity|]. exists a, b. auto.
    - pose proof HI as HI'. destruct HI as (E & a' & b' & Ha' & Hb' & Ek & G'). cbn [fst snd] in *. subst k2. subst k1.
      destruct (kk_key a' b' a b) as [[e1 e2]|N].
      + constructor; [|exact H]. split; [reflexivity|]. exists a', b'. cbn [fst snd]. rewrite e1, e2. auto.
      + constructor; [exact HI'|exact IH].
  Qed.
  Lemma get_ok le lc a b : Forall2 item_ok le lc -> has_key le a b ->
    exists ells blk, dget kk_eqb le (skey a, skey b) = Some ells /\ dget kk_eqb lc (skey a, skey b) = Some blk /\
      good_block nb d (spk a) (spk b) ells blk.
  Proof.
    intros H (v & Hv). induction H as [|[k1 v1] [k2 v2] le lc HI H IH]; cbn [dget] in *; [discriminate|].
    destruct HI as (E & a' & b' & Ha' & Hb' & Ek & G'). cbn [fst snd] in *. subst k2. subst k1.
    destruct (kk_key a' b' a b) as [[e1 e2]|N]; [|apply IH; exact Hv].
    exists v1, v2. rewrite <- e1, <- e2. auto.
  Qed.
  Lemma has_dset le lc a b v a' b' : Forall2 item_ok le lc -> has_key le a' b' \/ (spk a = spk a' /\ spk b = spk b') ->
    has_key (dset kk_eqb le (skey a, skey b) v) a' b'.
  Proof.
    unfold has_key. intros HF H. induction HF as [|[k1 w] [k2 w2] le lc HI HF IH]; cbn [dset dget].
    - destruct H as [(x & Hx)|[e1 e2]]; [discriminate|]. destruct (kk_key a b a' b') as [_|N]; [eauto|destruct N; auto].
    - destruct HI as (_ & a1 & b1 & _ & _ & Ek & _). cbn [fst snd] in Ek. subst k1.
      destruct (kk_key a1 b1 a b) as [[e1 e2]|N]; cbn [dget] in *; destruct (kk_key a1 b1 a' b') as [[f1 f2]|N']; eauto.
      destruct H as [H|[g1 g2]]; [exact H|]. exfalso. apply N'. rewrite e1, e2, g1, g2. auto.
  Qed.

  Context (sl : ell_dict (F := F)) (sc : cl_dict (F := F)).
  Context (W : wf_spectra nb d) (L : looks_up d sl sc) (S : symmetric_spectra d).
  Context (Av : forall p q, In p (probes_of l) -> In q (probes_of l) -> available d p q).

  Lemma probes_In a : In a l -> In (fst (snd a)) (probes_of l) /\ In (snd (snd a)) (probes_of l).
  Proof. intros H. unfold probes_of. rewrite !in_flat_map. split; exists a; cbn; tauto. Qed.

  Lemma block_ok a b : In a l -> In b l ->
    exists ells blk, cov_block (skey a) (skey b) sl sc = Ok (ells, blk) /\ good_block nb d (spk a) (spk b) ells blk.
  Proof.
    intros Ha Hb. destruct a as [k [A B]], b as [k' [C D]]. unfold skey, spk. cbn [fst snd].
    apply cov_block_ok; [exact W|exact L|]. destruct (probes_In _ Ha) as [H1 H2], (probes_In _ Hb) as [H3 H4]. cbn [fst snd] in *.
    intros p q Hp Hq. apply Av; [destruct Hp as [<-|[<-|[<-|[<-|[]]]]]|destruct Hq as [<-|[<-|[<-|[<-|[]]]]]]; assumption.
  Qed.

  Definition en := enum l.
  Definition kenc (r : nat * spelled) : nat * clkey := (fst r, skey (snd r)).
  Lemma enum_map : enum (map skey l) = map kenc en.
  Proof.
    unfold en, enum. rewrite map_length. generalize (seq 0 (length l)) as s.
    assert (G : forall (m : list spelled) s, combine s (map skey m) = map kenc (combine s m)).
    { induction m as [|a m IH]; intros [|n s]; cbn; try reflexivity. rewrite IH. reflexivity. }
    intros s. apply G.
  Qed.
  Definition seen (le : dict (clkey * clkey) (list F)) (ps : list ((nat * spelled) * (nat * spelled))) : Prop :=
    forall x y, In (x, y) ps -> has_key le (snd x) (snd y).

  Lemma step_ok done row a rest st col b ps : en = done ++ (row, a) :: rest -> In (col, b) en ->
    blocks_ok st -> seen (fst st) ps -> (forall x, In (x, (row, a)) (list_prod done en) -> In (x, (row, a)) ps) ->
    exists st', fill_block sl sc st (kenc (row, a), kenc (col, b)) = Ok st' /\ blocks_ok st' /\
      seen (fst st') (((row, a), (col, b)) :: ps).
  Proof.
    intros E Hb Hok Hs Hp. destruct st as [le lc]. unfold fill_block, kenc. cbn [fst snd] in *.
    assert (Ina : In a l) by (apply (enum_In l row); fold en; rewrite E; apply in_or_app; right; left; reflexivity).
    assert (Inb : In b l) by (apply (enum_In l col); exact Hb).
    destruct (Nat.leb_spec row col) as [Hle|Hlt].
    - destruct (block_ok a b Ina Inb) as (ells & blk & -> & G). cbn [rbind fst snd]. eexists. split; [reflexivity|].
      split; [apply dset_ok; assumption|]. cbn [fst]. intros x y [e|Hin]; (eapply has_dset; [exact Hok|]).
      + injection e as <- <-. right; auto.
      + left. apply Hs. exact Hin.
    - assert (Hd : In (col, b) done) by (eapply enum_before; [exact E|exact Hb|exact Hlt]).
      assert (Hk : has_key le b a).
      { apply (Hs (col, b) (row, a)). apply Hp. apply in_prod; [exact Hd|]. rewrite E. apply in_or_app; right; left; reflexivity. }
      destruct (get_ok le lc b a Hok Hk) as (ells & blk & E1 & E2 & G). unfold kk_get. rewrite E1, E2. cbn [rbind].
      eexists. split; [reflexivity|]. split.
      + apply dset_ok; auto. apply good_transp; assumption.
      + cbn [fst]. intros x y [e|Hin]; (eapply has_dset; [exact Hok|]).
        * injection e as <- <-. right; auto.
        * left. apply Hs. exact Hin.
  Qed.

  Lemma row_ok done row a rest cols : en = done ++ (row, a) :: rest -> (forall c, In c cols -> In c en) ->
    forall st ps, blocks_ok st -> seen (fst st) ps -> (forall x, In (x, (row, a)) (list_prod done en) -> In (x, (row, a)) ps) ->
    exists st', rfold (fill_block sl sc) (map (fun c => (kenc (row, a), kenc c)) cols) st = Ok st' /\ blocks_ok st' /\
      seen (fst st') (map (fun c => ((row, a), c)) cols ++ ps).
  Proof.
    intros E. induction cols as [|[col b] cols IH]; intros Hc st ps Hok Hs Hp.
    - exists st. split; [reflexivity|]. split; assumption.
    - destruct (step_ok done row a rest st col b ps E (Hc _ (or_introl eq_refl)) Hok Hs Hp) as (st1 & E1 & Ok1 & S1).
      destruct (IH (fun c H => Hc c (or_intror H)) st1 (((row, a), (col, b)) :: ps) Ok1 S1) as (st2 & E2 & Ok2 & S2).
      { intros x Hx. right. apply Hp. exact Hx. }
      exists st2. cbn [map rfold]. rewrite E1. cbn [rbind]. split; [exact E2|]. split; [exact Ok2|].
      intros x y Hin. apply S2. cbn [map app] in Hin. destruct Hin as [e|Hin].
      + apply in_or_app. right. left. exact e.
      + apply in_app_or in Hin. apply in_or_app. destruct Hin as [H|H]; [left; exact H|right; right; exact H].
  Qed.

  Lemma list_prod_map {A B A' B'} (f : A -> A') (g : B -> B') (x : list A) (y : list B) :
    list_prod (map f x) (map g y) = map (fun p => (f (fst p), g (snd p))) (list_prod x y).
  Proof.
    induction x as [|a x IH]; cbn [map list_prod]; [reflexivity|]. rewrite map_app, IH, !map_map. reflexivity.
  Qed.

  Lemma rows_ok rest : forall done st, en = done ++ rest -> blocks_ok st -> seen (fst st) (list_prod done en) ->
    exists st', rfold (fill_block sl sc) (list_prod (map kenc rest) (map kenc en)) st = Ok st' /\ blocks_ok st' /\
      seen (fst st') (list_prod en en).
  Proof.
    induction rest as [|[row a] rest IH]; intros done st E Hok Hs.
    - exists st. split; [reflexivity|]. split; [exact Hok|]. rewrite app_nil_r in E. rewrite <- E in Hs. exact Hs.
    - destruct (row_ok done row a rest en E (fun c H => H) st (list_prod done en) Hok Hs (fun x H => H)) as (st1 & E1 & Ok1 & S1).
      destruct (IH (done ++ [(row, a)]) st1) as (st2 & E2 & Ok2 & S2).
      { rewrite <- app_assoc. exact E. }
      { exact Ok1. }
      { intros x y Hin. apply S1. apply in_prod_iff in Hin. destruct Hin as [Hx Hy]. apply in_app_or in Hx.
        apply in_or_app. destruct Hx as [Hx|[<-|[]]]; [right; apply in_prod; assumption|].
        left. apply in_map. exact Hy. }
      exists st2. cbn [map list_prod]. rewrite rfold_app. rewrite map_map. rewrite E1. cbn [rbind]. auto.
  Qed.

  Lemma all_blocks_ok : exists st, all_blocks (map skey l) sl sc = Ok st /\ blocks_ok st /\
    forall a b, In a l -> In b l -> has_key (fst st) a b.
  Proof.
    unfold all_blocks. rewrite enum_map. destruct (rows_ok en [] ([], []) eq_refl) as (st & E & Hok & Hs).
    - constructor.
    - intros x y [].
    - exists st. split; [exact E|]. split; [exact Hok|]. intros a b Ha Hb.
      apply In_enum in Ha. apply In_enum in Hb. destruct Ha as (n & Hn), Hb as (m & Hm).
      apply (Hs (n, a) (m, b)). apply in_prod; assumption.
  Qed.

  (** ** Common multipoles of all blocks *)
  Definition masked_ok ells (kc : (clkey * clkey) * cube F) : Prop :=
    exists a b, In a l /\ In b l /\ fst kc = (skey a, skey b) /\
      laid ells (comps1 nb (fst (spk a)) (snd (spk a))) (comps1 nb (fst (spk b)) (snd (spk b))) (gauss d) (snd kc).

  Lemma good_ells_unique a b e1 b1 e2 b2 : good_block nb d a b e1 b1 -> good_block nb d a b e2 b2 -> e1 = e2.
  Proof.
    intros (A1 & B1 & _) (A2 & B2 & _). apply increasing_unique; [exact A1|exact A2|]. intros x. rewrite B1, B2. tauto.
  Qed.
  Lemma laid_mask {X Y} (ells l0 : list F) (R : list X) (C : list Y) g c c' : incl ells l0 -> laid l0 R C g c -> aligned ells l0 c c' -> laid ells R C g c'.
  Proof.
    intros I (a & b & e & h) (a' & b' & e' & h'). unfold laid. repeat split; [congruence|congruence|exact e'|].
    intros t x M r s u v Ht HM Hu Hv.
    assert (Hx : In x l0) by (apply I; eapply nth_error_In; exact Ht).
    apply In_nth_error in Hx. destruct Hx as (s' & Hs'). rewrite (h' t s' x Ht Hs') in HM.
    exact (h s' x M r s u v Hs' HM Hu Hv).
  Qed.

  Lemma mask_cov_ok : l <> [] -> exists st ells lc, all_blocks (map skey l) sl sc = Ok st /\ mask_cov st = Ok (ells, lc) /\
    increasing ells /\ (forall x, In x ells <-> common d l x) /\
    Forall (masked_ok ells) lc /\ forall a b, In a l -> In b l -> exists c, dget kk_eqb lc (skey a, skey b) = Some c.
  Proof.
    intros Nl. destruct all_blocks_ok as ([le lc] & E & Hok & Hs). unfold blocks_ok in Hok. cbn [fst snd] in *.
    assert (Gitem : forall k c, In (k, c) lc -> exists a b ells, In a l /\ In b l /\ k = (skey a, skey b) /\
      kk_get le k = Ok ells /\ good_block nb d (spk a) (spk b) ells c /\ In ells (map snd le)).
    { intros k c Hin. assert (exists v, item_ok (k, v) (k, c)) as (v & _ & a & b & Ha & Hb & Ek & G).
      { clear E Hs. induction Hok as [|[k1 v1] [k2 v2] le lc HI H IH]; [destruct Hin|].
        destruct Hin as [e|Hin]; [|apply IH; exact Hin]. injection e as -> ->. destruct HI as (e & rest). cbn [fst] in e. subst k1.
        exists v1. split; [reflexivity|exact rest]. }
      cbn [fst snd] in *. subst k. destruct (get_ok le lc a b Hok (Hs a b Ha Hb)) as (ells & blk & E1 & _ & G').
      pose proof (good_ells_unique _ _ _ _ _ _ G' G) as Eu. subst ells.
      exists a, b, v. unfold kk_get. rewrite E1. do 5 (split; [solve [auto]|]).
      assert (GG : forall dd, dget kk_eqb dd (skey a, skey b) = Some v -> In v (map snd dd)).
      { induction dd as [|[k0 v0] dd IH]; cbn; [discriminate|]. destruct (kk_eqb k0 (skey a, skey b)); [intros e; injection e as ->; auto|auto]. }
      apply GG. exact E1. }
    assert (Gval : forall v, In v (map snd le) -> exists a b c, In a l /\ In b l /\ good_block nb d (spk a) (spk b) v c).
    { intros v Hv. clear E Hs Gitem. induction Hok as [|[k1 v1] [k2 v2] le lc HI H IH]; [destruct Hv|].
      destruct Hv as [e|Hv]; [|apply IH; exact Hv]. destruct HI as (_ & a & b & Ha & Hb & _ & G). cbn [fst snd] in *. subst v1. eauto 8. }
    destruct (mask_common_ok (map snd le) (kk_get le) lc) as ([ells lc'] & Em).
    { intros En. destruct l as [|a m] eqn:El; [congruence|]. destruct (Hs a a (or_introl eq_refl) (or_introl eq_refl)) as (v & Hv).
      destruct le; [discriminate|discriminate]. }
    { intros k c Hin. destruct (Gitem k c Hin) as (a & b & v & _ & _ & _ & Ev & (_ & _ & G) & _). exists v. split; [exact Ev|].
      destruct G as (_ & _ & G & _). symmetry. exact G. }
    destruct (mask_common_aligned _ _ _ _ _ Em) as (Si & Mi & F2).
    { intros v Hv. destruct (Gval v Hv) as (a & b & c & _ & _ & G & _). exact G. }
    { intros k c v Hin Ev. destruct (Gitem k c Hin) as (a & b & v' & _ & _ & _ & Ev' & _ & G). congruence. }
    assert (MM : forall x, In x ells <-> common d l x).
    { intros x. rewrite Mi. split.
      - intros H p q Hp Hq. unfold probes_of in Hp, Hq. rewrite in_flat_map in Hp, Hq. destruct Hp as (a & Ha & Hp), Hq as (b & Hb & Hq).
        destruct (get_ok le lc a b Hok (Hs a b Ha Hb)) as (v & blk & E1 & E2 & (_ & G & _)).
        assert (Hv : In x v).
        { apply H. clear - E1. induction le as [|[k0 v0] le IH]; cbn in *; [discriminate|]. destruct (kk_eqb k0 (skey a, skey b)); [injection E1 as ->; auto|auto]. }
        apply G in Hv. unfold spk in Hv. destruct Hp as [<-|[<-|[]]], Hq as [<-|[<-|[]]]; tauto.
      - intros H v Hv. destruct (Gval v Hv) as (a & b & c & Ha & Hb & (_ & G & _)). apply G. unfold spk.
        destruct (probes_In a Ha), (probes_In b Hb). repeat split; apply H; assumption. }
    exists (le, lc), ells, lc'. split; [exact E|]. split; [exact Em|]. split; [exact Si|]. split; [exact MM|].
    assert (FM : Forall2 (fun kc kc' => fst kc' = fst kc /\ masked_ok ells kc') lc lc').
    { clear - F2 Gitem Mi. assert (GG : forall k c, In (k, c) lc -> exists a b v, In a l /\ In b l /\ k = (skey a, skey b) /\
        kk_get le k = Ok v /\ good_block nb d (spk a) (spk b) v c /\ In v (map snd le)) by exact Gitem. clear Gitem.
      induction F2 as [|[k c] [k' c'] lc lc' (e & v & Ev & Al) F2 IH]; constructor.
      - cbn [fst snd] in *. split; [exact e|]. subst k'. destruct (GG k c (or_introl eq_refl)) as (a & b & v' & Ha & Hb & Ek & Ev' & G & Hv).
        assert (v' = v) by congruence. subst v'. exists a, b. cbn [fst snd]. split; [exact Ha|]. split; [exact Hb|]. split; [exact Ek|].
        destruct G as (_ & _ & G). eapply laid_mask; [|exact G|exact Al]. intros x Hx. rewrite Mi in Hx. apply Hx. exact Hv.
      - apply IH. intros k0 c0 H0. apply GG. right. exact H0. }
    split.
    - clear - FM. induction FM as [|x y lc lc' [_ H] FM IH]; constructor; assumption.
    - intros a b Ha Hb. destruct (get_ok le lc a b Hok (Hs a b Ha Hb)) as (v & blk & _ & E2 & _).
      clear - FM E2. induction FM as [|[k c] [k' c'] lc lc' [e H] FM IH]; cbn [dget fst] in *; [discriminate|]. subst k'.
      destruct (kk_eqb k (skey a, skey b)); [eauto|apply IH; exact E2].
  Qed.

  (** ** np.block *)
  Lemma hcat2_ok {X Y} (ells : list F) (R : list X) (C1 C2 : list Y) g a b : laid ells R C1 g a -> laid ells R C2 g b ->
    exists c, hcat2 a b = Ok c /\ laid ells R (C1 ++ C2) g c.
  Proof.
    intros (a1 & a2 & a3 & a4) (b1 & b2 & b3 & b4). unfold hcat2. rewrite a1, b1, a3, b3, !Nat.eqb_refl. cbn [andb].
    eexists. split; [reflexivity|]. unfold laid. cbn [cnr cnc crows]. rewrite app_length, map_length, combine_length, a2, b2, a3, b3, Nat.min_id.
    repeat split. intros t x M r s u v Ht HM Hu Hv. rewrite nth_error_map in HM.
    destruct (nth_error (combine (crows a) (crows b)) t) as [[M1 M2]|] eqn:Ec; [|discriminate]. cbn [option_map fst snd] in HM. injection HM as <-.
    apply combine_nth_err in Ec. destruct Ec as [E1 E2].
    destruct (Nat.ltb_spec s (length C1)) as [H|H].
    - rewrite nth_error_app1 in Hv by exact H. exact (a4 t x M1 r s u v Ht E1 Hu Hv).
    - rewrite nth_error_app2 in Hv by exact H. exact (b4 t x M2 r _ u v Ht E2 Hu Hv).
  Qed.
  Lemma vcat2_ok {X Y} (ells : list F) (R1 R2 : list X) (C : list Y) g a b : laid ells R1 C g a -> laid ells R2 C g b ->
    exists c, vcat2 a b = Ok c /\ laid ells (R1 ++ R2) C g c.
  Proof.
    intros (a1 & a2 & a3 & a4) (b1 & b2 & b3 & b4). unfold vcat2. rewrite a2, b2, a3, b3, !Nat.eqb_refl. cbn [andb].
    eexists. split; [reflexivity|]. unfold laid. cbn [cnr cnc crows]. rewrite app_length, map_length, combine_length, a1, b1, a3, b3, Nat.min_id.
    repeat split; auto. intros t x M r s u v Ht HM Hu Hv. rewrite nth_error_map in HM.
    destruct (nth_error (combine (crows a) (crows b)) t) as [[M1 M2]|] eqn:Ec; [|discriminate]. cbn [option_map fst snd] in HM. injection HM as <-.
    apply combine_nth_err in Ec. destruct Ec as [E1 E2].
    destruct (Nat.ltb_spec r (length R1)) as [H|H].
    - rewrite nth_error_app1 in Hu by exact H. exact (a4 t x M1 r s u v Ht E1 Hu Hv).
    - rewrite nth_error_app2 in Hu by exact H. exact (b4 t x M2 _ s u v Ht E2 Hu Hv).
  Qed.
  Lemma cat_h_ok {X Y} (ells : list F) (R : list X) (g : F -> X -> Y -> option F) (Cs : list (list Y)) bs : bs <> [] ->
    Forall2 (fun C b => laid ells R C g b) Cs bs -> exists c, cat hcat2 bs = Ok c /\ laid ells R (concat Cs) g c.
  Proof.
    intros Nb H. induction H as [|C b Cs bs Hb H IH]; [congruence|].
    destruct H as [|C' b' Cs' bs' Hb' H'].
    - exists b. split; [reflexivity|]. cbn [concat]. rewrite app_nil_r. exact Hb.
    - destruct IH as (c & Ec & Lc); [discriminate|]. destruct (hcat2_ok ells R C (concat (C' :: Cs')) g b c Hb Lc) as (c' & Ec' & Lc').
      exists c'. split; [|exact Lc']. change (cat hcat2 (b :: b' :: bs')) with (b0 <- cat hcat2 (b' :: bs') ;; hcat2 b b0). rewrite Ec. exact Ec'.
  Qed.
  Lemma cat_v_ok {X Y} (ells : list F) (C : list Y) (g : F -> X -> Y -> option F) (Rs : list (list X)) bs : bs <> [] ->
    Forall2 (fun R b => laid ells R C g b) Rs bs -> exists c, cat vcat2 bs = Ok c /\ laid ells (concat Rs) C g c.
  Proof.
    intros Nb H. induction H as [|R b Rs bs Hb H IH]; [congruence|].
    destruct H as [|R' b' Rs' bs' Hb' H'].
    - exists b. split; [reflexivity|]. cbn [concat]. rewrite app_nil_r. exact Hb.
    - destruct IH as (c & Ec & Lc); [discriminate|]. destruct (vcat2_ok ells R (concat (R' :: Rs')) C g b c Hb Lc) as (c' & Ec' & Lc').
      exists c'. split; [|exact Lc']. change (cat vcat2 (b :: b' :: bs')) with (b0 <- cat vcat2 (b' :: bs') ;; vcat2 b b0). rewrite Ec. exact Ec'.
  Qed.
  Lemma rmapM_exists {A B} (f : A -> res B) (R : A -> B -> Prop) m :
    (forall a, In a m -> exists b, f a = Ok b /\ R a b) -> exists bs, rmapM f m = Ok bs /\ Forall2 R m bs.
  Proof.
    induction m as [|a m IH]; intros H; cbn [rmapM]; [exists []; split; [reflexivity|constructor]|].
    destruct (H a (or_introl eq_refl)) as (b & -> & HR). destruct IH as (bs & -> & HF); [intros x Hx; apply H; right; exact Hx|].
    cbn [rbind]. exists (b :: bs). split; [reflexivity|constructor; assumption].
  Qed.
  Lemma Forall2_map_l {A B C} (h : A -> B) (R : B -> C -> Prop) m bs : Forall2 (fun a c => R (h a) c) m bs -> Forall2 R (map h m) bs.
  Proof. intros H. induction H; cbn; constructor; assumption. Qed.
  Lemma components_concat m : components nb m = concat (map (fun a => comps1 nb (fst (spk a)) (snd (spk a))) m).
  Proof.
    unfold components. rewrite flat_map_concat_map. f_equal. apply map_ext. intros [k [p q]]. reflexivity.
  Qed.
  Lemma rmapM_skey {B} (f : clkey -> res B) m : rmapM f (map skey m) = rmapM (fun a => f (skey a)) m.
  Proof. induction m as [|a m IH]; cbn; [reflexivity|]. rewrite IH. reflexivity. Qed.

  Lemma assembled : l <> [] -> exists ells m,
    (st <- all_blocks (map skey l) sl sc ;; em <- mask_cov st ;; m <- build_matrix (map skey l) (snd em) ;; Ok (fst em, m)) = Ok (ells, m) /\
    increasing ells /\ (forall x, In x ells <-> common d l x) /\
    laid ells (components nb l) (components nb l) (gauss d) m.
  Proof.
    intros Nl. destruct (mask_cov_ok Nl) as (st & ells & lc & -> & Em & Si & MM & FM & Hg). cbn [rbind]. rewrite Em. cbn [rbind fst snd].
    assert (Bm : exists m, build_matrix (map skey l) lc = Ok m /\ laid ells (components nb l) (components nb l) (gauss d) m).
    { unfold build_matrix. rewrite rmapM_skey.
      destruct (rmapM_exists (fun a => r <- rmapM (fun CD => kk_get lc (skey a, CD)) (map skey l);; cat hcat2 r)
        (fun a c => laid ells (comps1 nb (fst (spk a)) (snd (spk a))) (components nb l) (gauss d) c) l) as (rows & -> & HR).
      { intros a Ha. rewrite rmapM_skey.
        destruct (rmapM_exists (fun b => kk_get lc (skey a, skey b))
          (fun b c => laid ells (comps1 nb (fst (spk a)) (snd (spk a))) (comps1 nb (fst (spk b)) (snd (spk b))) (gauss d) c) l) as (bs & -> & HB).
        { intros b Hb. destruct (Hg a b Ha Hb) as (c & Hc). exists c. unfold kk_get. rewrite Hc. split; [reflexivity|].
          clear - FM Hc. induction FM as [|[k c0] lc HI FM IH]; cbn [dget] in Hc; [discriminate|].
          destruct HI as (a' & b' & Ha' & Hb' & Ek & G). cbn [fst snd] in *. subst k.
          destruct (kk_key a' b' a b) as [[e1 e2]|N]; [|apply IH; exact Hc]. injection Hc as ->. rewrite <- e1, <- e2. exact G. }
        cbn [rbind]. rewrite components_concat. apply cat_h_ok.
        - intros En. subst bs. inversion HB as [E0|]. congruence.
        - apply Forall2_map_l. exact HB. }
      cbn [rbind].
      destruct (cat_v_ok ells (components nb l) (gauss d) (map (fun a => comps1 nb (fst (spk a)) (snd (spk a))) l) rows) as (m & Em' & Lm).
      - intros En. subst rows. inversion HR as [E0|]. congruence.
      - apply Forall2_map_l. exact HR.
      - exists m. split; [exact Em'|]. rewrite <- components_concat in Lm. exact Lm. }
    destruct Bm as (m & -> & Lm). cbn [rbind]. exists ells, m. auto.
  Qed.
  End Inv.

  Lemma assemble_ok nb d l : l <> [] -> wf_spectra nb d -> symmetric_spectra d ->
    (forall p q, In p (probes_of l) -> In q (probes_of l) -> available d p q) ->
    exists ells m, assemble (map skey l) (raw_spectra d) = Ok (ells, m) /\ increasing ells /\
      (forall x, In x ells <-> common d l x) /\ laid ells (components nb l) (components nb l) (gauss d) m.
  Proof.
    intros Nl W S Av. destruct (smart_pair d) as (sl & sc & El & Ec & L).
    unfold assemble. rewrite El, Ec. cbn [rbind]. apply assembled; assumption.
  Qed.

  (** With one orientation stored and symmetric auto-spectra everything is symmetric. *)
  Lemma one_orientation d : (forall p q, p <> q -> stored d p q = None \/ stored d q p = None) ->
    (forall p l c M i j, stored d p p = Some (l, c) -> In M (crows c) -> M i j = M j i) -> symmetric_spectra d.
  Proof.
    intros H1 H2 p q. destruct (probe_eqb_spec p q) as [<-|N].
    - split; [reflexivity|]. intros x i j. unfold cl_at. destruct (stored d p p) as [[l c]|] eqn:E; [|reflexivity].
      unfold row_at. destruct (find _ _) as [[y M]|] eqn:Ef; [|reflexivity]. cbn. f_equal. eapply H2; [exact E|].
      apply find_some in Ef. destruct Ef as [Ef _]. apply in_combine_r in Ef. exact Ef.
    - unfold ells_at, cl_at. destruct (H1 p q N) as [E|E]; rewrite E.
      + destruct (stored d q p) as [[l c]|]; split; reflexivity.
      + destruct (stored d p q) as [[l c]|]; split; reflexivity.
  Qed.
End Cov2.
