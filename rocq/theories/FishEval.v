(** The Fisher matrix of a data vector. *)
From Verif Require Import Base SortLib StrLib MatInv LabLin LinalgModel FrameModel FrameLemmas KeyModel KeySpec KeyLemmas
  ParamModel EvalModel EvalSpec EllLemmas CovLemmas CovLemmas2 DerivLemmas.
From Coq Require Import Sorted Permutation.
Open Scope list_scope.

Section FE.
  Context {F : Type} {K : Fld F} {O : OFld (F := F)} {SO : SetOrder}.
  Add Field FEField : (fth (F := F)).
  Open Scope fld_scope.

  Lemma F2_length {A B} (R : A -> B -> Prop) x y : Forall2 R x y -> length x = length y.
  Proof. induction 1; cbn; congruence. Qed.
  Lemma leqb_iff (a b : list F) : leqb a b = true <-> a = b.
  Proof.
    revert b. induction a as [|x a IH]; intros [|y b]; cbn; try (split; congruence).
    destruct (fdec x y) as [->|N]; cbn; [rewrite IH; split; congruence|]. split; [discriminate|]. intros E. congruence.
  Qed.

  (** ** The inverse covariance *)
  Lemma cube_inv_ok nb l (d : spectra (F := F)) ells m I : increasing ells ->
    laid ells (components nb l) (components nb l) (gauss d) m -> cube_inv m = Ok I ->
    length I = length ells /\
    forall t x J, nth_error ells t = Some x -> nth_error I t = Some J -> inverse_at (length (components nb l)) (cov_at nb l d x) J.
  Proof.
    intros Se (a & b & e & h). unfold cube_inv. rewrite a, b, Nat.eqb_refl. cbn [negb]. intros H.
    apply rmapM_Forall2 in H. split; [rewrite <- e; symmetry; exact (F2_length _ _ _ H)|].
    intros t x J Ht HJ. assert (exists M, nth_error (crows m) t = Some M /\ mat_inv (length (components nb l)) M = Some J) as (M & HM & HI).
    { clear - H HJ. revert t HJ. induction H as [|M J' Ms Js E H IH]; intros [|t] HJ; cbn in *; try discriminate.
      - injection HJ as ->. exists M. split; [reflexivity|]. destruct (mat_inv _ M); [injection E as ->; reflexivity|discriminate].
      - apply IH. exact HJ. }
    destruct (mat_inv_some _ _ _ HI) as [H1 H2]. unfold mul, delta in H1, H2.
    assert (EC : forall r c, (r < length (components nb l))%nat -> (c < length (components nb l))%nat -> cov_at nb l d x r c = M r c).
    { intros r c Hr Hc. unfold cov_at, comp.
      rewrite (h t x M r c (nth r (components nb l) ((Ph, Ph), (0, 0)%nat)) (nth c (components nb l) ((Ph, Ph), (0, 0)%nat)) Ht HM); [reflexivity| |];
        apply nth_error_nth'; assumption. }
    intros r c Hr Hc. split.
    - rewrite <- (H1 r c Hr Hc). apply Fsum_ext. intros k Hk. apply in_seq in Hk. rewrite EC by lia. reflexivity.
    - rewrite <- (H2 r c Hr Hc). apply Fsum_ext. intros k Hk. apply in_seq in Hk. rewrite EC by lia. reflexivity.
  Qed.
  Lemma inverse_isinv n (C I : nat -> nat -> F) : inverse_at n C I -> isinv Nat.eq_dec (seq 0 n) C I.
  Proof.
    intros H a b Ha Hb. apply in_seq in Ha, Hb. destruct (H a b) as [H1 H2]; [lia|lia|].
    unfold mm, dl. rewrite H1, H2. destruct (Nat.eq_dec a b) as [->|N].
    - rewrite Nat.eqb_refl. auto.
    - rewrite (proj2 (Nat.eqb_neq a b) N). auto.
  Qed.
  Lemma inverse_symm n (C I : nat -> nat -> F) : inverse_at n C I ->
    (forall r c, (r < n)%nat -> (c < n)%nat -> C r c = C c r) -> forall r c, (r < n)%nat -> (c < n)%nat -> I r c = I c r.
  Proof.
    intros H S r c Hr Hc. apply (isinv_symm Nat.eq_dec (seq 0 n) C I); [apply seq_NoDup|apply inverse_isinv; exact H| | |];
      try (apply in_seq; lia). intros a b Ha Hb. apply in_seq in Ha, Hb. apply S; lia.
  Qed.

  (** ** Which multipoles the derivatives have *)
  Lemma check_equal arrs (com : list F) : check_ells arrs com = Ok tt -> (forall a, In a arrs -> increasing a /\ a <> []) ->
    (forall a, In a arrs -> (length com <= length a)%nat) -> forall a, In a arrs -> a = com.
  Proof.
    intros H Hi Hl. unfold check_ells in H. destruct arrs as [|a0 rest]; [discriminate|].
    destruct (forallb (fun b => Nat.eqb (length b) (length a0)) rest) eqn:EL; cbn [negb] in H; [|discriminate].
    destruct (forallb (leqb a0) rest) eqn:EE; cbn [negb] in H.
    - rewrite forallb_forall in EE.
      assert (All : forall a, In a (a0 :: rest) -> a = a0) by (intros a [<-|Ha]; [reflexivity|symmetry; apply leqb_iff; apply EE; exact Ha]).
      destruct (Hi a0 (or_introl eq_refl)) as [S0 N0]. pose proof (Hl a0 (or_introl eq_refl)) as L0.
      destruct a0 as [|x [|y a0]]; [congruence|discriminate|].
      assert (G : x :: y :: a0 = com).
      { destruct com as [|c [|c' com]].
        - discriminate H.
        - exfalso. destruct (forallb (fun z => if fdec z c then true else false) (x :: y :: a0)) eqn:E; [|discriminate].
          rewrite forallb_forall in E. pose proof (E x (or_introl eq_refl)) as E1. pose proof (E y (or_intror (or_introl eq_refl))) as E2.
          destruct (fdec x c); [|discriminate]. destruct (fdec y c); [|discriminate]. subst.
          apply increasing_NoDup in S0. inversion S0 as [|? ? N _]; subst. apply N. left; reflexivity.
        - destruct (leqb (x :: y :: a0) (c :: c' :: com)) eqn:E; [apply leqb_iff in E; exact E|discriminate]. }
      intros a Ha. rewrite (All a Ha). exact G.
    - exfalso. destruct a0 as [|x [|y a0]]; try discriminate.
      destruct (leqb (fsort (nodup fdec (concat ([x] :: rest)))) com) eqn:E; [|discriminate]. apply leqb_iff in E.
      pose proof (Hl [x] (or_introl eq_refl)) as L0. cbn [length] in L0.
      rewrite forallb_forall in EL.
      assert (All : forall a, In a ([x] :: rest) -> a = [x]).
      { intros a Ha. assert (La : length a = 1%nat) by (destruct Ha as [<-|Ha]; [reflexivity|apply Nat.eqb_eq; apply EL; exact Ha]).
        destruct a as [|z [|z' a]]; try discriminate. f_equal.
        assert (Hz : In z com).
        { rewrite <- E. apply fsort_In, nodup_In, in_concat. exists [z]. split; [exact Ha|left; reflexivity]. }
        assert (Hx : In x com).
        { rewrite <- E. apply fsort_In, nodup_In, in_concat. exists [x]. split; [left; reflexivity|left; reflexivity]. }
        destruct com as [|c [|c' com]]; cbn in L0; [destruct Hx| |lia].
        destruct Hz as [<-|[]], Hx as [<-|[]]. reflexivity. }
      assert (forallb (leqb [x]) rest = true) as C.
      { apply forallb_forall. intros b Hb. apply leqb_iff. symmetry. apply All. right; exact Hb. }
      congruence.
  Qed.

  (** ** Pairs of parameters *)
  Lemma pairs2_In {A} (l : list A) a b : In (a, b) (pairs2 l) -> In a l /\ In b l.
  Proof.
    induction l as [|x l IH]; cbn [pairs2]; [intros []|]. intros [e|H]; [injection e as <- <-; cbn; auto|].
    apply in_app_or in H. destruct H as [H|H].
    - apply in_map_iff in H. destruct H as (y & e & Hy). injection e as <- <-. cbn; auto.
    - destruct (IH H). cbn; auto.
  Qed.
  Lemma pairs2_all {A} (l : list A) a b : In a l -> In b l -> In (a, b) (pairs2 l) \/ In (b, a) (pairs2 l).
  Proof.
    induction l as [|x l IH]; cbn [pairs2]; [intros []|]. intros [<-|Ha] [<-|Hb].
    - left; left; reflexivity.
    - left; right. apply in_or_app. left. apply in_map. exact Hb.
    - right; right. apply in_or_app. left. apply in_map. exact Ha.
    - destruct (IH Ha Hb); [left|right]; right; apply in_or_app; right; assumption.
  Qed.
  Definition swap2 (ab : string * string) := (snd ab, fst ab).
  Definition both (l : list (string * string)) := flat_map (fun ab => [ab; swap2 ab]) l.

  Lemma rfold_cols (cov : covmat F) dcls (g : string * string -> list F) (ps : list (string * string)) acc cols :
    (forall ab, In ab ps -> forall da db f, dget_str dcls (fst ab) = Ok da -> dget_str dcls (snd ab) = Ok db ->
       f_ell_pair cov da db = Ok f -> f = g ab /\ f = g (swap2 ab)) ->
    rfold (fun acc ab =>
              da <- dget_str dcls (fst ab) ;; db <- dget_str dcls (snd ab) ;;
              f <- f_ell_pair cov da db ;;
              Ok (dset spair_eqb (dset spair_eqb acc ab f) (snd ab, fst ab) f)) ps acc = Ok cols ->
    cols = fold_left (fun w kv => dset spair_eqb w (fst kv) (snd kv)) (map (fun k => (k, g k)) (both ps)) acc /\
    forall ab, In ab ps -> exists da db f, dget_str dcls (fst ab) = Ok da /\ dget_str dcls (snd ab) = Ok db /\ f_ell_pair cov da db = Ok f.
  Proof.
    revert acc. induction ps as [|ab ps IH]; intros acc H E; cbn [rfold] in E.
    - injection E as <-. split; [reflexivity|intros ab []].
    - destruct (dget_str dcls (fst ab)) as [da|] eqn:E1; [|discriminate]. cbn [rbind] in E.
      destruct (dget_str dcls (snd ab)) as [db|] eqn:E2; [|discriminate]. cbn [rbind] in E.
      destruct (f_ell_pair cov da db) as [f|] eqn:E3; [|discriminate]. cbn [rbind] in E.
      destruct (H ab (or_introl eq_refl) da db f E1 E2 E3) as [G1 G2].
      destruct (IH _ (fun ab' Hin => H ab' (or_intror Hin)) E) as [-> H'].
      split.
      + change (both (ab :: ps)) with (ab :: swap2 ab :: both ps). cbn [map fold_left fst snd]. rewrite <- G1, <- G2. reflexivity.
      + intros ab' [<-|Hin]; [eauto 8|apply H'; exact Hin].
  Qed.

  Lemma rmapM_seq {A} (f : nat -> res A) n r : rmapM f (seq 0 n) = Ok r ->
    length r = n /\ forall t, (t < n)%nat -> exists y, nth_error r t = Some y /\ f t = Ok y.
  Proof.
    intros H. apply rmapM_Forall2 in H. split; [rewrite <- (F2_length _ _ _ H); apply seq_length|].
    intros t Ht. assert (G : forall s m r', Forall2 (fun x y => f x = Ok y) (seq s m) r' -> forall t, (t < m)%nat -> exists y, nth_error r' t = Some y /\ f (s + t)%nat = Ok y).
    { intros s m. revert s. induction m as [|m IH]; intros s r' HF t' Ht'; [lia|]. inversion HF as [|? y ? ys E1 E2]; subst.
      destruct t' as [|t']; [exists y; rewrite Nat.add_0_r; auto|]. destruct (IH (S s) ys E2 t') as (z & Hz & Ez); [lia|].
      exists z. split; [exact Hz|]. replace (s + S t')%nat with (S s + t')%nat by lia. exact Ez. }
    exact (G 0%nat n r H t Ht).
  Qed.

  Lemma f_ell_spec cov da db f : f_ell_pair cov da db = Ok f ->
    length f = length (cv_ells cov) /\ (length (cv_ells cov) <= length da)%nat /\ (length (cv_ells cov) <= length db)%nat /\
    forall t, (t < length (cv_ells cov))%nat -> exists x A y, nth_error da t = Some x /\ nth_error (cv_inv cov) t = Some A /\ nth_error db t = Some y /\
      nth_error f t = Some (bilin (cnr (cv_mat cov)) x A y).
  Proof.
    intros H. unfold f_ell_pair in H. apply rmapM_seq in H. destruct H as [L H].
    assert (G : forall t, (t < length (cv_ells cov))%nat -> exists x A y, nth_error da t = Some x /\ nth_error (cv_inv cov) t = Some A /\ nth_error db t = Some y /\
      nth_error f t = Some (bilin (cnr (cv_mat cov)) x A y)).
    { intros t Ht. destruct (H t Ht) as (z & Hz & Ez).
      destruct (nth_error da t) as [x|]; [|discriminate]. destruct (nth_error (cv_inv cov) t) as [A|]; [|discriminate].
      destruct (nth_error db t) as [y|]; [|discriminate]. destruct (_ && _); [|discriminate]. injection Ez as <-. eauto 8. }
    split; [exact L|].
    assert (GL : forall (u : list (list F)), (forall t, (t < length (cv_ells cov))%nat -> nth_error u t <> None) -> (length (cv_ells cov) <= length u)%nat).
    { intros u Hu. destruct (Nat.le_gt_cases (length (cv_ells cov)) (length u)) as [Hle|Hgt]; [exact Hle|].
      exfalso. apply (Hu (length u) Hgt). apply nth_error_None. lia. }
    split; [apply GL; intros t Ht; destruct (G t Ht) as (x & A & y & E & _); congruence|].
    split; [apply GL; intros t Ht; destruct (G t Ht) as (x & A & y & _ & _ & E & _); congruence|exact G].
  Qed.

  Lemma dget_raw_derivs (ds : list (string * spectra (F := F))) n dd : dget_str (raw_derivs ds) n = Ok dd ->
    dd = raw_spectra (deriv ds n) /\ In (n, deriv ds n) ds.
  Proof.
    unfold dget_str, deriv, raw_derivs. induction ds as [|[k v] ds IH]; cbn [map dget fst snd]; [discriminate|].
    destruct (String.eqb_spec k n) as [->|N]; [|intros H; destruct (IH H); split; [assumption|right; assumption]].
    intros H. injection H as <-. split; [reflexivity|left; reflexivity].
  Qed.

  Definition fjoint nb l ds Inv (ells : list F) (a b : string) : F := Fsum (fisher_term nb l ds Inv a b) ells.
  Definition f_ell_ok nb l ds Inv ells names (fe : fell F) : Prop :=
    fe_ells fe = ells /\
    (forall a b, In a names -> In b names -> dget spair_eqb (fe_cols fe) (a, b) = Some (map (fisher_term nb l ds Inv a b) ells)) /\
    (forall ab col, In (ab, col) (fe_cols fe) -> In (fst ab) names /\ In (snd ab) names /\ length col = length ells).

  Lemma map_nth_error_eq {A} (f : list A) (g : F -> A) ells : length f = length ells ->
    (forall t x, nth_error ells t = Some x -> nth_error f t = Some (g x)) -> f = map g ells.
  Proof.
    intros L H. apply nth_error_ext. intros t. rewrite nth_error_map. destruct (nth_error ells t) as [x|] eqn:E; cbn; [apply H; exact E|].
    apply nth_error_None. apply nth_error_None in E. lia.
  Qed.

  (** The inverse covariance as a function of the multipole. *)
  Definition inv_of (cov : covmat F) (x : F) : nat -> nat -> F :=
    match row_at (cv_ells cov) (cv_inv cov) x with Some J => J | None => fun _ _ => 0 end.

  Lemma fisher_terms nb l (c : coll F) d ds : good_inputs nb l d ds -> forall pars cov vecs fe,
    free_parameters (map skey l) c = Ok pars ->
    build_cov (map skey l) (raw_spectra d) = Ok cov ->
    deriv_vectors (map skey l) (dkeys pars) (raw_derivs ds) = Ok vecs ->
    check_ells (map (fun e => fst (snd e)) vecs) (cv_ells cov) = Ok tt ->
    fisher_of_ell cov (dkeys pars) (map (fun e => (fst e, snd (snd e))) vecs) = Ok fe ->
    NoDup (dkeys pars) ->
    l <> [] /\ increasing (cv_ells cov) /\ (forall x, In x (cv_ells cov) <-> common d l x) /\ dkeys pars <> [] /\
    (forall x, In x (cv_ells cov) -> inverse_at (length (components nb l)) (cov_at nb l d x) (inv_of cov x)) /\
    f_ell_ok nb l ds (inv_of cov) (cv_ells cov) (dkeys pars) fe.
  Proof.
    intros (W & S & Av & Wd) pars cov vecs fe _ Hc Hv Hk Hf Nd.
    assert (Nl : l <> []).
    { intros ->. unfold build_cov, assemble in Hc. destruct (smart_of (ells_of (raw_spectra d))); [|discriminate]. cbn [rbind] in Hc.
      destruct (smart_of (cls_of (raw_spectra d))); discriminate Hc. }
    destruct (assemble_ok nb d l Nl W S Av) as (ells & m & Ea & Si & MM & Lm).
    unfold build_cov in Hc. rewrite Ea in Hc. cbn [rbind fst snd] in Hc. destruct (cube_inv m) as [I|] eqn:Ei; [|discriminate].
    cbn [rbind] in Hc. injection Hc as <-. cbn [cv_ells cv_mat cv_inv] in *.
    destruct (cube_inv_ok nb l d ells m I Si Lm Ei) as [LI HI].
    set (names := dkeys pars) in *.
    split; [exact Nl|]. split; [exact Si|]. split; [exact MM|].
    assert (Nn : names <> []).
    { intros E. rewrite E in Hv. cbn in Hv. injection Hv as <-. discriminate Hk. }
    split; [exact Nn|].
    (* the derivative vectors *)
    assert (HV : Forall2 (fun n v => fst v = n /\ exists ellsn, increasing ellsn /\ ellsn <> [] /\ fst (snd v) = ellsn /\
        vlaid ellsn (components nb l) (comp_cl (deriv ds n)) (snd (snd v))) names vecs).
    { unfold deriv_vectors in Hv. apply rmapM_Forall2 in Hv. clear - Hv Wd Nl. induction Hv as [|n v names vecs E Hv IH]; constructor; [|exact IH].
      cbn beta in E. destruct (@dget_str (@delta_dict F) (raw_derivs ds) n) as [dd|] eqn:Ed; [|discriminate E]. cbn [rbind] in E.
      apply dget_raw_derivs in Ed. destruct Ed as [-> Hin]. destruct (Wd _ _ Hin) as [Wn An].
      destruct (vec_common nb (deriv ds n) l Wn Nl An) as (ellsn & Sn & Mn & H0 & H1).
      destruct ellsn as [|x0 ellsn]; [rewrite H0 in E by reflexivity; discriminate|].
      destruct (H1 ltac:(discriminate)) as (rows & Er & Lr). rewrite Er in E. cbn [rbind] in E. injection E as <-. cbn [fst snd].
      split; [reflexivity|]. exists (x0 :: ellsn). split; [exact Sn|]. split; [discriminate|]. split; [reflexivity|exact Lr]. }
    set (dcls := map (fun e => (fst e, snd (snd e))) vecs) in *.
    assert (HD : forall n, In n names -> exists v, In v vecs /\ fst v = n /\ dget_str dcls n = Ok (snd (snd v)) /\ exists ellsn, increasing ellsn /\ ellsn <> [] /\ fst (snd v) = ellsn /\
        vlaid ellsn (components nb l) (comp_cl (deriv ds n)) (snd (snd v))).
    { intros n Hn. unfold dcls. clear - HV Hn Nd. revert Nd. induction HV as [|n0 v names vecs (E & R) HV IH]; intros Nd; [destruct Hn|].
      unfold dget_str. cbn [map dget fst snd]. destruct (String.eqb_spec (fst v) n) as [E0|N0].
      - exists v. split; [left; reflexivity|]. split; [exact E0|]. split; [reflexivity|]. rewrite <- E0, E. exact R.
      - destruct Hn as [Hn|Hn]; [congruence|]. inversion Nd; subst. destruct (IH Hn) as (w & Hw & R'); [assumption|]. exists w. split; [right; exact Hw|exact R']. }
    unfold fisher_of_ell in Hf. cbn [cv_ells] in Hf.
    match type of Hf with context [rfold ?f ?a ?b] => destruct (rfold f a b) as [cols|] eqn:Er end; [|discriminate]. cbn [rbind] in Hf. injection Hf as <-.
    set (cov := mkCov ells m I) in *.
    (* every derivative lives on the common multipoles *)
    assert (HE : forall v, In v vecs -> fst (snd v) = ells).
    { intros v Hv'. apply (check_equal (map (fun e => fst (snd e)) vecs)); [exact Hk| | |apply (in_map (fun e => fst (snd e))); exact Hv'].
      - intros a Ha. apply in_map_iff in Ha. destruct Ha as (w & <- & Hw).
        clear - HV Hw. induction HV as [|n0 v names vecs (E & ellsn & A & B & C & _) HV IH]; [destruct Hw|].
        destruct Hw as [<-|Hw]; [rewrite C; auto|apply IH; exact Hw].
      - intros a Ha. apply in_map_iff in Ha. destruct Ha as (w & <- & Hw).
        assert (Hn : In (fst w) names) by (clear - HV Hw; induction HV as [|n0 v names vecs (E & _) HV IH]; [destruct Hw|destruct Hw as [<-|Hw]; [left; congruence|right; apply IH; exact Hw]]).
        assert (Gall : forall ab, In ab (pairs2 names) -> exists da db f, dget_str dcls (fst ab) = Ok da /\ dget_str dcls (snd ab) = Ok db /\ f_ell_pair cov da db = Ok f).
        { clear - Er. revert Er. generalize (@nil (string * string * list F)) as acc. induction (pairs2 names) as [|ab ps IH]; intros acc Er ab' Hin; [destruct Hin|].
          cbn [rfold] in Er. destruct (dget_str dcls (fst ab)) as [da|] eqn:E1; [|discriminate]. cbn [rbind] in Er.
          destruct (dget_str dcls (snd ab)) as [db|] eqn:E2; [|discriminate]. cbn [rbind] in Er.
          destruct (f_ell_pair cov da db) as [f|] eqn:E3; [|discriminate]. cbn [rbind] in Er.
          destruct Hin as [<-|Hin]; [eauto 8|exact (IH _ Er _ Hin)]. }
        assert (Hself : In (fst w, fst w) (pairs2 names)) by (destruct (pairs2_all names (fst w) (fst w) Hn Hn); assumption).
        destruct (Gall _ Hself) as (da & db & f & E1 & _ & E3). apply f_ell_spec in E3. destruct E3 as (_ & L1 & _). cbn [cov cv_ells] in L1.
        cbn [fst] in E1.
        assert (Ew : exists ellsn, fst (snd w) = ellsn /\ length da = length ellsn).
        { clear - E1 HV Hw Nd. unfold dcls in E1. revert Nd E1. induction HV as [|n0 v names vecs (E & ellsn & A & B & C & (D & _)) HV IH]; intros Nd E1; [destruct Hw|].
          unfold dget_str in E1. cbn [map dget fst snd] in E1. inversion Nd as [|? ? Nn Nd']; subst.
          destruct (String.eqb_spec (fst v) (fst w)) as [E0|N0].
          - injection E1 as <-. destruct Hw as [<-|Hw]; [eauto|]. exfalso. apply Nn. rewrite E0.
            clear - HV Hw. induction HV as [|n0 v names vecs (E & _) HV IH]; [destruct Hw|destruct Hw as [<-|Hw]; [left; congruence|right; apply IH; exact Hw]].
          - destruct Hw as [<-|Hw]; [congruence|]. apply IH; assumption. }
        destruct Ew as (ellsn & -> & <-). exact L1. }
    (* the inverse as a function of the multipole *)
    assert (HInv : forall t x J, nth_error ells t = Some x -> nth_error I t = Some J -> row_at ells I x = Some J).
    { intros t x J Ht HJ. apply (row_at_nth ells I t x J); auto. apply increasing_NoDup; exact Si. }
    change (cv_inv cov) with I in *. set (Inv := inv_of cov).
    change (cv_ells cov) with ells in *.
    split.
    { intros x Hx. apply In_nth_error in Hx. destruct Hx as (t & Ht).
      destruct (nth_error I t) as [J|] eqn:EJ.
      - unfold Inv, inv_of. change (cv_ells cov) with ells. change (cv_inv cov) with I. rewrite (HInv t x J Ht EJ). exact (HI t x J Ht EJ).
      - exfalso. apply nth_error_None in EJ. assert (t < length ells)%nat by (apply nth_error_Some; rewrite Ht; discriminate). lia. }
    set (g := fun ab : string * string => map (fisher_term nb l ds Inv (fst ab) (snd ab)) ells).
    assert (Gpair : forall a b da db f, In a names -> In b names -> dget_str dcls a = Ok da -> dget_str dcls b = Ok db -> f_ell_pair cov da db = Ok f -> f = g (a, b) /\ f = g (b, a)).
    { intros a b da db f Ha Hb E1 E2 E3.
      destruct (HD a Ha) as (va & Hva & _ & Ea' & ella & _ & _ & Eella & (La & Ra)). rewrite E1 in Ea'. injection Ea' as ->.
      destruct (HD b Hb) as (vb & Hvb & _ & Eb' & ellb & _ & _ & Eellb & (Lb & Rb)). rewrite E2 in Eb'. injection Eb' as ->.
      assert (Za : ella = ells) by (rewrite <- Eella; apply HE; exact Hva). assert (Zb : ellb = ells) by (rewrite <- Eellb; apply HE; exact Hvb).
      clear Eella Eellb. rewrite Za in La, Ra. rewrite Zb in Lb, Rb.
      apply f_ell_spec in E3. destruct E3 as (Lf & _ & _ & Hf). cbn [cov cv_ells cv_inv cv_mat] in Lf, Hf.
      assert (Hval : forall t x, nth_error ells t = Some x -> nth_error f t = Some (fisher_term nb l ds Inv a b x) /\ fisher_term nb l ds Inv a b x = fisher_term nb l ds Inv b a x).
      { intros t x Ht. assert (Hlt : (t < length ells)%nat) by (apply nth_error_Some; rewrite Ht; discriminate).
        destruct (Hf t Hlt) as (ra & J & rb & Era & EJ & Erb & Ef).
        assert (EI : Inv x = J) by (unfold Inv, inv_of; change (cv_ells cov) with ells; change (cv_inv cov) with I; rewrite (HInv t x J Ht EJ); reflexivity).
        pose proof (Ra t x ra Ht Era) as Ma. pose proof (Rb t x rb Ht Erb) as Mb.
        assert (Hder : forall n row, map (comp_cl (deriv ds n) x) (components nb l) = map Some row ->
          forall r, (r < length (components nb l))%nat -> nth r row 0 = der_at nb l (deriv ds n) x r).
        { intros n row Mr r Hr. unfold der_at, comp. pose proof (nth_error_nth' (components nb l) ((Ph, Ph), (0, 0)%nat) Hr) as En.
          assert (E : nth_error (map (comp_cl (deriv ds n) x) (components nb l)) r = nth_error (map Some row) r) by (rewrite Mr; reflexivity).
          rewrite !nth_error_map, En in E. cbn [option_map] in E.
          destruct (nth_error row r) as [y|] eqn:Ey; [|discriminate]. cbn [option_map] in E. injection E as E.
          rewrite (nth_error_nth _ _ _ Ey). destruct (nth r (components nb l) _) as [[p q] [i j]]. unfold comp_cl in E. cbn [fst snd] in E. rewrite E. reflexivity. }
        split.
        - rewrite Ef. f_equal. unfold bilin, fisher_term. destruct Lm as (Lm1 & _). rewrite Lm1. apply Fsum_ext. intros r Hr. apply Fsum_ext. intros c0 Hc0.
          apply in_seq in Hr, Hc0. rewrite (Hder a ra Ma r), (Hder b rb Mb c0) by lia. rewrite EI. reflexivity.
        - unfold fisher_term. set (n := length (components nb l)).
          assert (Sy : forall r c0, (r < n)%nat -> (c0 < n)%nat -> Inv x r c0 = Inv x c0 r).
          { intros r c0 Hr Hc0. rewrite EI. apply (inverse_symm n (cov_at nb l d x)); auto; [exact (HI t x J Ht EJ)|].
            intros r' c' _ _. unfold cov_at. rewrite gauss_sym by exact S. reflexivity. }
          rewrite Fsum_comm. apply Fsum_ext. intros r Hr. apply Fsum_ext. intros c0 Hc0. apply in_seq in Hr, Hc0.
          rewrite (Sy c0 r) by lia. ring. }
      split; apply map_nth_error_eq; auto; intros t x Ht; destruct (Hval t x Ht) as [V1 V2]; cbn [fst snd]; [exact V1|rewrite <- V2; exact V1]. }
    destruct (rfold_cols cov dcls g (pairs2 names) [] cols) with (2 := Er) as [Ecols _].
    { intros [a b] Hin da db f E1 E2 E3. cbn [fst snd] in *. destruct (pairs2_In names a b Hin) as [Ha Hb]. exact (Gpair a b da db f Ha Hb E1 E2 E3). }
    destruct (fill_graph spair_eqb spair_spec g (both (pairs2 names)) [] (fun kv H => match H with end)) as [G1 G2]. cbv zeta in G1, G2. rewrite <- Ecols in G1, G2.
    unfold f_ell_ok. cbn [fe_ells fe_cols]. split; [reflexivity|]. split.
    - intros a b Ha Hb. apply (G2 (a, b)). left. unfold both. apply in_flat_map. destruct (pairs2_all names a b Ha Hb) as [H|H].
      + exists (a, b). split; [exact H|left; reflexivity].
      + exists (b, a). split; [exact H|right; left; reflexivity].
    - intros [a b] col Hin. destruct (G1 _ Hin) as [Ec [Hb|[]]]. cbn [fst snd] in *. unfold both in Hb. apply in_flat_map in Hb. destruct Hb as ([a' b'] & Hp & He).
      apply pairs2_In in Hp. destruct He as [e|[e|[]]]; unfold swap2 in e; cbn [fst snd] in e; injection e as <- <-.
      + split; [tauto|]. split; [tauto|]. rewrite Ec. unfold g. apply map_length.
      + split; [tauto|]. split; [tauto|]. rewrite Ec. unfold g. apply map_length.
  Qed.
End FE.
