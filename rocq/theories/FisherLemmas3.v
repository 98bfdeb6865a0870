From Verif Require Import Base SortLib MatInv LabLin FrameModel FrameLemmas FisherModel FisherSpec FisherLemmas FisherLemmas2.
From Coq Require Import Permutation Field.

Section Block.
  Context {F : Type} {K : Fld F} {SO : SetOrder}.
  Add Field FldBlk : (fth (F := F)).
  Open Scope fld_scope.
  Notation isinv := (isinv string_dec).
  Implicit Types f g h t : fisher F.

  Definition bdiag (k s : list string) (G1 G2 : string -> string -> F) : string -> string -> F :=
    fun p q => if smem p k && smem q k then G1 p q else if smem p s && smem q s then G2 p q else 0.

  Lemma bdiag_inv k s (A G1 G2 : string -> string -> F) :
    (forall x, In x k -> ~ In x s) ->
    (forall a b, In a k -> In b s -> A a b = 0) -> (forall a b, In a s -> In b k -> A a b = 0) ->
    isinv k A G1 -> isinv s A G2 -> isinv (k ++ s) A (bdiag k s G1 G2).
  Proof.
    intros Hd Hks Hsk I1 I2.
    assert (E1 : forall p q, In p k -> In q k -> bdiag k s G1 G2 p q = G1 p q).
    { intros p q Hp Hq. unfold bdiag. rewrite (proj2 (smem_In p k) Hp), (proj2 (smem_In q k) Hq). reflexivity. }
    assert (E2 : forall p q, In p s -> In q s -> bdiag k s G1 G2 p q = G2 p q).
    { intros p q Hp Hq. unfold bdiag. rewrite (proj2 (smem_In p s) Hp), (proj2 (smem_In q s) Hq).
      rewrite (proj2 (smem_false p k)) by (intros C; exact (Hd p C Hp)). reflexivity. }
    assert (E3 : forall p q, In p k -> In q s -> bdiag k s G1 G2 p q = 0).
    { intros p q Hp Hq. unfold bdiag. rewrite (proj2 (smem_false q k)) by (intros C; exact (Hd q C Hq)).
      rewrite (proj2 (smem_false p s)) by (intros C; exact (Hd p Hp C)). rewrite andb_false_r. reflexivity. }
    assert (E4 : forall p q, In p s -> In q k -> bdiag k s G1 G2 p q = 0).
    { intros p q Hp Hq. unfold bdiag. rewrite (proj2 (smem_false p k)) by (intros C; exact (Hd p C Hp)).
      rewrite (proj2 (smem_false q s)) by (intros C; exact (Hd q Hq C)). rewrite andb_false_r. reflexivity. }
    intros a b Ha Hb. apply in_app_iff in Ha, Hb. rewrite !mm_app.
    destruct Ha as [Ha|Ha], Hb as [Hb|Hb].
    - split.
      + destruct (I1 a b Ha Hb) as [H _]. rewrite <- H. unfold mm.
        rewrite (Fsum_zero _ s) by (intros x Hx; rewrite Hks by assumption; ring).
        rewrite (Fsum_ext _ (fun x => A a x * G1 x b)); [ring|]. intros x Hx. rewrite E1 by assumption. reflexivity.
      + destruct (I1 a b Ha Hb) as [_ H]. rewrite <- H. unfold mm.
        rewrite (Fsum_zero _ s) by (intros x Hx; rewrite E3 by assumption; ring).
        rewrite (Fsum_ext _ (fun x => G1 a x * A x b)); [ring|]. intros x Hx. rewrite E1 by assumption. reflexivity.
    - rewrite dl_neq by (intros ->; exact (Hd b Ha Hb)). split; unfold mm.
      + rewrite (Fsum_zero _ k) by (intros x Hx; rewrite E3 by assumption; ring).
        rewrite (Fsum_zero _ s) by (intros x Hx; rewrite Hks by assumption; ring). ring.
      + rewrite (Fsum_zero _ k) by (intros x Hx; rewrite Hks by assumption; ring).
        rewrite (Fsum_zero _ s) by (intros x Hx; rewrite E3 by assumption; ring). ring.
    - rewrite dl_neq by (intros ->; exact (Hd b Hb Ha)). split; unfold mm.
      + rewrite (Fsum_zero _ k) by (intros x Hx; rewrite Hsk by assumption; ring).
        rewrite (Fsum_zero _ s) by (intros x Hx; rewrite E4 by assumption; ring). ring.
      + rewrite (Fsum_zero _ k) by (intros x Hx; rewrite E4 by assumption; ring).
        rewrite (Fsum_zero _ s) by (intros x Hx; rewrite Hsk by assumption; ring). ring.
    - split.
      + destruct (I2 a b Ha Hb) as [H _]. rewrite <- H. unfold mm.
        rewrite (Fsum_zero _ k) by (intros x Hx; rewrite Hsk by assumption; ring).
        rewrite (Fsum_ext _ (fun x => A a x * G2 x b)); [ring|]. intros x Hx. rewrite E2 by assumption. reflexivity.
      + destruct (I2 a b Ha Hb) as [_ H]. rewrite <- H. unfold mm.
        rewrite (Fsum_zero _ k) by (intros x Hx; rewrite E4 by assumption; ring).
        rewrite (Fsum_ext _ (fun x => G2 a x * A x b)); [ring|]. intros x Hx. rewrite E2 by assumption. reflexivity.
  Qed.

  Definition sch (s : list string) (A G : string -> string -> F) (a b : string) : F :=
    Fsum (fun p => Fsum (fun q => A a p * G p q * A q b) s) s.

  Lemma sch_bdiag k s (A G1 G2 : string -> string -> F) a b : (forall x, In x k -> ~ In x s) ->
    sch (k ++ s) A (bdiag k s G1 G2) a b = sch k A G1 a b + sch s A G2 a b.
  Proof.
    intros Hd. unfold sch. rewrite Fsum_app. f_equal; apply Fsum_ext; intros p Hp; rewrite Fsum_app.
    - rewrite (Fsum_zero _ s).
      + rewrite (Fsum_ext _ (fun q => A a p * G1 p q * A q b)); [ring|]. intros q Hq. unfold bdiag.
        rewrite (proj2 (smem_In p k) Hp), (proj2 (smem_In q k) Hq). reflexivity.
      + intros q Hq. unfold bdiag. rewrite (proj2 (smem_false q k)) by (intros C; exact (Hd q C Hq)).
        rewrite (proj2 (smem_false p s)) by (intros C; exact (Hd p Hp C)). rewrite andb_false_r. cbn [andb]. ring.
    - rewrite (Fsum_zero _ k).
      + rewrite (Fsum_ext _ (fun q => A a p * G2 p q * A q b)); [ring|]. intros q Hq. unfold bdiag.
        rewrite (proj2 (smem_In p s) Hp), (proj2 (smem_In q s) Hq).
        rewrite (proj2 (smem_false p k)) by (intros C; exact (Hd p C Hp)). reflexivity.
      + intros q Hq. unfold bdiag. rewrite (proj2 (smem_false p k)) by (intros C; exact (Hd p C Hp)).
        rewrite (proj2 (smem_false q s)) by (intros C; exact (Hd q Hq C)). rewrite andb_false_r. cbn [andb]. ring.
  Qed.

  (** The marginalised entry, for every pair of labels outside the dropped ones. *)
  Lemma margd_pval ps rc f t s : wf f -> margd ps rc f t -> NoDup s -> (forall x, In x s <-> In x ps) ->
    exists G, isinv s (fval f) G /\
      forall a b, ~ In a ps -> ~ In b ps -> pval t a b = pval f a b - sch s (pval f) G a b.
  Proof.
    intros Wf M Hs Hps. destruct (margd_schur ps rc f t s Wf M Hs Hps) as (G & HG & HV).
    destruct (margd_spec ps rc f t Wf M) as (C & HI & Wt & Lt & _ & HM & _ & _ & _ & Hsub).
    exists G. split; [exact HG|]. intros a b Na Nb.
    destruct (in_dec string_dec a (labels f)) as [Ia|Oa].
    - destruct (in_dec string_dec b (labels f)) as [Ib|Ob].
      + rewrite !pval_in; auto; try (apply Lt; auto). rewrite HV by (apply Lt; auto). f_equal.
        unfold sch. apply Fsum_ext. intros p Hp. apply Fsum_ext. intros q Hq.
        rewrite !pval_in; auto; apply Hsub, Hps; assumption.
      + rewrite !pval_out; auto; [|right; rewrite Lt; tauto].
        unfold sch. rewrite (Fsum_zero _ s); [ring|]. intros p Hp. apply Fsum_zero. intros q Hq.
        rewrite (pval_out f q b) by auto. ring.
    - rewrite !pval_out; auto; [|left; rewrite Lt; tauto].
      unfold sch. rewrite (Fsum_zero _ s); [ring|]. intros p Hp. apply Fsum_zero. intros q Hq.
      rewrite (pval_out f a p) by auto. ring.
  Qed.

  Lemma marg_add f g t u v rc1 rc2 rc3 : wf f -> wf g ->
    (forall x, In x (fnuis f) -> ~ In x (labels g)) -> (forall x, In x (fnuis g) -> ~ In x (labels f)) ->
    margd (fnuis f) rc1 f t -> margd (fnuis g) rc2 g u -> margd (fnuis (fisher_add f g)) rc3 (fisher_add f g) v ->
    same (fisher_add t u) v.
  Proof.
    intros Wf Wg D1 D2 M1 M2 M3. destruct (add_spec f g Wf Wg) as (Wh & Lh & Vh & Ch & Nh).
    set (h := fisher_add f g) in *.
    pose proof Wf as (_ & _ & Nf & Lf). pose proof Wg as (_ & _ & Ng & Lg).
    destruct (margd_spec _ _ _ _ Wf M1) as (C1 & _ & Wt & Lt & _ & _ & _ & Ct & Nt & _).
    destruct (margd_spec _ _ _ _ Wg M2) as (C2 & _ & Wu & Lu & _ & _ & _ & Cu & Nu & _).
    destruct (margd_spec _ _ _ _ Wh M3) as (C3 & _ & Wv & Lv & _ & _ & _ & Cv & Nv & _).
    destruct (add_spec t u Wt Wu) as (Wk & Lk & Vk & Ck & Nk).
    assert (Dn : forall x, In x (fnuis f) -> ~ In x (fnuis g)).
    { intros x Hx Hx'. apply (D1 x Hx). apply Lg. auto. }
    assert (NDn : NoDup (fnuis f ++ fnuis g)).
    { apply Permutation_NoDup with (fnuis f ++ fnuis g); [reflexivity|].
      clear -Nf Ng Dn. induction (fnuis f) as [|x l IH]; [exact Ng|]. inversion Nf; subst. cbn. constructor.
      - rewrite in_app_iff. intros [C|C]; [contradiction|]. exact (Dn x (or_introl eq_refl) C).
      - apply IH; [assumption|]. intros y Hy. apply Dn. right; exact Hy. }
    destruct (margd_pval _ _ _ _ (fnuis f) Wf M1 Nf) as (G1 & HG1 & V1); [reflexivity|].
    destruct (margd_pval _ _ _ _ (fnuis g) Wg M2 Ng) as (G2 & HG2 & V2); [reflexivity|].
    destruct (margd_pval _ _ _ _ (fnuis f ++ fnuis g) Wh M3 NDn) as (G3 & HG3 & V3).
    { intros x. rewrite Nh, in_app_iff. reflexivity. }
    assert (Hf : forall p a, In p (fnuis f) -> pval g a p = 0 /\ pval g p a = 0).
    { intros p a Hp. rewrite !pval_out; auto. }
    assert (Hg : forall p a, In p (fnuis g) -> pval f a p = 0 /\ pval f p a = 0).
    { intros p a Hp. rewrite !pval_out; auto. }
    assert (If : forall x, In x (fnuis f) -> In x (labels f)) by (intros; apply Lf; auto).
    assert (Ig : forall x, In x (fnuis g) -> In x (labels g)) by (intros; apply Lg; auto).
    assert (EG : forall p q, In p (fnuis f ++ fnuis g) -> In q (fnuis f ++ fnuis g) ->
                  G3 p q = bdiag (fnuis f) (fnuis g) G1 G2 p q).
    { apply (inv_unique string_dec (fnuis f ++ fnuis g) (fval h)); [exact NDn|exact HG3|].
      apply bdiag_inv.
      - exact Dn.
      - intros a b Ha Hb. rewrite <- pval_in by (apply Lh; auto). rewrite Vh.
        destruct (Hf a b Ha) as [_ ->]. destruct (Hg b a Hb) as [-> _]. ring.
      - intros a b Ha Hb. rewrite <- pval_in by (apply Lh; auto). rewrite Vh.
        destruct (Hg a b Ha) as [_ ->]. destruct (Hf b a Hb) as [-> _]. ring.
      - eapply isinv_ext; [|reflexivity|exact HG1]. intros a b Ha Hb.
        rewrite <- (pval_in h) by (apply Lh; auto). rewrite Vh. destruct (Hf a b Ha) as [_ ->].
        rewrite pval_in by auto. ring.
      - eapply isinv_ext; [|reflexivity|exact HG2]. intros a b Ha Hb.
        rewrite <- (pval_in h) by (apply Lh; auto). rewrite Vh. destruct (Hg a b Ha) as [_ ->].
        rewrite pval_in by auto. ring. }
    apply same_pval.
    - intros x. rewrite Lk, Lt, Lu, Lv, Lh, Nh.
      specialize (D1 x). specialize (D2 x). tauto.
    - intros a b. rewrite Vk.
      destruct (in_dec string_dec a (fnuis f ++ fnuis g)) as [Ia|Oa].
      { assert (Z : pval t a b = 0 /\ pval u a b = 0 /\ pval v a b = 0).
        { rewrite in_app_iff in Ia. rewrite !pval_out; auto; left.
          - rewrite Lv, Nh. tauto.
          - rewrite Lu. specialize (D1 a). tauto.
          - rewrite Lt. specialize (D2 a). tauto. }
        destruct Z as (-> & -> & ->). ring. }
      destruct (in_dec string_dec b (fnuis f ++ fnuis g)) as [Ib|Ob].
      { assert (Z : pval t a b = 0 /\ pval u a b = 0 /\ pval v a b = 0).
        { rewrite in_app_iff in Ib. rewrite !pval_out; auto; right.
          - rewrite Lv, Nh. tauto.
          - rewrite Lu. specialize (D1 b). tauto.
          - rewrite Lt. specialize (D2 b). tauto. }
        destruct Z as (-> & -> & ->). ring. }
      rewrite in_app_iff in Oa, Ob.
      rewrite V1, V2 by tauto. rewrite V3 by (rewrite Nh; tauto). rewrite Vh.
      assert (ES : sch (fnuis f ++ fnuis g) (pval h) G3 a b =
                   sch (fnuis f ++ fnuis g) (pval h) (bdiag (fnuis f) (fnuis g) G1 G2) a b).
      { unfold sch. apply Fsum_ext. intros p Hp. apply Fsum_ext. intros q Hq. rewrite EG by assumption. reflexivity. }
      rewrite ES, (sch_bdiag _ _ _ _ _ _ _ Dn).
      assert (E1 : sch (fnuis f) (pval h) G1 a b = sch (fnuis f) (pval f) G1 a b).
      { unfold sch. apply Fsum_ext. intros p Hp. apply Fsum_ext. intros q Hq. rewrite !Vh.
        destruct (Hf p a Hp) as [-> _]. destruct (Hf q b Hq) as [_ ->]. ring. }
      assert (E2 : sch (fnuis g) (pval h) G2 a b = sch (fnuis g) (pval g) G2 a b).
      { unfold sch. apply Fsum_ext. intros p Hp. apply Fsum_ext. intros q Hq. rewrite !Vh.
        destruct (Hg p a Hp) as [-> _]. destruct (Hg q b Hq) as [_ ->]. ring. }
      rewrite E1, E2. ring.
    - intros x. rewrite Ck, Ct, Cu, Cv, Ch, Nh. specialize (D1 x). specialize (D2 x).
      rewrite Lg in D1. rewrite Lf in D2. tauto.
    - intros x. rewrite Nk, Nt, Nu, Nv, Nh. specialize (D1 x). specialize (D2 x).
      rewrite Lg in D1. rewrite Lf in D2. tauto.
  Qed.
End Block.

(** ** Reported errors. *)
Section Errors.
  Context {F : Type} {K : Fld F} {O : OFld (F := F)} {S : SqrtFld F} {SO : SetOrder}.
  Add Field FldErr : (fth (F := F)).
  Open Scope fld_scope.
  Notation isinv := (isinv string_dec).
  Implicit Types f g h t : fisher F.

  Lemma rmapM_all {A B} (g : A -> res B) (h : A -> B) l : (forall a, In a l -> g a = Ok (h a)) -> rmapM g l = Ok (map h l).
  Proof.
    induction l as [|a l IH]; intros H; [reflexivity|]. cbn [rmapM map]. rewrite H by (left; reflexivity). cbn [rbind].
    rewrite IH by (intros x Hx; apply H; right; exact Hx). reflexivity.
  Qed.

  Lemma s_get_map (g : string -> option F) l a :
    s_get (map (fun a => (a, g a)) l) a = if smem a l then Some (g a) else None.
  Proof.
    unfold s_get. induction l as [|x l IH]; [reflexivity|]. cbn [map dget smem existsb].
    destruct (String.eqb_spec x a) as [->|n].
    - rewrite String.eqb_refl. reflexivity.
    - destruct (String.eqb_spec a x) as [e|_]; [congruence|]. cbn [orb]. exact IH.
  Qed.

  Lemma s_get_key (s : list (string * option F)) a : s_get s a <> None <-> In a (map fst s).
  Proof.
    unfold s_get. pose proof (dget_None _ String.eqb_spec s a) as H. unfold dkeys in H.
    destruct (dget String.eqb s a).
    - split; [intros _|discriminate]. destruct (in_dec string_dec a (map fst s)) as [i|n]; [exact i|]. apply H in n. discriminate.
    - split; [congruence|]. intros Hi. exfalso. apply H; auto.
  Qed.

  Lemma s_get_sort (s : list (string * option F)) a : s_get (s_sort s) a = s_get s a.
  Proof.
    unfold s_sort. rewrite s_get_map. destruct (smem_spec a (ssort (map fst s))) as [Hi|Hn].
    - rewrite ssort_In in Hi. apply s_get_key in Hi. destruct (s_get s a); [reflexivity|congruence].
    - rewrite ssort_In in Hn. destruct (s_get s a) eqn:E; [|reflexivity]. exfalso. apply Hn, s_get_key. congruence.
  Qed.

  Lemma s_sort_eq (s s' : list (string * option F)) : Permutation (map fst s) (map fst s') ->
    (forall a, s_get s a = s_get s' a) -> s_sort s = s_sort s'.
  Proof.
    intros P H. unfold s_sort. rewrite (ssort_unique _ _ P). apply map_ext. intros a. rewrite H. reflexivity.
  Qed.

  Definition held f i : Prop := finverse f = Some i /\ frame_ok i /\ forall x, In x (labels f) -> In x (ix i).

  (** The series before sorting. *)
  Definition base_errs (i : frame F) (l : list string) : list (string * option F) :=
    map (fun a => (a, np_sqrt (fv i a a))) l.
  Definition with_fom (fom : bool) f (s : list (string * option F)) (v : option F) :=
    if fom && subsetb ["w0"; "wa"]%string (labels f) then dset String.eqb s "FoM"%string v else s.

  Lemma fom_total p q f i : held f i -> In p (labels f) -> In q (labels f) ->
    exists v, figure_of_merit p q f = Ok v.
  Proof.
    intros (E & Ok & L) Hp Hq. unfold figure_of_merit. rewrite E.
    destruct (loc_ok i (set_of [p; q]) Ok) as (g & Eg & _).
    - apply set_of_NoDup.
    - intros x Hx. rewrite set_of_In in Hx. destruct Hx as [<-|[<-|[]]]; apply L; assumption.
    - rewrite Eg. cbn [rbind]. eexists; reflexivity.
  Qed.

  Lemma errors_held fom oc f i : wf f -> held f i ->
    exists v, (fom && subsetb ["w0"; "wa"]%string (labels f) = true -> figure_of_merit "w0" "wa" f = Ok v) /\
      marginalized_errors fom oc f =
        (f, Ok (s_sort (with_fom fom f (base_errs i (if oc then fcosmo f else labels f)) v))).
  Proof.
    intros Wf H. pose proof H as (E & Oi & L). unfold marginalized_errors. rewrite E. cbn [rbind].
    rewrite (rmapM_all _ (fun a => (a, np_sqrt (fv i a a)))).
    2:{ intros a Ha. unfold parameter_sigma. rewrite E. pose proof Oi as (_ & Hc & _). rewrite Hc.
        rewrite (proj2 (smem_In a (ix i))) by (apply L; exact Ha). cbn [andb rbind].
        rewrite (ce_fv i a a Oi) by (apply L; exact Ha). reflexivity. }
    cbn [rbind].
    assert (E1 : (if oc then s_loc (map (fun a => (a, np_sqrt (fv i a a))) (ix (fmat f))) (fcosmo f)
                  else Ok (map (fun a => (a, np_sqrt (fv i a a))) (ix (fmat f))))
                 = Ok (base_errs i (if oc then fcosmo f else labels f))).
    { destruct oc; [|reflexivity]. unfold s_loc, base_errs. apply rmapM_all. intros a Ha.
      rewrite (s_get_map (fun a => np_sqrt (fv i a a))).
      rewrite (proj2 (smem_In a (ix (fmat f)))); [reflexivity|]. destruct Wf as (_ & _ & _ & Lf). apply Lf. auto. }
    rewrite E1. cbn [rbind]. unfold with_fom. fold (labels f).
    destruct (fom && subsetb ["w0"; "wa"]%string (labels f)) eqn:Ef.
    - apply andb_true_iff in Ef. destruct Ef as [_ Es]. rewrite subsetb_spec in Es.
      destruct (fom_total "w0" "wa" f i H) as (v & Ev).
      { apply Es. left; reflexivity. } { apply Es. right; left; reflexivity. }
      exists v. split; [intros _; exact Ev|]. rewrite Ev. reflexivity.
    - exists None. split; [discriminate|]. reflexivity.
  Qed.

  Lemma errors_none fom oc f i : finverse f = None -> invert_dataframe (fmat f) = Ok i ->
    marginalized_errors fom oc f = marginalized_errors fom oc (with_inv f i).
  Proof. intros E Ei. unfold marginalized_errors, eval_inverse. rewrite E, Ei. reflexivity. Qed.

  Lemma held_inv f i : wf f -> invert_dataframe (fmat f) = Ok i -> held (with_inv f i) i /\ wf (with_inv f i).
  Proof.
    intros Wf Ei. pose proof Wf as (Of & _). destruct (invert_ok _ _ Of Ei) as (Ii & Oi & Vi). split.
    - split; [reflexivity|]. split; [exact Oi|]. intros x Hx. rewrite Ii. exact Hx.
    - exact Wf.
  Qed.

  Lemma errors_get fom oc f i a : wf f -> held f i -> a <> "FoM"%string ->
    exists e, marginalized_errors fom oc f = (f, Ok e) /\
      s_get e a = if smem a (if oc then fcosmo f else labels f) then Some (np_sqrt (fv i a a)) else None.
  Proof.
    intros Wf H Ha. destruct (errors_held fom oc f i Wf H) as (v & _ & E). eexists. split; [exact E|].
    rewrite s_get_sort. unfold with_fom, s_get.
    destruct (fom && subsetb ["w0"; "wa"]%string (labels f)).
    - rewrite (dget_dset_other _ String.eqb_spec) by congruence. apply (s_get_map (fun a => np_sqrt (fv i a a))).
    - apply (s_get_map (fun a => np_sqrt (fv i a a))).
  Qed.

  (** Figure of merit. *)
  Definition fom_of (d : F) : option F :=
    match np_sqrt d with None => None | Some s => if fdec s 0 then None else Some (1 / s) end.

  Lemma set_of_two p q : p <> q -> set_of [p; q] = [p; q] \/ set_of [p; q] = [q; p].
  Proof.
    intros H. unfold set_of. assert (E : sdup [p; q] = [p; q]).
    { unfold sdup. apply nodup_fixed_point. constructor; [intros [C|[]]; congruence|]. constructor; [intros []|constructor]. }
    rewrite E. pose proof (ord_perm [p; q]) as P. apply Permutation_sym, Permutation_length_2_inv in P. exact P.
  Qed.

  Lemma fom_value p q f i : held f i -> p <> q -> In p (labels f) -> In q (labels f) ->
    figure_of_merit p q f = Ok (fom_of (fv i p p * fv i q q - fv i p q * fv i q p)).
  Proof.
    intros (E & Oi & L) Hpq Hp Hq. unfold figure_of_merit. rewrite E.
    destruct (loc_ok i (set_of [p; q]) Oi) as (g & Eg & Og & Ig & Vg).
    { apply set_of_NoDup. }
    { intros x Hx. rewrite set_of_In in Hx. destruct Hx as [<-|[<-|[]]]; apply L; assumption. }
    rewrite Eg. cbn [rbind]. apply L in Hp, Hq.
    destruct (set_of_two p q Hpq) as [-> | ->]; cbn [block_det]; rewrite !Vg, !(ce_fv i) by assumption.
    - reflexivity.
    - replace (fv i q q * fv i p p - fv i q p * fv i p q) with (fv i p p * fv i q q - fv i p q * fv i q p) by ring.
      reflexivity.
  Qed.

  Lemma fom_single p f i : held f i -> In p (labels f) -> figure_of_merit p p f = Ok (fom_of (fv i p p)).
  Proof.
    intros (E & Oi & L) Hp. unfold figure_of_merit. rewrite E.
    assert (E1 : set_of [p; p] = [p]).
    { unfold set_of. assert (Es : sdup [p; p] = [p]).
      { unfold sdup. cbn. destruct (string_dec p p) as [_|n]; [reflexivity|congruence]. }
      rewrite Es. apply Permutation_length_1_inv, Permutation_sym, ord_perm. }
    rewrite E1. destruct (loc_ok i [p] Oi) as (g & Eg & Og & Ig & Vg).
    { constructor; [intros []|constructor]. } { intros x [<-|[]]. apply L; exact Hp. }
    rewrite Eg. cbn [rbind block_det]. apply L in Hp. rewrite Vg, (ce_fv i) by assumption. reflexivity.
  Qed.

  (** ** Square roots are monotone. *)
  Lemma fle_mul_le (a b c d : F) : fle 0 a -> fle a b -> fle 0 c -> fle c d -> fle (a * c) (b * d).
  Proof.
    intros Ha Hab Hc Hcd. apply fle_trans with (b * c).
    - apply (proj2 (fle_sub_iff _ _)). replace (b * c - a * c) with ((b - a) * c) by ring. apply fle_mul; [apply (proj1 (fle_sub_iff _ _)); exact Hab|exact Hc].
    - apply (proj2 (fle_sub_iff _ _)). replace (b * d - b * c) with (b * (d - c)) by ring.
      apply fle_mul; [exact (fle_trans _ _ _ Ha Hab)|apply (proj1 (fle_sub_iff _ _)); exact Hcd].
  Qed.
  Lemma mul_zero (a b : F) : a * b = 0 -> a = 0 \/ b = 0.
  Proof.
    intros H. destruct (fdec a 0) as [e|n]; [left; exact e|right].
    transitivity (a * b / a); [field; exact n|]. rewrite H. field. exact n.
  Qed.
  Lemma sq_le (a b : F) : fle 0 a -> fle 0 b -> fle (a * a) (b * b) -> fle a b.
  Proof.
    intros Ha Hb H. destruct (fle_total a b) as [|Hba]; [assumption|].
    assert (E : a * a = b * b).
    { apply fle_antisym; [exact H|]. apply fle_mul_le; assumption. }
    assert (Z : (a - b) * (a + b) = 0) by (transitivity (a * a - b * b); [ring|rewrite E; ring]).
    apply mul_zero in Z. destruct Z as [Z|Z].
    - assert (a = b) as -> by (transitivity (a - b + b); [ring|rewrite Z; ring]). apply fle_refl.
    - apply fle_trans with (a + b); [|rewrite Z; exact Hb].
      apply (proj2 (fle_sub_iff _ _)). replace (a + b - a) with b by ring. exact Hb.
  Qed.
  Lemma fsqrt_mono (a b : F) : fle 0 a -> fle a b -> fle (fsqrt a) (fsqrt b).
  Proof.
    intros Ha Hab. assert (Hb : fle 0 b) by exact (fle_trans _ _ _ Ha Hab).
    apply sq_le; try (apply fsqrt_nonneg; assumption). rewrite !fsqrt_sq by assumption. exact Hab.
  Qed.
  Lemma fsqrt_pos (a : F) : flt 0 a -> flt 0 (fsqrt a).
  Proof.
    intros [H1 H2]. split; [apply fsqrt_nonneg; exact H1|]. intros C. apply H2.
    rewrite <- (fsqrt_sq a H1), <- C. ring.
  Qed.
  Lemma fsqrt_unique (a b : F) : fle 0 b -> b * b = a -> fsqrt a = b.
  Proof.
    intros Hb <-. assert (Ha : fle 0 (b * b)) by apply fle_sq.
    apply fle_antisym; apply sq_le; auto; try (apply fsqrt_nonneg; exact Ha); rewrite fsqrt_sq by exact Ha; apply fle_refl.
  Qed.
  Lemma finv_pos (a : F) : flt 0 a -> flt 0 (1 / a).
  Proof.
    intros [H1 H2]. assert (Hn : a <> 0) by congruence. split.
    - replace (1 / a) with ((1 / a) * (1 / a) * a) by (field; exact Hn). apply fle_mul; [apply fle_sq|exact H1].
    - intros C. apply (F_1_neq_0 fth). transitivity ((1 / a) * a); [field; exact Hn|]. rewrite <- C. ring.
  Qed.
  Lemma fsqrt_inv (a : F) : flt 0 a -> fsqrt (1 / a) = 1 / fsqrt a.
  Proof.
    intros H. pose proof (fsqrt_pos a H) as [H1 H2]. assert (Hn : fsqrt a <> 0) by congruence.
    apply fsqrt_unique.
    - apply finv_pos. apply fsqrt_pos; exact H.
    - destruct H as [Ha Hne]. rewrite <- (fsqrt_sq a Ha) at 3. field. exact Hn.
  Qed.
  Lemma np_sqrt_pos (a : F) : fle 0 a -> np_sqrt a = Some (fsqrt a).
  Proof. intros H. unfold np_sqrt. destruct (fle_dec 0 a); [reflexivity|contradiction]. Qed.
End Errors.
