From Verif Require Import Base SortLib StrLib FrameModel FrameLemmas FisherModel FsModel FisherFileModel KeyModel FileLemmas2 PipeModel.
Open Scope list_scope.

(** ** Programs *)
Section ProgLemmas.
  Context {St Op A : Type} (step : Op -> St -> St * res unit).
  Notation P := (prog St Op).

  Lemma crash_0 (p : P A) s : crash step p 0 s = s.
  Proof. unfold crash. induction p as [r|o k IH|k IH]; cbn; [reflexivity|reflexivity|apply IH]. Qed.
  Lemma exec_run (p : P A) : forall s, exists n, run step p n s = (fst (exec step p s), Some (snd (exec step p s))).
  Proof.
    induction p as [r|o k IH|k IH]; intros s; cbn.
    - exists 0. reflexivity.
    - destruct (step o s) as [s' [u|e]] eqn:E.
      + destruct (IH s') as (n & H). exists (S n). exact H.
      + exists 1. reflexivity.
    - apply IH.
  Qed.
  Lemma run_done (p : P A) : forall n s s' r, run step p n s = (s', Some r) -> exec step p s = (s', r).
  Proof.
    induction p as [r0|o k IH|k IH]; intros n s s' r; cbn.
    - intros [= <- <-]. reflexivity.
    - destruct n as [|n]; [discriminate|]. destruct (step o s) as [s1 [u|e]]; [apply IH|intros [= <- <-]; reflexivity].
    - apply IH.
  Qed.
End ProgLemmas.
Section ProgLemmas2.
  Context {St Op A : Type} (step : Op -> St -> St * res unit).
  Notation P := (prog St Op).
  Lemma exec_andthen (p : P unit) (q : P A) : forall s, exec step (andthen p q) s =
    match exec step p s with (s', Ok _) => exec step q s' | (s', Err e) => (s', Err e) end.
  Proof.
    induction p as [[u|e]|o k IH|k IH]; intros s; cbn; [reflexivity|reflexivity| |apply IH].
    destruct (step o s) as [s' [u|e]]; [apply IH|reflexivity].
  Qed.
  Lemma run_andthen (p : P unit) (q : P A) : forall n s,
    (exists s', run step p n s = (s', None) /\ run step (andthen p q) n s = (s', None)) \/
    (exists s' e, run step p n s = (s', Some (Err e)) /\ run step (andthen p q) n s = (s', Some (Err e))) \/
    (exists s' n', run step p n s = (s', Some (Ok tt)) /\ run step (andthen p q) n s = run step q n' s').
  Proof.
    induction p as [[[]|e]|o k IH|k IH]; intros n s; cbn.
    - right; right. exists s, n. split; reflexivity.
    - right; left. exists s, e. split; reflexivity.
    - destruct n as [|n]; [left; exists s; split; reflexivity|].
      destruct (step o s) as [s' [u|e]]; [apply IH|]. right; left. exists s', e. split; reflexivity.
    - apply IH.
  Qed.
  (** The states a crash leaves, for a sequence. *)
  Lemma crash_andthen (p : P unit) (q : P A) n s s1 : exec step p s = (s1, Ok tt) ->
    crash step (andthen p q) n s = crash step p n s \/ exists n', crash step (andthen p q) n s = crash step q n' s1.
  Proof.
    intros E. unfold crash. destruct (run_andthen p q n s) as [(s' & H & ->)|[(s' & e & H & ->)|(s' & n' & H & ->)]].
    - left. rewrite H. reflexivity.
    - left. rewrite H. reflexivity.
    - right. exists n'. apply run_done in H. rewrite E in H. injection H as <-. reflexivity.
  Qed.
  Lemma crash_prefix (p : P unit) (q : P A) : forall n s, exists n', crash step (andthen p q) n' s = crash step p n s.
  Proof.
    unfold crash. induction p as [[u|e]|o k IH|k IH]; intros n s.
    - exists 0. exact (crash_0 step q s).
    - exists 0. reflexivity.
    - destruct n as [|n]; [exists 0; reflexivity|]. cbn [andthen run].
      destruct (step o s) as [s' [u|e]] eqn:E.
      + destruct (IH n s') as (n' & H). exists (S n'). exact H.
      + exists 1. reflexivity.
    - cbn. apply IH.
  Qed.
  Lemma crash_suffix (p : P unit) (q : P A) : forall s s1, exec step p s = (s1, Ok tt) ->
    forall j, exists n', crash step (andthen p q) n' s = crash step q j s1.
  Proof.
    unfold crash. induction p as [[u|e]|o k IH|k IH]; intros s s1 E j; cbn in E.
    - injection E as <-. exists j. reflexivity.
    - discriminate.
    - destruct (step o s) as [s' [u|e]] eqn:Es; [|discriminate].
      destruct (IH s' s1 E j) as (n' & H). exists (S n'). cbn [andthen run]. rewrite Es. exact H.
    - cbn. exact (IH s s s1 E j).
  Qed.
  Lemma trace_andthen (p : P unit) (q : P A) : forall n s,
    trace step (andthen p q) n s = trace step p n s \/
    exists n' s1, exec step p s = (s1, Ok tt) /\ trace step (andthen p q) n s = trace step p n s ++ trace step q n' s1.
  Proof.
    induction p as [[[]|e]|o k IH|k IH]; intros n s; cbn.
    - right. exists n, s. split; reflexivity.
    - left. reflexivity.
    - destruct n as [|n]; [left; reflexivity|]. destruct (step o s) as [s' [u|e]]; [|left; reflexivity].
      destruct (IH n s') as [H|(n' & s1 & E & H)]; rewrite H; [left; reflexivity|]. right. exists n', s1. split; [exact E|reflexivity].
    - apply IH.
  Qed.

  (** Equal programs, pointwise. *)
  Definition peq {B} (p q : P B) : Prop := forall n s, run step p n s = run step q n s.
  Lemma peq_exec {B} (p q : P B) : peq p q -> forall s, exec step p s = exec step q s.
  Proof. intros H s. destruct (exec_run step q s) as (n & R). rewrite <- H in R. apply run_done in R. rewrite R. symmetry. apply surjective_pairing. Qed.
  Lemma andthen_cong (p : P unit) (q q' : P A) : peq q q' -> peq (andthen p q) (andthen p q').
  Proof.
    intros H. unfold peq. induction p as [[u|e]|o k IH|k IH]; intros n s; cbn; [apply H|reflexivity| |apply IH].
    destruct n as [|n]; [reflexivity|]. destruct (step o s) as [s' [u|e]]; [apply IH|reflexivity].
  Qed.
  Lemma andthen_assoc (p q : P unit) (r : P A) : peq (andthen (andthen p q) r) (andthen p (andthen q r)).
  Proof.
    unfold peq. induction p as [[u|e]|o k IH|k IH]; intros n s; cbn; [reflexivity|reflexivity| |apply IH].
    destruct n as [|n]; [reflexivity|]. destruct (step o s) as [s' [u|e]]; [apply IH|reflexivity].
  Qed.
End ProgLemmas2.

Lemma each_app {St Op A B} (step : Op -> St -> St * res unit) (f : B -> prog St Op unit) (l1 l2 : list B) (q : prog St Op A) :
  peq step (andthen (each f (l1 ++ l2)) q) (andthen (each f l1) (andthen (each f l2) q)).
Proof.
  induction l1 as [|b l1 IH]; [intros n s; reflexivity|]. intros n s.
  change (run step (andthen (andthen (f b) (each f (l1 ++ l2))) q) n s = run step (andthen (andthen (f b) (each f l1)) (andthen (each f l2) q)) n s).
  rewrite (andthen_assoc step (f b) (each f (l1 ++ l2)) q n s). rewrite (andthen_assoc step (f b) (each f l1) _ n s).
  apply andthen_cong. exact IH.
Qed.
Lemma peq_exec' {St Op B} (step : Op -> St -> St * res unit) (p q : prog St Op B) s : peq step p q -> exec step p s = exec step q s.
Proof. intros H. apply (peq_exec step p q). exact H. Qed.
Lemma peq_crash {St Op B} (step : Op -> St -> St * res unit) (p q : prog St Op B) n s : peq step p q -> crash step p n s = crash step q n s.
Proof. intros H. unfold crash. rewrite H. reflexivity. Qed.

(** Properties every operation has. *)
Fixpoint ops_in {St Op A} (Q : Op -> Prop) (p : prog St Op A) : Prop :=
  match p with Done _ => True | Do o k => Q o /\ ops_in Q k | Look k => forall s, ops_in Q (k s) end.
Lemma ops_in_andthen {St Op A} (Q : Op -> Prop) (p : prog St Op unit) (q : prog St Op A) : ops_in Q p -> ops_in Q q -> ops_in Q (andthen p q).
Proof.
  intros Hp Hq. induction p as [[u|e]|o k IH|k IH]; cbn in *; [exact Hq|exact I|split; [apply Hp|apply IH, Hp]|].
  intros s. apply IH, Hp.
Qed.
Lemma ops_in_inv {St Op A} (step : Op -> St -> St * res unit) (Q : Op -> Prop) (R : St -> Prop) (p : prog St Op A) :
  (forall o s, Q o -> R s -> R (fst (step o s))) -> ops_in Q p -> forall n s, R s -> R (crash step p n s).
Proof.
  intros H. unfold crash. induction p as [r|o k IH|k IH]; intros Hq n s Hs; cbn in *; [exact Hs| |apply IH; [apply Hq|exact Hs]].
  destruct n as [|n]; [exact Hs|]. specialize (H o s (proj1 Hq) Hs). destruct (step o s) as [s' [u|e]]; cbn in H |- *; [|exact H].
  apply IH; [apply Hq|exact H].
Qed.

(** ** Dictionaries *)
Section DictMore.
  Context {Ky V : Type} (eqb : Ky -> Ky -> bool) (eqb_spec : forall a b, reflect (a = b) (eqb a b)).
  Lemma dset_twice (d : dict Ky V) k v w : dset eqb (dset eqb d k v) k w = dset eqb d k w.
  Proof.
    induction d as [|[k' v'] d IH]; cbn; [rewrite (eqb_refl' _ eqb_spec); reflexivity|].
    destruct (eqb k' k) eqn:E; cbn; rewrite E; [reflexivity|]. rewrite IH. reflexivity.
  Qed.
  Lemma dset_same (d : dict Ky V) k v : dget eqb d k = Some v -> dset eqb d k v = d.
  Proof.
    induction d as [|[k' v'] d IH]; cbn; [discriminate|]. destruct (eqb k' k) eqn:E.
    - intros [= ->]. reflexivity.
    - intros H. rewrite IH by exact H. reflexivity.
  Qed.
End DictMore.

Section StoreLemmas.
  Context {V : Type}.
  Implicit Types d : dict string V.
  Lemma del_none k d : ~ In k (dkeys d) -> store_del k d = d.
  Proof.
    induction d as [|[k' v'] d IH]; intros N; [reflexivity|]. cbn. destruct (String.eqb_spec k' k) as [->|Nk]; [exfalso; apply N; left; reflexivity|].
    cbn. fold (store_del k d). rewrite IH; [reflexivity|]. intros H. apply N. right. exact H.
  Qed.
  Lemma del_not_in k d : ~ In k (dkeys (store_del k d)).
  Proof.
    unfold dkeys, store_del. intros H. apply in_map_iff in H. destruct H as ([k' v'] & E & H). cbn in E. subst k'. apply filter_In in H.
    destruct H as [_ H]. cbn in H. rewrite String.eqb_refl in H. discriminate H.
  Qed.
  Lemma del_ins k v d : ~ In k (dkeys d) -> store_del k (store_ins k v d) = d.
  Proof.
    induction d as [|[k' v'] d IH]; intros N; cbn; [rewrite String.eqb_refl; reflexivity|].
    assert (Nk : k' <> k) by (intros ->; apply N; left; reflexivity).
    assert (Nd : ~ In k (dkeys d)) by (intros H; apply N; right; exact H).
    destruct (String.leb k k'); cbn; [rewrite String.eqb_refl; cbn|].
    - destruct (String.eqb_spec k' k) as [|_]; [contradiction|]. cbn. fold (store_del k d). rewrite del_none by exact Nd. reflexivity.
    - destruct (String.eqb_spec k' k) as [|_]; [contradiction|]. cbn. fold (store_del k (store_ins k v d)). rewrite IH by exact Nd. reflexivity.
  Qed.
  Lemma set_ins k v w d : ~ In k (dkeys d) -> dset String.eqb (store_ins k v d) k w = store_ins k w d.
  Proof.
    induction d as [|[k' v'] d IH]; intros N; cbn; [rewrite String.eqb_refl; reflexivity|].
    assert (Nk : k' <> k) by (intros ->; apply N; left; reflexivity).
    assert (Nd : ~ In k (dkeys d)) by (intros H; apply N; right; exact H).
    destruct (String.leb k k'); cbn; [rewrite String.eqb_refl; reflexivity|].
    destruct (String.eqb_spec k' k) as [|_]; [contradiction|]. rewrite IH by exact Nd. reflexivity.
  Qed.
  Lemma mem_ins k v d : dmem String.eqb (store_ins k v d) k = true.
  Proof.
    unfold dmem. induction d as [|[k' v'] d IH]; cbn; [rewrite String.eqb_refl; reflexivity|].
    destruct (String.leb k k'); cbn; [rewrite String.eqb_refl; reflexivity|]. destruct (String.eqb k' k); [reflexivity|exact IH].
  Qed.
  Lemma mem_false k d : dmem String.eqb d k = false <-> ~ In k (dkeys d).
  Proof.
    unfold dmem. rewrite <- (dget_None _ String.eqb_spec). destruct (dget String.eqb d k); split; congruence.
  Qed.
End StoreLemmas.
