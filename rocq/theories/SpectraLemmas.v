(** Lemmas about SpectraModel. *)
From Coq Require Import Permutation.
From Verif Require Import Base SortLib StrLib FrameModel FrameLemmas FsModel ParamModel ParamFileModel KeyModel NameModel H5Model H5Lemmas H5Lemmas2 H5Lemmas3 H5Props H5Props2 H5Props3 H5Props4 H5Props5 SpectraModel.
Open Scope list_scope.

Lemma dset_added {V} (d : dict string V) k v : ~ In k (dkeys d) -> dset String.eqb d k v = d ++ [(k, v)].
Proof.
  induction d as [|[k' v'] d IH]; intros N; [reflexivity|]. cbn. destruct (String.eqb_spec k' k) as [->|E]; [exfalso; apply N; left; reflexivity|].
  rewrite IH; [reflexivity|]. intros I. apply N. right. exact I.
Qed.

Section L.
  Context {F : Type} {K : Fld F}.
  Implicit Types (h : hfile F) (p q r : path) (l : list (step F)).

  (** The operations that are done. *)
  Fixpoint done l h : list (op F) :=
    match l with
    | [] => []
    | SOp o :: rest => o :: done rest (fst (run_op o h))
    | SOnce p m :: rest => if present h p then done rest h else m ++ done rest (fst (run_ops m h))
    end.
  Lemma run_done l : forall h, run_steps l h = run_ops (done l h) h.
  Proof.
    induction l as [|[o|p m] l IH]; intros h; [reflexivity| |].
    - cbn [run_steps done run_ops]. destruct (run_op o h) as [h1 [u|e]]; [apply IH|reflexivity].
    - cbn [run_steps done]. destruct (present h p); [apply IH|]. rewrite run_app. destruct (run_ops m h) as [h1 [u|e]]; [apply IH|reflexivity].
  Qed.
  Lemma done_app l1 : forall l2 h, exists h1, done (l1 ++ l2) h = done l1 h ++ done l2 h1.
  Proof.
    induction l1 as [|[o|p m] l1 IH]; intros l2 h; [exists h; reflexivity| |].
    - cbn [app done]. destruct (IH l2 (fst (run_op o h))) as (h1 & E). exists h1. rewrite E. reflexivity.
    - cbn [app done]. destruct (present h p); [apply IH|]. destruct (IH l2 (fst (run_ops m h))) as (h1 & E). exists h1. rewrite E, app_assoc. reflexivity.
  Qed.
  Lemma done_run l1 : forall l2 h h1 u, run_ops (done l1 h) h = (h1, Ok u) -> done (l1 ++ l2) h = done l1 h ++ done l2 h1.
  Proof.
    induction l1 as [|[o|p m] l1 IH]; intros l2 h h1 u R; [injection R as ->; reflexivity| |].
    - cbn [app done] in *. apply run_ops_cons in R as [(h2 & E & R)|(e & _ & X)]; [|discriminate]. rewrite E in *. cbn [fst] in *. rewrite (IH l2 h2 h1 u R). reflexivity.
    - cbn [app done] in *. destruct (present h p); [exact (IH l2 h h1 u R)|]. rewrite run_app in R. destruct (run_ops m h) as [h2 [[]|e]] eqn:E; [|discriminate]. cbn [fst] in *.
      rewrite (IH l2 h2 h1 u R), app_assoc. reflexivity.
  Qed.
  Lemma done_all (m : list (op F)) : forall h, done (map SOp m) h = m.
  Proof. induction m as [|o m IH]; intros h; [reflexivity|]. cbn [map done]. rewrite IH. reflexivity. Qed.
  Lemma done_ops (m : list (op F)) l h : exists h1, done (map SOp m ++ l) h = m ++ done l h1.
  Proof. destruct (done_app (map SOp m) l h) as (h1 & E). exists h1. rewrite E, done_all. reflexivity. Qed.
  (** Where an operation comes from. *)
  Definition from l (o : op F) : Prop := In (SOp o) l \/ exists p m, In (SOnce p m) l /\ In o m.
  Lemma done_from l : forall h o, In o (done l h) -> from l o.
  Proof.
    induction l as [|[x|p m] l IH]; intros h o H; [destruct H| |].
    - cbn [done] in H. destruct H as [->|H]; [left; left; reflexivity|]. destruct (IH _ _ H) as [A|(p & m & A & B)]; [left; right; exact A|right; exists p, m; split; [right; exact A|exact B]].
    - cbn [done] in H. assert (G : In o (done l h) \/ In o m \/ exists h', In o (done l h')).
      { destruct (present h p); [auto|]. apply in_app_or in H as [H|H]; eauto. }
      destruct G as [G|[G|[h' G]]].
      + destruct (IH _ _ G) as [A|(p' & m' & A & B)]; [left; right; exact A|right; exists p', m'; split; [right; exact A|exact B]].
      + right. exists p, m. split; [left; reflexivity|exact G].
      + destruct (IH _ _ G) as [A|(p' & m' & A & B)]; [left; right; exact A|right; exists p', m'; split; [right; exact A|exact B]].
  Qed.
  Lemma done_ops_in l o : forall h, In (SOp o) l -> In o (done l h).
  Proof.
    induction l as [|[x|p m] l IH]; intros h H; [destruct H| |].
    - destruct H as [H|H]; [injection H as ->; left; reflexivity|right; apply IH; exact H].
    - destruct H as [H|H]; [discriminate|]. cbn [done]. destruct (present h p); [apply IH; exact H|apply in_or_app; right; apply IH; exact H].
  Qed.
  (** Done once at [p], with the same operations wherever it is asked for. *)
  Lemma done_later p l : forall h h' u, run_ops (done l h) h = (h', Ok u) -> present h p = true ->
    (forall o, In (SOp o) l -> apart p o) -> (forall q n, In (SOnce q n) l -> q = p \/ Forall (apart p) n) -> Forall (apart p) (done l h).
  Proof.
    induction l as [|[x|q n] l IH]; intros h h' u R P A B; [constructor| |].
    - cbn [done] in *. constructor; [apply A; left; reflexivity|]. apply run_ops_cons in R as [(h1 & E & R)|(e & _ & X)]; [|discriminate]. rewrite E in *. cbn [fst] in *.
      eapply IH; [exact R| |intros o I; apply A; right; exact I|intros q' n' I; apply (B q' n'); right; exact I].
      unfold present in *. destruct (hget h p) eqn:G; [|discriminate]. assert (X : hget h1 p <> None).
      { apply (kept_there [x] h h1 (Ok tt) p); [cbn [run_ops]; rewrite E; reflexivity|congruence]. }
      destruct (hget h1 p); [reflexivity|congruence].
    - cbn [done] in *. destruct (present h q) eqn:Q.
      + eapply IH; [exact R|exact P|intros o I; apply A; right; exact I|intros q' n' I; apply (B q' n'); right; exact I].
      + assert (Nq : q <> p) by congruence. destruct (B q n (or_introl eq_refl)) as [->|Bn]; [congruence|].
        rewrite run_app in R. destruct (run_ops n h) as [h1 [[]|e]] eqn:E; [|discriminate]. cbn [fst] in *. apply Forall_app. split; [exact Bn|].
        eapply IH; [exact R| |intros o I; apply A; right; exact I|intros q' n' I; apply (B q' n'); right; exact I].
        unfold present in *. destruct (hget h p) eqn:G; [|discriminate]. assert (X : hget h1 p <> None) by (apply (kept_there n h h1 _ p E); congruence). destruct (hget h1 p); [reflexivity|congruence].
  Qed.
  Lemma present_made p (m : list (op F)) h h1 u : p <> [] -> In (OOpen p) m -> run_ops m h = (h1, Ok u) -> present h1 p = true.
  Proof. intros N I R. pose proof (grp_open _ _ _ _ _ N R I) as G. unfold grp in G. unfold present. destruct (hget h1 p); [reflexivity|discriminate]. Qed.
  Lemma absent_kept p (m : list (op F)) h h1 x : run_ops m h = (h1, x) -> Forall (apart p) m -> present h p = false -> present h1 p = false.
  Proof.
    intros R A P. destruct (run_apart p m h h1 x R A) as (D & G & _). specialize (D []). specialize (G []). rewrite app_nil_r in *. unfold dat, grp, present in *.
    destruct (hget h p); [discriminate|]. destruct (hget h1 p) as [[]|]; try discriminate. reflexivity.
  Qed.
  Lemma done_once p (m : list (op F)) l : p <> [] -> In (OOpen p) m -> forall h h' u, run_ops (done l h) h = (h', Ok u) -> present h p = false ->
    (forall o, In (SOp o) l -> apart p o) -> (forall q n, In (SOnce q n) l -> (q = p /\ n = m) \/ (q <> p /\ Forall (apart p) n)) -> In (SOnce p m) l ->
    exists a b, done l h = a ++ m ++ b /\ Forall (apart p) a /\ Forall (apart p) b.
  Proof.
    intros Np Om. induction l as [|[x|q n] l IH]; intros h h' u R P A B I; [destruct I| |].
    - cbn [done] in *. destruct I as [I|I]; [discriminate|]. apply run_ops_cons in R as [(h1 & E & R)|(e & _ & X)]; [|discriminate]. rewrite E in *. cbn [fst] in *.
      destruct (IH h1 h' u R) as (a & b & Ed & Fa & Fb).
      + eapply (absent_kept p [x]); [cbn [run_ops]; rewrite E; reflexivity| |exact P]. constructor; [apply A; left; reflexivity|constructor].
      + intros o J. apply A. right. exact J.
      + intros q n J. apply B. right. exact J.
      + exact I.
      + exists (x :: a), b. split; [rewrite Ed; reflexivity|]. split; [constructor; [apply A; left; reflexivity|exact Fa]|exact Fb].
    - cbn [done] in *. destruct (B q n (or_introl eq_refl)) as [[-> ->]|[Nq Bn]].
      + rewrite P in *. rewrite run_app in R. destruct (run_ops m h) as [h1 [[]|e]] eqn:E; [|discriminate]. cbn [fst] in *.
        exists [], (done l h1). split; [reflexivity|]. split; [constructor|]. eapply (done_later p); [exact R|eapply present_made; eassumption|intros o J; apply A; right; exact J|].
        intros q n J. destruct (B q n (or_intror J)) as [[-> _]|[_ Q]]; auto.
      + destruct I as [I|I]; [injection I as -> ->; congruence|]. destruct (present h q).
        * apply (IH h h' u R P); [intros o J; apply A; right; exact J|intros q' n' J; apply B; right; exact J|exact I].
        * rewrite run_app in R. destruct (run_ops n h) as [h1 [[]|e]] eqn:E; [|discriminate]. cbn [fst] in *.
          destruct (IH h1 h' u R) as (a & b & Ed & Fa & Fb); [exact (absent_kept p n h h1 _ E Bn P)|intros o J; apply A; right; exact J|intros q' n' J; apply B; right; exact J|exact I|].
          exists (n ++ a), b. split; [rewrite Ed, app_assoc; reflexivity|]. split; [apply Forall_app; auto|exact Fb].
  Qed.
End L.
