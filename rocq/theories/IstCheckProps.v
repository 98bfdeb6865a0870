(** C127: the check of the parameters of the comparison. *)
From Verif Require Import Base SortLib FrameModel ParamModel IstModel IstCheckModel.
From Coq Require Import Qcanon.
Close Scope Qc_scope. Open Scope list_scope.

Definition eight : list string := ["Omb"; "OmDE"; "Omm"; "h"; "ns"; "sigma8"; "w0"; "wa"]%string.
Definition all_there (c : coll Qc) : Prop := forall n, In n eight -> exists p, In (n, p) (params c) /\ is_cosmo p = true.
Definition none_else (c : coll Qc) : Prop := forall n p, In (n, p) (params c) -> In n eight.
Definition hubble (c : coll Qc) : Prop := exists p, In ("h"%string, p) (params c) /\ fiducial p = Q2Qc (QArith_base.Qmake 67 100).

Lemma smem_in n l : smem n l = true <-> In n l.
Proof. unfold smem. rewrite existsb_exists. split; [intros (x & I & E); apply String.eqb_eq in E; subst; exact I|intros I; exists n; split; [exact I|apply String.eqb_refl]]. Qed.
Lemma there_iff c : forallb (fun n => smem n (dkeys (cosmo_of (params c)))) (map snd ist_map) = true <-> all_there c.
Proof.
  rewrite forallb_forall. change (map snd ist_map) with eight. unfold all_there. split; intros H n I; specialize (H n I).
  - apply smem_in in H. apply in_map_iff in H. destruct H as ([k p] & <- & H). apply filter_In in H. destruct H as [H C]. exists p. split; assumption.
  - destruct H as (p & H & C). apply smem_in. apply in_map_iff. exists (n, p). split; [reflexivity|]. apply filter_In. split; assumption.
Qed.
Lemma ours_in n : smem n (map snd ist_map) = true <-> In n eight.
Proof. apply smem_in. Qed.
Lemma none_ok d : forall keys, (forall k, In k keys -> In k eight) -> remove_others (map snd ist_map) keys d = (d, Ok tt).
Proof. induction keys as [|k keys IH]; intros H; [reflexivity|]. cbn [remove_others]. rewrite (proj2 (ours_in k)) by (apply H; left; reflexivity). apply IH. intros x I. apply H. right. exact I. Qed.
Lemma other_err d k post : forall pre, (forall x, In x pre -> In x eight) -> ~ In k eight -> remove_others (map snd ist_map) (pre ++ k :: post) d = (del_key d k, Err ERuntime).
Proof.
  induction pre as [|y pre IH]; intros H N; cbn [app remove_others].
  - destruct (smem k (map snd ist_map)) eqn:E; [apply ours_in in E; contradiction|reflexivity].
  - rewrite (proj2 (ours_in y)) by (apply H; left; reflexivity). apply IH; [|exact N]. intros x I. apply H. right. exact I.
Qed.
Lemma split_others : forall keys, (forall k, In k keys -> In k eight) \/ exists pre k post, keys = pre ++ k :: post /\ (forall x, In x pre -> In x eight) /\ ~ In k eight.
Proof.
  induction keys as [|k keys IH]; [left; intros k []|]. destruct (in_dec string_dec k eight) as [I|N]; [|right; exists [], k, keys; split; [reflexivity|split; [intros x []|exact N]]].
  destruct IH as [IH|(pre & q & post & -> & H & Nq)]; [left; intros x [<-|Ix]; [exact I|exact (IH x Ix)]|right; exists (k :: pre), q, post; split; [reflexivity|split; [intros x [<-|Ix]; [exact I|exact (H x Ix)]|exact Nq]]].
Qed.
Lemma with_same (c : coll Qc) : with_params c (params c) = c.
Proof. destruct c; reflexivity. Qed.
Lemma h_found c : NoDup (dkeys (params c)) -> all_there c -> exists p, In ("h"%string, p) (params c) /\ dget String.eqb (cosmo_of (params c)) "h"%string = Some p /\ forall q, In ("h"%string, q) (params c) -> q = p.
Proof.
  intros N A. destruct (A "h"%string) as (p & I & C); [cbn; tauto|]. exists p. split; [exact I|]. split.
  - apply (dget_NoDup_In _ String.eqb_spec); [|apply filter_In; split; [exact I|exact C]]. unfold cosmo_of, dkeys. clear -N. unfold dkeys in N. induction (params c) as [|[k v] l IH]; [constructor|]. cbn [map fst] in N. inversion N; subst. cbn [filter snd]. destruct (is_cosmo v); [|apply IH; assumption]. cbn [map fst]. constructor; [|apply IH; assumption].
    intros J. apply H1. apply in_map_iff in J. destruct J as (x & E & J). apply filter_In in J. apply in_map_iff. exists x. split; [exact E|apply J].
  - intros q Iq. pose proof (dget_NoDup_In _ String.eqb_spec _ _ _ N I) as G. pose proof (dget_NoDup_In _ String.eqb_spec _ _ _ N Iq) as G'. congruence.
Qed.
Lemma none_keys c : none_else c <-> forall k, In k (dkeys (params c)) -> In k eight.
Proof. unfold none_else, dkeys. split; [intros H k I; apply in_map_iff in I; destruct I as ([x p] & <- & I); exact (H x p I)|intros H n p I; apply H; apply (in_map fst _ _ I)]. Qed.

(** The check passes for exactly the eight cosmological parameters with h = 0.67, and
    changes nothing then. *)
Theorem C127_passes c o : NoDup (dkeys (params c)) -> check_params (Some c) = (o, Ok tt) <-> o = Some c /\ all_there c /\ none_else c /\ hubble c.
Proof.
  intros N. unfold check_params. destruct (forallb _ _) eqn:A; cbn [negb].
  - apply there_iff in A. destruct (h_found c N A) as (p & I & G & U). destruct (split_others (dkeys (params c))) as [Hn|(pre & k & post & E & Hp & Nk)].
    + rewrite none_ok by exact Hn. cbn [rbind]. rewrite G, with_same. destruct (fdec (fiducial p) (qq 67 100)) as [Eh|Nh].
      * split; [intros H; injection H as <-; split; [reflexivity|]; split; [exact A|]; split; [apply none_keys, Hn|]; exists p; split; [exact I|exact Eh]|intros (-> & _); reflexivity].
      * split; [discriminate|]. intros (_ & _ & _ & q & Iq & Eq). rewrite (U q Iq) in Eq. contradiction.
    + rewrite E, other_err by assumption. cbn [rbind]. split; [discriminate|]. intros (_ & _ & Hn & _). exfalso. apply Nk. apply (proj1 (none_keys c) Hn). rewrite E. apply in_elt.
  - split; [discriminate|]. intros (_ & B & _). apply there_iff in B. congruence.
Qed.
(** A missing one, or one that is not cosmological, is an AssertionError. *)
Theorem C127_missing c n : In n eight -> (forall p, In (n, p) (params c) -> is_cosmo p = false) -> check_params (Some c) = (Some c, Err EAssertion).
Proof.
  intros I H. unfold check_params. destruct (forallb _ _) eqn:A; [|reflexivity]. apply there_iff in A. destruct (A n I) as (p & J & C). rewrite (H p J) in C. discriminate.
Qed.
(** So is another value of h. *)
Theorem C127_other_h c p : NoDup (dkeys (params c)) -> all_there c -> none_else c -> In ("h"%string, p) (params c) -> fiducial p <> Q2Qc (QArith_base.Qmake 67 100) -> check_params (Some c) = (Some c, Err EAssertion).
Proof.
  intros N A Hn I Hp. unfold check_params. rewrite (proj2 (there_iff c) A). cbn [negb]. rewrite none_ok by (apply none_keys, Hn). cbn [rbind]. destruct (h_found c N A) as (q & _ & G & U). rewrite G, with_same. rewrite (U p I) in Hp. destruct (fdec (fiducial q) (qq 67 100)); [contradiction|reflexivity].
Qed.
(** Parameters that are not of the comparison are not removed: the first one is, and
    then the check ends with a RuntimeError. *)
Theorem C127_removal_refuted c pre k p post : params c = pre ++ (k, p) :: post -> NoDup (dkeys (params c)) -> all_there c -> (forall n q, In (n, q) pre -> In n eight) -> ~ In k eight ->
  check_params (Some c) = (Some (with_params c (pre ++ post)), Err ERuntime).
Proof.
  intros E N A Hp Nk. unfold check_params. rewrite (proj2 (there_iff c) A). cbn [negb]. rewrite E. unfold dkeys. rewrite map_app. cbn [map fst]. rewrite other_err.
  2:{ intros x I. apply in_map_iff in I. destruct I as ([y q] & <- & I). exact (Hp y q I). }
  2:{ exact Nk. }
  cbn [rbind]. f_equal. f_equal. f_equal. unfold del_key. rewrite filter_app. cbn [filter fst]. rewrite String.eqb_refl. cbn [negb]. rewrite E in N. unfold dkeys in N. rewrite map_app in N. cbn [map fst] in N.
  assert (Id : forall l : dict string (param Qc), ~ In k (map fst l) -> filter (fun kp => negb (String.eqb (fst kp) k)) l = l).
  { induction l as [|[x q] l IH]; intros Ni; [reflexivity|]. cbn [filter fst]. destruct (String.eqb_spec x k) as [->|]; [elim Ni; left; reflexivity|]. cbn [negb]. f_equal. apply IH. intros J. apply Ni. right. exact J. }
  apply NoDup_remove_2 in N. rewrite !Id; [reflexivity| |]; intros J; apply N, in_or_app; [right|left]; exact J.
Qed.
(** Without a collection there is nothing to check. *)
Theorem C127_none : check_params None = (None, Err EAttributeError).
Proof. reflexivity. Qed.

Definition ex_par (n : string) (v : Qc) : string * param Qc := (n, mkPar n v v true None (qz 1) true "" "" "").
Definition ex_eight : list (string * param Qc) := map (fun n => ex_par n (if String.eqb n "h" then qq 67 100 else qz 1)) eight.
Definition ex_coll (l : list (string * param Qc)) : coll Qc := mkColl l [] [] true.
Example C127_instance : check_params (Some (ex_coll ex_eight)) = (Some (ex_coll ex_eight), Ok tt) /\
  check_params (Some (ex_coll (ex_eight ++ [ex_par "gamma" (qz 1); ex_par "mnu" (qz 1)]))) = (Some (ex_coll (ex_eight ++ [ex_par "mnu" (qz 1)])), Err ERuntime).
Proof.
  assert (A : forall l, all_there (ex_coll (ex_eight ++ l))).
  { intros l n I. exists (snd (ex_par n (if String.eqb n "h" then qq 67 100 else qz 1))). split; [|reflexivity]. apply in_or_app. left. apply in_map_iff. exists n. split; [reflexivity|exact I]. }
  split.
  - apply C127_passes; [repeat constructor; cbn; intuition discriminate|]. split; [reflexivity|]. split; [rewrite <- (app_nil_r ex_eight); apply A|]. split.
    + intros n p I. apply in_map_iff in I. destruct I as (x & E & I). injection E as <- _. exact I.
    + exists (snd (ex_par "h" (qq 67 100))). split; [cbn; tauto|reflexivity].
  - apply (C127_removal_refuted (ex_coll (ex_eight ++ [ex_par "gamma" (qz 1); ex_par "mnu" (qz 1)])) ex_eight "gamma" (snd (ex_par "gamma" (qz 1))) [ex_par "mnu" (qz 1)]); [reflexivity| |apply A| |].
    + repeat constructor; cbn; intuition discriminate.
    + intros n q I. apply in_map_iff in I. destruct I as (x & E & I). injection E as <- _. exact I.
    + cbn. intuition discriminate.
Qed.

Print Assumptions C127_passes.
Print Assumptions C127_missing.
Print Assumptions C127_other_h.
Print Assumptions C127_removal_refuted.
Print Assumptions C127_none.
