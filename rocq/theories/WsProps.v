(** Property C92: what a workspace finds is what the tasks wrote.  Also the
    exact names of the job directories (C43). *)
From Coq Require Import Permutation.
From Verif Require Import Base SortLib StrLib FrameModel NameModel NameLemmas ParamLemmas DensLemmas FisherLemmas5 WsModel WsLemmas.
Open Scope list_scope.
Open Scope string_scope.

(** The name of a job directory: the fiducial run has no sign, the others have
    the sign and the decimal text of the size of the step. *)
Theorem C43_name v n : jobdir_name v 0 = "dvar_" ++ v ++ "_step_0" /\
  exists t, number 0 t = S n /\ all_chars is_digit t = true /\
    jobdir_name v (Z.of_nat (S n)) = "dvar_" ++ v ++ "_step_p_" ++ t /\
    jobdir_name v (- Z.of_nat (S n)) = "dvar_" ++ v ++ "_step_m_" ++ t.
Proof.
  split; [reflexivity|]. exists (dec (S n)). split; [apply dec_number|]. split; [apply dec_digits|].
  unfold jobdir_name, step_text. rewrite (proj2 (Z.eqb_neq _ _)) by lia. rewrite (proj2 (Z.ltb_ge _ _)) by lia.
  rewrite (proj2 (Z.eqb_neq _ _)) by lia. rewrite (proj2 (Z.ltb_lt _ _)) by lia.
  replace (Z.abs_nat (Z.of_nat (S n))) with (S n) by lia. replace (Z.abs_nat (- Z.of_nat (S n))) with (S n) by lia. split; reflexivity.
Qed.
Example C43_name_instance : jobdir_name "Omm" (-12) = "dvar_Omm_step_m_12". Proof. reflexivity. Qed.

(** Every job directory was named for some parameter and some step. *)
Definition written (D : entries) : Prop := forall d fs, In (d, Some fs) D -> exists v s, alnum v /\ d = jobdir_name v s.

Section Ws.
  Context {SO : SetOrder}.

  Lemma params_of ds : (forall d, In d ds -> exists v s, alnum v /\ d = jobdir_name v s) ->
    exists l, rmapM (fun d => x <- parse_jobdir d ;; Ok (fst x)) ds = Ok l /\
      forall v, In v l <-> alnum v /\ exists s, In (jobdir_name v s) ds.
  Proof.
    induction ds as [|d ds IH]; intros H.
    - exists []. split; [reflexivity|]. intros v. split; [intros []|intros (_ & s & [])].
    - destruct (H d (or_introl eq_refl)) as (v & s & Ha & ->). destruct (parse_fst v s Ha) as (st & E).
      destruct IH as (l & El & Hl); [intros d Hd; apply H; right; exact Hd|].
      exists (v :: l). split; [cbn [rmapM]; rewrite E; cbn [rbind]; rewrite El; reflexivity|].
      intros w. cbn [In]. rewrite Hl. split.
      + intros [<-|(Hw & t & Ht)]; [split; [exact Ha|exists s; left; reflexivity]|split; [exact Hw|exists t; right; exact Ht]].
      + intros (Hw & t & [Ht|Ht]); [|right; split; [exact Hw|exists t; exact Ht]]. left.
        destruct (parse_fst w t Hw) as (st' & E'). rewrite <- Ht, E in E'. congruence.
  Qed.

  (** The parameters of the power spectra are exactly those with a directory;
      the fiducial run counts as a parameter called central. *)
  Theorem C92_power_spectra D : written D -> exists S, pmm_params D = Ok S /\ NoDup S /\
    forall v, In v S <-> alnum v /\ exists s fs, In (jobdir_name v s, Some fs) D.
  Proof.
    intros W. destruct (params_of (dirs_in D)) as (l & E & Hl).
    { intros d Hd. apply in_dirs in Hd. destruct Hd as (fs & Hd). exact (W d fs Hd). }
    exists (set_of l). unfold pmm_params. rewrite E. split; [reflexivity|]. split; [apply set_of_NoDup|].
    intros v. rewrite In_set_of, Hl. split; intros (Ha & s & H); split; try exact Ha; exists s; apply in_dirs; exact H.
  Qed.
  (** The parameters of the spectra are those with a directory whose name does
      not have the word central in it. *)
  Theorem C92_spectra D : written D -> exists S, cl_params D = Ok S /\ NoDup S /\
    forall v, In v S <-> alnum v /\ (forall a b, v <> a ++ "central" ++ b) /\ exists s fs, In (jobdir_name v s, Some fs) D.
  Proof.
    intros W. destruct (params_of (filter (fun d => negb (occurs "central" d)) (dirs_in D))) as (l & E & Hl).
    { intros d Hd. apply filter_In in Hd. destruct Hd as [Hd _]. apply in_dirs in Hd. destruct Hd as (fs & Hd). exact (W d fs Hd). }
    exists (set_of l). unfold cl_params. rewrite E. split; [reflexivity|]. split; [apply set_of_NoDup|].
    intros v. rewrite In_set_of, Hl. split.
    - intros (Ha & s & H). apply filter_In in H. destruct H as [H Hc]. split; [exact Ha|]. rewrite central_in_name in Hc.
      split; [|exists s; apply in_dirs; exact H].
      intros a b Ev. assert (O : occurs "central" v = true) by (apply occurs_iff; exists a, b; exact Ev). rewrite O in Hc. discriminate.
    - intros (Ha & Hc & s & fs & H). split; [exact Ha|]. exists s. apply filter_In. split; [apply in_dirs; exists fs; exact H|].
      rewrite central_in_name. destruct (occurs "central" v) eqn:O; [|reflexivity]. exfalso. apply occurs_iff in O. destruct O as (a & b & Ev). exact (Hc a b Ev).
  Qed.

  (** A directory that is no job directory stops the search. *)
  Lemma search_none s : (forall a b, s <> a ++ "dvar_" ++ b) -> search_jobdir s = None.
  Proof.
    induction s as [|c s IH]; intros H; [reflexivity|]. cbn [search_jobdir]. unfold match_jobdir.
    destruct (strip_prefix "dvar_" (String c s)) as [r|] eqn:E.
    - apply strip_prefix_some in E. exfalso. exact (H "" r E).
    - apply IH. intros a b X. apply (H (String c a) b). cbn [append]. f_equal. exact X.
  Qed.
  Theorem C92_foreign_directory D d fs : In (d, Some fs) D -> (forall a b, d <> a ++ "dvar_" ++ b) ->
    pmm_params D = Err EException /\ ((forall a b, d <> a ++ "central" ++ b) -> cl_params D = Err EException).
  Proof.
    intros Hd Hn.
    assert (P : parse_jobdir d = Err EException) by (unfold parse_jobdir; rewrite (search_none d Hn); reflexivity).
    assert (G : forall ds, In d ds -> rmapM (fun d => x <- parse_jobdir d ;; Ok (fst x)) ds = Err EException).
    { induction ds as [|e ds IH]; intros Hi; [destruct Hi|]. cbn [rmapM]. destruct Hi as [->|Hi]; [rewrite P; reflexivity|].
      unfold parse_jobdir at 1. destruct (search_jobdir e) as [x|]; [|reflexivity]. cbn [rbind]. rewrite (IH Hi). reflexivity. }
    assert (Hi : In d (dirs_in D)) by (apply in_dirs; exists fs; exact Hd).
    split; [unfold pmm_params; rewrite (G _ Hi); reflexivity|]. intros Hc. unfold cl_params. rewrite G; [reflexivity|].
    apply filter_In. split; [exact Hi|]. destruct (occurs "central" d) eqn:O; [|reflexivity]. exfalso. apply occurs_iff in O. destruct O as (a & b & E). exact (Hc a b E).
  Qed.

  (** The spectra of a parameter and a step: the one file cl*.h5 of their
      directory, and an error if there is none or more than one. *)
  Theorem C92_file D v s dir f : NoDup (map fst D) -> (forall d fs, In (d, Some fs) D -> NoDup fs) ->
    (get_cl_file D v s = Ok (dir, f) <->
     dir = jobdir_name v s /\ exists fs, In (dir, Some fs) D /\ In f fs /\ (exists m, f = "cl" ++ m ++ ".h5") /\
       forall g m, In g fs -> g = "cl" ++ m ++ ".h5" -> g = f).
  Proof.
    intros Hn Hf. unfold get_cl_file, cl_file. rewrite (listing_dir D (jobdir_name v s) is_cl_file Hn). split.
    - destruct (dget String.eqb D (jobdir_name v s)) as [[fs|]|] eqn:E; try discriminate. apply (dget_In _ String.eqb_spec) in E.
      destruct (filter is_cl_file fs) as [|g [|h r]] eqn:Ef; cbn [map]; try discriminate. intros X. injection X as <- <-.
      split; [reflexivity|]. exists fs. apply (filter_one _ _ _ (Hf _ _ E)) in Ef. destruct Ef as (Hi & Hg & Hu). split; [exact E|]. split; [exact Hi|].
      split; [apply is_cl_file_iff; exact Hg|]. intros h m Hh Em. apply Hu; [exact Hh|]. apply is_cl_file_iff. exists m. exact Em.
    - intros (-> & fs & Hd & Hi & Hm & Hu). rewrite (dget_NoDup_In _ String.eqb_spec _ _ _ Hn Hd).
      assert (E : filter is_cl_file fs = [f]).
      { apply (filter_one _ _ _ (Hf _ _ Hd)). split; [exact Hi|]. split; [apply is_cl_file_iff; exact Hm|].
        intros g Hg Pg. apply is_cl_file_iff in Pg. destruct Pg as (m & Em). exact (Hu g m Hg Em). }
      rewrite E. reflexivity.
  Qed.

  (** The derivatives: one file for every directory, under the directory's
      name; a directory with no or several files makes the whole search fail. *)
  Lemma der_file D v : NoDup (map fst D) -> forall x, get_der_file D v = Ok x <->
    exists fs f, In (v, Some fs) D /\ filter is_der_file fs = [f] /\ x = (v, f).
  Proof.
    intros Hn x. unfold get_der_file, file_with, derivative_dir. rewrite (listing_dir D v is_der_file Hn). split.
    - destruct (dget String.eqb D v) as [[fs|]|] eqn:E; try discriminate. apply (dget_In _ String.eqb_spec) in E.
      destruct (filter is_der_file fs) as [|g [|h r]] eqn:Ef; cbn [map]; try discriminate. intros X. injection X as <-.
      exists fs, g. tauto.
    - intros (fs & f & Hd & Ef & ->). rewrite (dget_NoDup_In _ String.eqb_spec _ _ _ Hn Hd), Ef. reflexivity.
  Qed.
  Lemma rmapM_keys {B} (g : string -> res B) l r : rmapM (fun d => f <- g d ;; Ok (d, f)) l = Ok r ->
    map fst r = l /\ forall d x, In (d, x) r -> g d = Ok x.
  Proof.
    revert r. induction l as [|d l IH]; intros r; cbn [rmapM].
    - intros E. injection E as <-. split; [reflexivity|intros ? ? []].
    - destruct (g d) as [x|e] eqn:Eg; cbn [rbind]; [|discriminate]. destruct (rmapM _ l) as [r'|e] eqn:El; cbn [rbind]; [|discriminate].
      intros E. injection E as <-. destruct (IH r' eq_refl) as [H1 H2]. cbn [map fst]. split; [rewrite H1; reflexivity|].
      intros d' x' [E|H]; [injection E as <- <-; exact Eg|exact (H2 d' x' H)].
  Qed.
  Theorem C92_derivative_files D : NoDup (map fst D) -> (forall d fs, In (d, Some fs) D -> NoDup fs) ->
    ((exists m, der_files D = Ok m) <->
     forall v fs, In (v, Some fs) D -> exists f k, f = "cl_derivatives" ++ k ++ ".h5" /\ In f fs /\
       forall g k', In g fs -> g = "cl_derivatives" ++ k' ++ ".h5" -> g = f) /\
    forall m, der_files D = Ok m -> NoDup (dkeys m) /\ (forall v, In v (dkeys m) <-> exists fs, In (v, Some fs) D) /\
      forall v x, In (v, x) m -> fst x = v /\ exists fs k, In (v, Some fs) D /\ In (snd x) fs /\ snd x = "cl_derivatives" ++ k ++ ".h5".
  Proof.
    intros Hn Hf.
    assert (Hp : forall v, In v (der_params D) <-> exists fs, In (v, Some fs) D).
    { intros v. unfold der_params. rewrite In_set_of, map_id. apply in_dirs. }
    split; [split|].
    - intros (m & E) v fs Hd. destruct (rmapM_keys _ _ _ E) as [Ek Hx].
      assert (Hv : In v (der_params D)) by (apply Hp; exists fs; exact Hd). rewrite <- Ek in Hv. apply in_map_iff in Hv. destruct Hv as ((v' & x) & Ev & Hv). cbn in Ev. subst v'.
      apply Hx, (der_file D v Hn) in Hv. destruct Hv as (fs' & f & Hd' & Ef & _).
      assert (fs' = fs) by (apply (dget_NoDup_In _ String.eqb_spec _ _ _ Hn) in Hd, Hd'; congruence). subst fs'.
      apply (filter_one _ _ _ (Hf _ _ Hd)) in Ef. destruct Ef as (Hi & Hg & Hu). apply is_der_file_iff in Hg. destruct Hg as (k & Ek').
      exists f, k. split; [exact Ek'|]. split; [exact Hi|]. intros g k' Hg Eg. apply Hu; [exact Hg|]. apply is_der_file_iff. exists k'. exact Eg.
    - intros H. unfold der_files. assert (G : forall l, (forall v, In v l -> In v (der_params D)) -> exists m, rmapM (fun d => f <- get_der_file D d ;; Ok (d, f)) l = Ok m).
      { induction l as [|v l IH]; intros Hl; [exists []; reflexivity|]. destruct (IH ltac:(intros w Hw; apply Hl; right; exact Hw)) as (m & Em).
        destruct (proj1 (Hp v) (Hl v (or_introl eq_refl))) as (fs & Hd). destruct (H v fs Hd) as (f & k & Ef & Hi & Hu).
        assert (X : get_der_file D v = Ok (v, f)).
        { apply (der_file D v Hn). exists fs, f. split; [exact Hd|]. split; [|reflexivity]. apply (filter_one _ _ _ (Hf _ _ Hd)). split; [exact Hi|].
          split; [apply is_der_file_iff; exists k; exact Ef|]. intros g Hg Pg. apply is_der_file_iff in Pg. destruct Pg as (k' & Eg). exact (Hu g k' Hg Eg). }
        exists ((v, (v, f)) :: m). cbn [rmapM]. rewrite X. cbn [rbind]. rewrite Em. reflexivity. }
      apply G. auto.
    - intros m E. destruct (rmapM_keys _ _ _ E) as [Ek Hx]. unfold dkeys. rewrite Ek. split; [apply set_of_NoDup|]. split; [exact Hp|].
      intros v x Hv. apply Hx, (der_file D v Hn) in Hv. destruct Hv as (fs & f & Hd & Ef & ->). split; [reflexivity|].
      assert (Hi : In f (filter is_der_file fs)) by (rewrite Ef; left; reflexivity). apply filter_In in Hi. destruct Hi as [Hi Hg]. apply is_der_file_iff in Hg. destruct Hg as (k & Ek').
      exists fs, k. cbn [snd]. tauto.
  Qed.
End Ws.

(** Pairs of parameters with a Fisher element. *)
Theorem C92_fisher_pairs D : (forall d fs, In (d, Some fs) D -> exists a b, alnum a /\ alnum b /\ d = a ++ "__" ++ b) ->
  exists S, fisher_pairs D = Ok S /\ NoDup S /\ forall a b, In (a, b) S <-> alnum a /\ alnum b /\ exists fs, In (a ++ "__" ++ b, Some fs) D.
Proof.
  intros W. unfold fisher_pairs.
  assert (G : forall ds, (forall d, In d ds -> exists a b, alnum a /\ alnum b /\ d = fisher_dir a b) ->
    exists l, rmapM parse_fisher_dir ds = Ok l /\ forall a b, In (a, b) l <-> alnum a /\ alnum b /\ In (fisher_dir a b) ds).
  { induction ds as [|d ds IH]; intros H.
    - exists []. split; [reflexivity|]. intros a b. cbn. tauto.
    - destruct (H d (or_introl eq_refl)) as (a & b & Ha & Hb & ->). destruct IH as (l & El & Hl); [intros d Hd; apply H; right; exact Hd|].
      exists ((a, b) :: l). cbn [rmapM]. rewrite (parse_fisher_name a b Ha Hb). cbn [rbind]. rewrite El. split; [reflexivity|].
      intros a' b'. cbn [In]. rewrite Hl. split.
      + intros [E|X]; [injection E as <- <-; tauto|tauto].
      + intros (Ha' & Hb' & [E|X]); [|tauto]. left. pose proof (parse_fisher_name a' b' Ha' Hb') as P. rewrite <- E, (parse_fisher_name a b Ha Hb) in P. congruence. }
  destruct (G (dirs_in D)) as (l & El & Hl).
  { intros d Hd. apply in_dirs in Hd. destruct Hd as (fs & Hd). exact (W d fs Hd). }
  rewrite El. cbn [rbind]. eexists. split; [reflexivity|]. split; [apply NoDup_nodup|]. intros a b. rewrite nodup_In, Hl.
  unfold fisher_dir. rewrite in_dirs. tauto.
Qed.

Lemma sz_spec a b : reflect (a = b) (sz_eqb a b).
Proof.
  unfold sz_eqb. destruct a as [v s], b as [w t]. cbn [fst snd]. destruct (String.eqb_spec v w) as [->|N]; cbn [andb].
  - destruct (Z.eqb_spec s t) as [->|N]; constructor; congruence.
  - constructor. congruence.
Qed.
(** The directories by parameter and step, for steps of one digit. *)
Theorem C92_directories D : (forall d o, In (d, o) D -> (exists r, d = "dvar_" ++ r) -> exists v s, alnum v /\ (Z.abs s <= 9)%Z /\ d = jobdir_name v s) ->
  exists m, cl_dirs D = Ok m /\ forall v s d, dget sz_eqb m (v, s) = Some d <->
    alnum v /\ v <> "central" /\ (Z.abs s <= 9)%Z /\ d = jobdir_name v s /\ exists o, In (d, o) D.
Proof.
  intros W. unfold cl_dirs. set (ds := filter (starts "dvar_") (map fst D)).
  assert (Hds : forall d, In d ds -> exists v s, alnum v /\ (Z.abs s <= 9)%Z /\ d = jobdir_name v s).
  { intros d Hd. apply filter_In in Hd. destruct Hd as [Hd Hs]. apply in_map_iff in Hd. destruct Hd as ((d' & o) & E & Hd). cbn in E. subst d'.
    apply (W d o Hd). apply starts_iff. exact Hs. }
  assert (G : forall ds m0, (forall d, In d ds -> exists v s, alnum v /\ (Z.abs s <= 9)%Z /\ d = jobdir_name v s) ->
    (forall v s d, dget sz_eqb m0 (v, s) = Some d -> d = jobdir_name v s) ->
    exists m, fold_left (fun acc d => m <- acc ;; x <- parse_jobdir d ;; Ok (if String.eqb (fst x) "central" then m else dset sz_eqb m x d)) ds (Ok m0) = Ok m /\
      forall v s d, dget sz_eqb m (v, s) = Some d <-> dget sz_eqb m0 (v, s) = Some d \/ alnum v /\ v <> "central" /\ (Z.abs s <= 9)%Z /\ d = jobdir_name v s /\ In d ds).
  { clear. induction ds as [|d ds IH]; intros m0 H H0.
    - exists m0. split; [reflexivity|]. intros v s d. cbn [In]. tauto.
    - destruct (H d (or_introl eq_refl)) as (v & s & Ha & Hs & ->). cbn [fold_left rbind]. rewrite (parse_small v s Ha) by lia. cbn [rbind fst].
      assert (H' : forall d, In d ds -> exists v s, alnum v /\ (Z.abs s <= 9)%Z /\ d = jobdir_name v s) by (intros d Hd; apply H; right; exact Hd).
      destruct (String.eqb_spec v "central") as [->|Nc].
      + destruct (IH m0 H' H0) as (m & E & Hm). exists m. split; [exact E|]. intros w t d. rewrite Hm. cbn [In]. split.
        * intros [X|X]; [left; exact X|right; tauto].
        * intros [X|(Hw & Nw & Ht & -> & [X|X])]; [left; exact X| |right; tauto].
          exfalso. apply Nw. destruct (parse_fst w t Hw) as (st & P). rewrite <- X, (parse_small "central" s Ha) in P by lia. congruence.
      + destruct (IH (dset sz_eqb m0 (v, s) (jobdir_name v s)) H') as (m & E & Hm).
        { intros w t d X. destruct (sz_spec (v, s) (w, t)) as [Q|Q].
          - injection Q as <- <-. rewrite (dget_dset_same _ sz_spec) in X. congruence.
          - rewrite (dget_dset_other _ sz_spec) in X by exact Q. exact (H0 w t d X). }
        exists m. split; [exact E|]. intros w t d. rewrite Hm. cbn [In]. destruct (sz_spec (v, s) (w, t)) as [Q|Q].
        * injection Q as <- <-. rewrite (dget_dset_same _ sz_spec). split.
          -- intros [X|X]; [right|right; tauto]. assert (d = jobdir_name v s) by congruence. subst d. tauto.
          -- intros [X|(_ & _ & _ & -> & _)]; left; [rewrite (H0 v s d X)|]; reflexivity.
        * rewrite (dget_dset_other _ sz_spec) by exact Q. split; [tauto|].
          intros [X|(Hw & Nw & Ht & -> & [X|X])]; [tauto| |tauto]. exfalso. apply Q.
          pose proof (parse_small v s Ha ltac:(lia)) as P1. pose proof (parse_small w t Hw ltac:(lia)) as P2. rewrite X, P2 in P1. congruence. }
  destruct (G ds [] Hds) as (m & E & Hm); [intros v s d X; discriminate X|]. exists m. split; [exact E|]. intros v s d. rewrite Hm. cbn [dget]. split.
  - intros [X|(Ha & Hc & Hs & -> & Hi)]; [discriminate X|]. repeat split; try assumption; try apply Ha.
    apply filter_In in Hi. destruct Hi as [Hi _]. apply in_map_iff in Hi. destruct Hi as ((d' & o) & Ed & Hi). cbn in Ed. subst d'. exists o. exact Hi.
  - intros (Ha & Hc & Hs & -> & o & Hi). right. repeat split; try assumption; try apply Ha. apply filter_In. split.
    + apply in_map_iff. exists (jobdir_name v s, o). split; [reflexivity|exact Hi].
    + apply starts_iff. eexists. reflexivity.
Qed.

(** ** Where the claim is false of the code *)
(** A parameter with the word central in its name is not found. *)
Theorem C92_central_name_refuted : exists D v s fs S, written D /\ alnum v /\ v <> "central" /\ In (jobdir_name v s, Some fs) D /\
  cl_params (SO := id_order) D = Ok S /\ ~ In v S.
Proof.
  exists [("dvar_rcentral_step_p_1", Some ["cls.h5"])], "rcentral", 1%Z, ["cls.h5"], []. split.
  - intros d fs [E|[]]. injection E as <- _. exists "rcentral", 1%Z. split; [split; [discriminate|reflexivity]|reflexivity].
  - split; [split; [discriminate|reflexivity]|]. split; [discriminate|]. split; [left; reflexivity|]. split; [reflexivity|intros []].
Qed.
(** Steps of two digits: the directories of steps 1 and 10 end up under the
    same key and only one of them is returned. *)
Theorem C92_two_digits_refuted : exists D v m, written D /\ alnum v /\ NoDup (map fst D) /\ length D = 2 /\ cl_dirs D = Ok m /\ length m = 1 /\
  dget sz_eqb m (v, 1%Z) = Some (jobdir_name v 10) /\ (exists o, In (jobdir_name v 1, o) D).
Proof.
  exists [("dvar_Omm_step_p_1", Some ["cls.h5"]); ("dvar_Omm_step_p_10", Some ["cls.h5"])], "Omm". eexists. split.
  - intros d fs [E|[E|[]]]; injection E as <- _; [exists "Omm", 1%Z|exists "Omm", 10%Z]; (split; [split; [discriminate|reflexivity]|reflexivity]).
  - split; [split; [discriminate|reflexivity]|]. split; [repeat constructor; cbn; intuition discriminate|]. split; [reflexivity|]. split; [vm_compute; reflexivity|].
    split; [reflexivity|]. split; [reflexivity|]. eexists. left. reflexivity.
Qed.

(** A run of one parameter with two steps, a log file and a backup. *)
Definition exD : entries := [("dvar_central_step_0", Some ["cls.h5"]); ("dvar_h_step_p_1", Some ["cl_1.h5"; "log.txt"]); ("run.log", None); ("dvar_h_step_m_1", Some ["cl.h5"])].
Example C92_instance : cl_params (SO := id_order) exD = Ok ["h"] /\ pmm_params (SO := id_order) exD = Ok ["central"; "h"] /\
  get_cl_file exD "h" 1 = Ok ("dvar_h_step_p_1", "cl_1.h5") /\ get_cl_file exD "h" 2 = Err EException /\
  cl_dirs exD = Ok [(("h", 1%Z), "dvar_h_step_p_1"); (("h", (-1)%Z), "dvar_h_step_m_1")] /\
  der_files (SO := id_order) [("h", Some ["cl_derivatives_1.h5"])] = Ok [("h", ("h", "cl_derivatives_1.h5"))] /\
  fisher_pairs [("h__ns", Some []); ("h__h", Some [])] = Ok [("h", "ns"); ("h", "h")].
Proof. vm_compute. repeat split; reflexivity. Qed.

Print Assumptions C43_name.
Print Assumptions C92_power_spectra.
Print Assumptions C92_spectra.
Print Assumptions C92_foreign_directory.
Print Assumptions C92_file.
Print Assumptions C92_derivative_files.
Print Assumptions C92_fisher_pairs.
Print Assumptions C92_directories.
Print Assumptions C92_central_name_refuted.
Print Assumptions C92_two_digits_refuted.
