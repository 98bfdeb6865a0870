(** C129: the directory of configurations. *)
From Verif Require Import Base SortLib StrLib FrameModel NameModel CfgTreeModel.
From Verif Require WsLemmas.
From Coq Require Import Permutation.
Open Scope list_scope.

(** ** Reading *)
Definition listed : list string := ["fcfg"; "fish_cfg"; "cl_cfg"]%string.
Definition json (f : string) : Prop := exists a, f = (a ++ ".json")%string.
(** [v] is what is to be read of the subdirectory [n]. *)
Definition content_of (n : string) (fs : dict string string) (v : entry) : Prop :=
  (In n listed /\ exists l, v = Many l /\ (forall s f, In (s, f) l <-> s = n /\ In f (dkeys fs) /\ json f)) \/
  (~ In n listed /\ exists f t r, fs = (f, t) :: r /\ v = One n f).
Lemma listed_iff n : smem n ["fcfg"; "fish_cfg"; "cl_cfg"]%string = true <-> In n listed.
Proof. unfold smem. rewrite existsb_exists. split; [intros (x & I & E); apply String.eqb_eq in E; subst; exact I|intros I; exists n; split; [exact I|apply String.eqb_refl]]. Qed.
Lemma subdir_ok n fs v : read_subdir n fs = Ok v -> content_of n fs v.
Proof.
  unfold read_subdir. destruct (smem n _) eqn:E.
  - apply listed_iff in E. intros H. injection H as <-. left. split; [exact E|]. eexists. split; [reflexivity|]. intros s f. rewrite in_map_iff. split.
    + intros (x & X & I). injection X as <- <-. apply filter_In in I. destruct I as [I J]. split; [reflexivity|]. split; [exact I|apply WsLemmas.ends_iff, J].
    + intros (-> & I & J). exists f. split; [reflexivity|]. apply filter_In. split; [exact I|apply WsLemmas.ends_iff, J].
  - destruct fs as [|[f t] r]; cbn [dkeys map fst]; [discriminate|]. intros H. injection H as <-. right. split; [intros I; apply listed_iff in I; congruence|]. exists f, t, r. split; reflexivity.
Qed.
Lemma subdir_err n fs : ~ In n listed -> fs = [] -> read_subdir n fs = Err EIndexError.
Proof. intros N ->. unfold read_subdir. destruct (smem n _) eqn:E; [apply listed_iff in E; contradiction|reflexivity]. Qed.
Lemma subdir_total n fs : In n listed \/ fs <> [] -> exists v, read_subdir n fs = Ok v.
Proof.
  intros H. unfold read_subdir. destruct (smem n _) eqn:E; [eexists; reflexivity|]. destruct H as [H|H]; [apply listed_iff in H; congruence|]. destruct fs as [|[f t] r]; [congruence|]. eexists. reflexivity.
Qed.
Lemma subdirs_spec : forall l acc c, NoDup (dkeys l) -> read_subdirs l acc = Ok c ->
  (forall n fs, In (n, fs) l -> exists v, read_subdir n fs = Ok v /\ dget String.eqb c n = Some v) /\ (forall n, ~ In n (dkeys l) -> dget String.eqb c n = dget String.eqb acc n).
Proof.
  induction l as [|[m gs] l IH]; intros acc c N E; cbn [read_subdirs] in E; [injection E as <-; split; [intros n fs []|reflexivity]|].
  destruct (read_subdir m gs) as [v|] eqn:V; [|discriminate]. cbn [rbind] in E. cbn [dkeys map fst] in N. inversion N as [|? ? N1 N2]; subst. destruct (IH _ _ N2 E) as [A B]. split.
  - intros n fs [H|H]; [|exact (A n fs H)]. injection H as <- <-. exists v. split; [exact V|]. rewrite (B m N1). apply (dget_dset_same _ String.eqb_spec).
  - intros n Hn. cbn [dkeys map fst] in Hn. rewrite B by (intros J; apply Hn; right; exact J). apply (dget_dset_other _ String.eqb_spec). intros ->. apply Hn. left. reflexivity.
Qed.
Lemma subdirs_total : forall l acc, (forall n fs, In (n, fs) l -> In n listed \/ fs <> []) -> exists c, read_subdirs l acc = Ok c.
Proof.
  induction l as [|[m gs] l IH]; intros acc H; cbn [read_subdirs]; [eexists; reflexivity|]. destruct (subdir_total m gs) as [v ->]; [apply H; left; reflexivity|]. cbn [rbind]. apply IH. intros n fs I. apply (H n fs). right. exact I.
Qed.
Lemma subdirs_err : forall l acc n, In (n, []) l -> ~ In n listed -> read_subdirs l acc = Err EIndexError.
Proof.
  induction l as [|[m gs] l IH]; intros acc n I N; [destruct I|]. cbn [read_subdirs]. destruct (in_dec string_dec m listed) as [L|L]; [|destruct gs as [|g gs]].
  - destruct I as [I|I]; [injection I as -> ->; contradiction|]. destruct (subdir_total m gs (or_introl L)) as [v ->]. cbn [rbind]. exact (IH _ n I N).
  - rewrite subdir_err by (assumption || reflexivity). reflexivity.
  - destruct I as [I|I]; [discriminate|]. destruct (subdir_total m (g :: gs)) as [v ->]; [right; discriminate|]. cbn [rbind]. exact (IH _ n I N).
Qed.

(** Every subdirectory is read: all its JSON files for forecasts, Fisher matrices
    and spectra, else its first file; the external directories are those of the file. *)
Theorem C129_read b d c : NoDup (dkeys (subdirs d)) -> get_configs b d = Ok c ->
  b = true /\ (exists m, ext_file d = Some m /\ dget String.eqb c "ext_dirs"%string = Some (Ext m)) /\
  (forall n fs, In (n, fs) (subdirs d) -> n <> "ext_dirs"%string -> exists v, dget String.eqb c n = Some v /\ content_of n fs v) /\
  (forall n, ~ In n (dkeys (subdirs d)) -> n <> "ext_dirs"%string -> dget String.eqb c n = None).
Proof.
  intros N. unfold get_configs. destruct (read_subdirs (subdirs d) []) as [a|] eqn:R; [|discriminate]. cbn [rbind]. destruct b; [|discriminate]. destruct (ext_file d) as [m|]; [|discriminate]. intros H. injection H as <-.
  destruct (subdirs_spec _ _ _ N R) as [A B]. split; [reflexivity|]. split; [exists m; split; [reflexivity|apply (dget_dset_same _ String.eqb_spec)]|]. split.
  - intros n fs I Hn. destruct (A n fs I) as (v & V & G). exists v. split; [|apply subdir_ok, V]. rewrite (dget_dset_other _ String.eqb_spec) by congruence. exact G.
  - intros n Hn E. rewrite (dget_dset_other _ String.eqb_spec) by congruence. rewrite (B n Hn). reflexivity.
Qed.
(** It succeeds exactly if the directory is a path, the file is there and no other
    subdirectory is empty. *)
Theorem C129_readable b d : (exists c, get_configs b d = Ok c) <-> b = true /\ ext_file d <> None /\ forall n fs, In (n, fs) (subdirs d) -> In n listed \/ fs <> [].
Proof.
  unfold get_configs. split.
  - intros [c H]. destruct (read_subdirs (subdirs d) []) as [a|] eqn:R; [|discriminate]. cbn [rbind] in H. destruct b; [|discriminate]. destruct (ext_file d); [|discriminate]. split; [reflexivity|]. split; [discriminate|].
    intros n fs I. destruct (in_dec string_dec n listed) as [L|L]; [left; exact L|]. right. intros ->. rewrite (subdirs_err _ _ n I L) in R. discriminate.
  - intros (-> & E & H). destruct (subdirs_total (subdirs d) [] H) as [a ->]. cbn [rbind]. destruct (ext_file d); [eexists; reflexivity|congruence].
Qed.
(** The directory may not be given as a text, although its type says so. *)
Theorem C129_text_refuted d c : get_configs false d <> Ok c.
Proof. unfold get_configs. destruct (read_subdirs _ _); discriminate. Qed.
(** Any empty subdirectory of the others is an IndexError. *)
Theorem C129_empty b d n : In (n, []) (subdirs d) -> ~ In n listed -> get_configs b d = Err EIndexError.
Proof. intros I N. unfold get_configs. rewrite (subdirs_err _ _ n I N). reflexivity. Qed.

(** ** Making *)
Definition names : list string := ["fcfg"; "pmm_cfg"; "cl_cfg"; "der_cfg"; "fish_cfg"; "res_cfg"]%string.
Definition exists_if_given (g : given) : Prop := forall f, g <> Some (f, None).
Definition file_in (d : cfg_dir) (n f t : string) : Prop := exists fs, dget String.eqb (subdirs d) n = Some fs /\ dget String.eqb fs f = Some t.
Definition in_subs (s : dict string (dict string string)) (n f t : string) : Prop := exists fs, dget String.eqb s n = Some fs /\ dget String.eqb fs f = Some t.

Lemma keys_set {V} (d : dict string V) k v m : In m (dkeys (dset String.eqb d k v)) <-> In m (dkeys d) \/ m = k.
Proof.
  rewrite (dkeys_dset _ String.eqb_spec). unfold dmem. destruct (dget String.eqb d k) as [x|] eqn:G.
  - split; [tauto|]. intros [H| ->]; [exact H|]. apply (in_map fst _ _ (dget_In _ String.eqb_spec _ _ G)).
  - rewrite in_app_iff. cbn [In]. intuition congruence.
Qed.
Lemma add_one s n g s' : add_config s n g = (s', Ok tt) -> exists_if_given g /\ (forall m, In m (dkeys s') <-> In m (dkeys s) \/ m = n) /\
  (forall m f t, in_subs s' m f t <-> (m = n /\ g = Some (f, Some t)) \/ (in_subs s m f t /\ ~ (m = n /\ exists t', g = Some (f, Some t')))).
Proof.
  unfold add_config. set (s1 := if dmem String.eqb s n then s else dset String.eqb s n []).
  assert (K1 : forall m, In m (dkeys s1) <-> In m (dkeys s) \/ m = n).
  { intros m. unfold s1, dmem. destruct (dget String.eqb s n) as [d|] eqn:G; [|apply keys_set].
    split; [tauto|]. intros [H| ->]; [exact H|]. apply (in_map fst _ _ (dget_In _ String.eqb_spec _ _ G)). }
  assert (F1 : forall m f t, in_subs s1 m f t <-> in_subs s m f t).
  { intros m f t. unfold in_subs, s1, dmem. destruct (dget String.eqb s n) as [d|] eqn:G; [tauto|]. destruct (string_dec m n) as [->|Nm].
    - rewrite (dget_dset_same _ String.eqb_spec), G. split; intros (fs & E & H); [injection E as <-; discriminate|discriminate].
    - rewrite (dget_dset_other _ String.eqb_spec) by congruence. tauto. }
  assert (Gn : exists d, dget String.eqb s1 n = Some d). { destruct (dget String.eqb s1 n) as [d|] eqn:G; [exists d; reflexivity|]. apply (dget_None _ String.eqb_spec) in G. elim G. apply K1. right. reflexivity. }
  destruct g as [[f0 [t0|]]|].
  - intros H. injection H as <-. split; [intros f E; discriminate|]. destruct Gn as [d Gn]. rewrite Gn. split.
    + intros m. rewrite keys_set, K1. tauto.
    + intros m f t. rewrite <- F1. unfold in_subs at 1. destruct (string_dec m n) as [->|Nm].
      * rewrite (dget_dset_same _ String.eqb_spec). destruct (string_dec f f0) as [->|Nf].
        -- split; [intros (fs & E & H); injection E as <-; rewrite (dget_dset_same _ String.eqb_spec) in H; injection H as <-; left; split; reflexivity|]. intros [[_ H]|[_ H]]; [injection H as <-; eexists; split; [reflexivity|apply (dget_dset_same _ String.eqb_spec)]|]. elim H. split; [reflexivity|]. exists t0. reflexivity.
        -- split.
           ++ intros (fs & E & H). injection E as <-. rewrite (dget_dset_other _ String.eqb_spec) in H by congruence. right. split; [exists d; split; [exact Gn|exact H]|]. intros (_ & t' & E). congruence.
           ++ intros [[_ H]|[(fs & E & H) _]]; [congruence|]. rewrite Gn in E. injection E as <-. eexists. split; [reflexivity|]. rewrite (dget_dset_other _ String.eqb_spec) by congruence. exact H.
      * rewrite (dget_dset_other _ String.eqb_spec) by congruence. unfold in_subs. split; [intros H; right; split; [exact H|intros [E _]; contradiction]|intros [[E _]|[H _]]; [contradiction|exact H]].
  - discriminate.
  - intros H. injection H as <-. split; [intros f E; discriminate|]. split; [exact K1|]. intros m f t. rewrite F1. split; [intros H; right; split; [exact H|intros (_ & t' & E); discriminate]|intros [[_ E]|[H _]]; [discriminate|exact H]].
Qed.
Lemma add_err s n g : (exists s', add_config s n g = (s', Ok tt)) \/ (exists f s', g = Some (f, None) /\ add_config s n g = (s', Err EFileNotFound)).
Proof. unfold add_config. destruct g as [[f [t|]]|]; [left; eexists; reflexivity|right; do 2 eexists; split; reflexivity|left; eexists; reflexivity]. Qed.
Lemma adds_spec : forall l s s', NoDup (map fst l) -> add_configs s l = (s', Ok tt) ->
  (forall n g, In (n, g) l -> exists_if_given g) /\ (forall m, In m (dkeys s') <-> In m (dkeys s) \/ In m (map fst l)) /\
  (forall m f t, in_subs s' m f t <-> In (m, Some (f, Some t)) l \/ (in_subs s m f t /\ forall t', ~ In (m, Some (f, Some t')) l)).
Proof.
  induction l as [|[n g] l IH]; intros s s' N E; cbn [add_configs] in E.
  - injection E as <-. split; [intros n g []|]. split; [intros m; cbn; tauto|]. intros m f t. cbn. split; [intros H; right; split; [exact H|tauto]|tauto].
  - destruct (add_config s n g) as [s1 [[]|e]] eqn:A; [|discriminate]. destruct (add_one _ _ _ _ A) as (G & K1 & F1). cbn [map fst] in N. inversion N as [|? ? N1 N2]; subst. destruct (IH _ _ N2 E) as (Gs & K2 & F2). split; [|split].
    + intros m h [H|H]; [injection H as <- <-; exact G|exact (Gs m h H)].
    + intros m. rewrite K2, K1. cbn [map fst In]. intuition congruence.
    + assert (Nn : forall h, ~ In (n, h) l) by (intros h J; apply N1; apply (in_map fst _ _ J)).
      intros m f t. rewrite F2, F1. cbn [In]. split.
      * intros [H|[[[-> ->]|[H Hn]] Hl]]; [left; right; exact H|left; left; reflexivity|]. right. split; [exact H|]. intros t' [C|C]; [|exact (Hl t' C)]. injection C as <- ->. apply Hn. split; [reflexivity|]. exists t'. reflexivity.
      * intros [[H|H]|[H Hl]]; [injection H as <- ->; right; split; [left; split; reflexivity|intros t'; apply Nn]|left; exact H|]. right. split; [right; split; [exact H|]|intros t' C; apply (Hl t'); right; exact C]. intros (-> & t' & ->). apply (Hl t'). left. reflexivity.
Qed.
Lemma adds_err : forall l s, (exists s', add_configs s l = (s', Ok tt)) \/ (exists n f s', In (n, Some (f, None)) l /\ add_configs s l = (s', Err EFileNotFound)).
Proof.
  induction l as [|[n g] l IH]; intros s; cbn [add_configs]; [left; eexists; reflexivity|]. destruct (add_err s n g) as [[s1 ->]|(f & s1 & -> & ->)].
  - destruct (IH s1) as [H|(m & f & s' & I & H)]; [left; exact H|right; exists m, f, s'; split; [right; exact I|exact H]].
  - right. exists n, f, s1. split; [left; reflexivity|reflexivity].
Qed.
Definition files_given (pmm cl der fish results : given) : list (string * given) :=
  [("fcfg", None); ("pmm_cfg", pmm); ("cl_cfg", cl); ("der_cfg", der); ("fish_cfg", fish); ("res_cfg", results)]%string.
Lemma names_nodup pmm cl der fish results : NoDup (map fst (files_given pmm cl der fish results)).
Proof. repeat constructor; cbn; intuition discriminate. Qed.

(** It is made if the files given exist: then each is in its subdirectory, what
    was there before is kept, and no external directory is named. *)
Theorem C129_made old pmm cl der fish results d : create_tree old pmm cl der fish results = (d, Ok tt) ->
  (forall n g, In (n, g) (files_given pmm cl der fish results) -> exists_if_given g) /\
  ext_file d = Some [("pmm_dir", None); ("cl_dir", None); ("der_dir", None)]%string /\
  (forall n, In n (dkeys (subdirs d)) <-> In n names \/ exists o, old = Some o /\ In n (dkeys (subdirs o))) /\
  (forall n f t, file_in d n f t <-> In (n, Some (f, Some t)) (files_given pmm cl der fish results) \/
     ((exists o, old = Some o /\ file_in o n f t) /\ forall t', ~ In (n, Some (f, Some t')) (files_given pmm cl der fish results))).
Proof.
  unfold create_tree. fold (files_given pmm cl der fish results). destruct (add_configs _ (files_given pmm cl der fish results)) as [s [[]|e]] eqn:A; [|discriminate]. intros H. injection H as <-.
  destruct (adds_spec _ _ _ (names_nodup _ _ _ _ _) A) as (G & Ks & Fs). split; [exact G|]. split; [reflexivity|]. cbn [subdirs]. split.
  - intros n. rewrite Ks. change (map fst (files_given pmm cl der fish results)) with names. destruct old as [o|]; [split; [intros [H|H]; [right; exists o; split; [reflexivity|exact H]|left; exact H]|intros [H|(o' & E & H)]; [right; exact H|injection E as <-; left; exact H]]|].
    cbn. split; [intros [[]|H]; left; exact H|intros [H|(o' & E & _)]; [right; exact H|discriminate]].
  - intros n f t. unfold file_in. cbn [subdirs]. fold (in_subs s n f t). rewrite Fs. destruct old as [o|].
    + split; (intros [H|[H H']]; [left; exact H|right; split; [|exact H']]); [exists o; split; [reflexivity|exact H]|destruct H as (o' & E & H); injection E as <-; exact H].
    + split; (intros [H|[H H']]; [left; exact H|]); [destruct H as (fs & E & _); discriminate|destruct H as (o' & E & _); discriminate].
Qed.
(** Else it is a FileNotFoundError. *)
Theorem C129_not_made old pmm cl der fish results : (exists d, create_tree old pmm cl der fish results = (d, Ok tt)) \/
  (snd (create_tree old pmm cl der fish results) = Err EFileNotFound /\ exists n f, In (n, Some (f, None)) (files_given pmm cl der fish results)).
Proof.
  unfold create_tree. fold (files_given pmm cl der fish results). match goal with |- context [add_configs ?s0 _] => destruct (adds_err (files_given pmm cl der fish results) s0) as [[s ->]|(n & f & s & I & ->)] end; [left; eexists; reflexivity|right; split; [reflexivity|exists n, f; exact I]].
Qed.

(** ** Making and reading *)
(** A listing of a directory just made, in any order of the subdirectories. *)
Definition lists (d d' : cfg_dir) : Prop := Permutation (subdirs d) (subdirs d') /\ ext_file d = ext_file d'.
Lemma fresh p tp c tc e te f tf r tr : create_tree None (Some (p, Some tp)) (Some (c, Some tc)) (Some (e, Some te)) (Some (f, Some tf)) (Some (r, Some tr)) =
  (mkCfg [("fcfg", []); ("pmm_cfg", [(p, tp)]); ("cl_cfg", [(c, tc)]); ("der_cfg", [(e, te)]); ("fish_cfg", [(f, tf)]); ("res_cfg", [(r, tr)])]%string (Some [("pmm_dir", None); ("cl_dir", None); ("der_dir", None)]%string), Ok tt).
Proof. vm_compute. reflexivity. Qed.
(** All five given: they are read again from a new directory. *)
Theorem C129_again p tp c tc e te f tf r tr d d' : create_tree None (Some (p, Some tp)) (Some (c, Some tc)) (Some (e, Some te)) (Some (f, Some tf)) (Some (r, Some tr)) = (d, Ok tt) -> lists d d' -> json c -> json f ->
  exists g, get_configs true d' = Ok g /\ dget String.eqb g "pmm_cfg"%string = Some (One "pmm_cfg" p) /\ dget String.eqb g "cl_cfg"%string = Some (Many [("cl_cfg"%string, c)]) /\ dget String.eqb g "der_cfg"%string = Some (One "der_cfg" e) /\
    dget String.eqb g "fish_cfg"%string = Some (Many [("fish_cfg"%string, f)]) /\ dget String.eqb g "res_cfg"%string = Some (One "res_cfg" r) /\ dget String.eqb g "fcfg"%string = Some (Many []) /\
    dget String.eqb g "ext_dirs"%string = Some (Ext [("pmm_dir", None); ("cl_dir", None); ("der_dir", None)]%string).
Proof.
  rewrite fresh. intros H [P X] Jc Jf. injection H as <-. cbn [subdirs ext_file] in P, X.
  assert (N : NoDup (dkeys (subdirs d'))). { unfold dkeys. eapply Permutation_NoDup; [apply Permutation_map, P|]. cbn. repeat constructor; cbn; intuition discriminate. }
  unfold get_configs. rewrite <- X. destruct (subdirs_total (subdirs d') []) as [a R].
  { intros n fs I. apply (Permutation_in _ (Permutation_sym P)) in I. cbn in I. destruct I as [I|[I|[I|[I|[I|[I|[]]]]]]]; injection I as <- <-; first [right; discriminate|left; cbn; tauto]. }
  rewrite R. cbn [rbind]. eexists. split; [reflexivity|]. destruct (subdirs_spec _ _ _ N R) as [A _].
  assert (Q : forall n fs v, n <> "ext_dirs"%string -> In (n, fs) [("fcfg", []); ("pmm_cfg", [(p, tp)]); ("cl_cfg", [(c, tc)]); ("der_cfg", [(e, te)]); ("fish_cfg", [(f, tf)]); ("res_cfg", [(r, tr)])]%string -> read_subdir n fs = Ok v ->
    dget String.eqb (dset String.eqb a "ext_dirs"%string (Ext [("pmm_dir", None); ("cl_dir", None); ("der_dir", None)]%string)) n = Some v).
  { intros n fs v Hn I V. apply (Permutation_in _ P) in I. destruct (A n fs I) as (v' & V' & G). rewrite (dget_dset_other _ String.eqb_spec) by congruence. congruence. }
  apply WsLemmas.ends_iff in Jc. apply WsLemmas.ends_iff in Jf.
  repeat split; try (apply (dget_dset_same _ String.eqb_spec)); (eapply Q; [discriminate|cbn; tauto|]); unfold read_subdir; cbn [smem existsb String.eqb Ascii.eqb Bool.eqb orb dkeys map fst filter]; rewrite ?Jc, ?Jf; reflexivity.
Qed.
(** Files that are optional on the command line are not: without the one of the
    power spectra, of derivatives or of results the directory cannot be read. *)
Theorem C129_optional_refuted b pmm cl der fish results d d' : create_tree None pmm cl der fish results = (d, Ok tt) -> lists d d' -> pmm = None \/ der = None \/ results = None -> get_configs b d' = Err EIndexError.
Proof.
  intros E [P _] H. destruct (C129_made _ _ _ _ _ _ _ E) as (_ & _ & Ks & Fs).
  assert (Z : forall n, In n names -> (forall f t, ~ In (n, Some (f, Some t)) (files_given pmm cl der fish results)) -> In (n, []) (subdirs d)).
  { intros n I Nf. destruct (dget String.eqb (subdirs d) n) as [fs|] eqn:G.
    - destruct fs as [|[f t] fs]; [apply (dget_In _ String.eqb_spec), G|]. exfalso. assert (X : file_in d n f t) by (exists ((f, t) :: fs); split; [exact G|cbn [dget]; rewrite String.eqb_refl; reflexivity]).
      apply Fs in X. destruct X as [X|[(o & C & _) _]]; [exact (Nf f t X)|discriminate].
    - apply (dget_None _ String.eqb_spec) in G. elim G. apply Ks. left. exact I. }
  assert (I : exists n, In (n, []) (subdirs d) /\ ~ In n listed).
  { destruct H as [H|[H|H]]; subst; [exists "pmm_cfg"%string|exists "der_cfg"%string|exists "res_cfg"%string]; (split; [apply Z; [cbn; tauto|]|cbn; intuition discriminate]); intros f t C; cbn in C; intuition discriminate. }
  destruct I as (n & I & L). apply (C129_empty b d' n); [apply (Permutation_in _ P), I|exact L].
Qed.
(** A configuration of spectra that is not named .json is copied and never read. *)
Theorem C129_suffix_refuted p tp c tc e te f tf r tr d : create_tree None (Some (p, Some tp)) (Some (c, Some tc)) (Some (e, Some te)) (Some (f, Some tf)) (Some (r, Some tr)) = (d, Ok tt) -> ~ json c ->
  exists g, get_configs true d = Ok g /\ dget String.eqb g "cl_cfg"%string = Some (Many []) /\ file_in d "cl_cfg" c tc.
Proof.
  rewrite fresh. intros H J. injection H as <-. assert (Ec : ends ".json" c = false) by (destruct (ends ".json" c) eqn:E; [elim J; apply WsLemmas.ends_iff, E|reflexivity]).
  unfold get_configs. cbn [subdirs ext_file read_subdirs read_subdir smem existsb String.eqb Ascii.eqb Bool.eqb orb dkeys map fst filter rbind]. rewrite Ec. eexists. split; [reflexivity|]. split; [reflexivity|].
  exists [(c, tc)]. split; [reflexivity|]. cbn [dget]. rewrite String.eqb_refl. reflexivity.
Qed.
(** In a directory used before, the file of an earlier call may be read instead of
    the one given. *)
Theorem C129_stale_refuted : exists o pmm cl der fish results d g, create_tree None (Some ("old.json", Some "1")%string) cl der fish results = (o, Ok tt) /\
  create_tree (Some o) pmm cl der fish results = (d, Ok tt) /\ pmm = Some ("new.json", Some "2")%string /\ file_in d "pmm_cfg" "new.json" "2" /\
  get_configs true d = Ok g /\ dget String.eqb g "pmm_cfg"%string = Some (One "pmm_cfg" "old.json").
Proof.
  set (x := Some ("c.json", Some "3")%string). exists (fst (create_tree None (Some ("old.json", Some "1")%string) x x x x)), (Some ("new.json", Some "2")%string), x, x, x, x. do 2 eexists.
  split; [reflexivity|]. split; [vm_compute; reflexivity|]. split; [reflexivity|]. split; [eexists; split; reflexivity|]. split; vm_compute; reflexivity.
Qed.

Example C129_instance : exists d, create_tree None (Some ("p.json", Some "1")) (Some ("c.json", Some "2")) (Some ("d.json", Some "3")) (Some ("f.json", Some "4")) (Some ("r.json", Some "5")) = (d, Ok tt) /\
  exists g, get_configs true (mkCfg (rev (subdirs d)) (ext_file d)) = Ok g /\ dget String.eqb g "der_cfg"%string = Some (One "der_cfg" "d.json").
Proof.
  eexists. split; [apply fresh|]. cbn [subdirs ext_file].
  match goal with |- exists g, get_configs true ?x = _ /\ _ => destruct (C129_again _ _ _ _ _ _ _ _ _ _ _ x (fresh "p.json" "1" "c.json" "2" "d.json" "3" "f.json" "4" "r.json" "5")) as (g & G & _ & _ & D & _) end.
  - split; [apply Permutation_rev|reflexivity].
  - exists "c"%string. reflexivity.
  - exists "f"%string. reflexivity.
  - exists g. split; [exact G|exact D].
Qed.
Print Assumptions C129_read.
Print Assumptions C129_readable.
Print Assumptions C129_text_refuted.
Print Assumptions C129_empty.
Print Assumptions C129_made.
Print Assumptions C129_not_made.
Print Assumptions C129_again.
Print Assumptions C129_optional_refuted.
Print Assumptions C129_suffix_refuted.
Print Assumptions C129_stale_refuted.
