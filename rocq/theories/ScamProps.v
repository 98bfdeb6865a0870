(** C126: spectra and derivatives of the IST comparison read from directories. *)
From Verif Require Import Base SortLib StrLib FrameModel ParamModel FsModel KeyModel NameModel NameLemmas BatchModel StemLemmas3 IstModel H5Model SpectraModel SpectraLemmas ScamModel.
From Verif Require WsLemmas CompareProps IstProps2 ReportProps SpectraProps2.
From Coq Require Import Qcanon.
Open Scope list_scope.

Lemma var_spec x y : reflect (x = y) (var_eqb x y).
Proof.
  unfold var_eqb. destruct x as [a k], y as [b l]. cbn [fst snd]. destruct (String.eqb_spec a b) as [->|N]; [|constructor; congruence]. destruct (Z.eqb_spec k l) as [->|N]; constructor; congruence.
Qed.

(** ** Names of files of derivatives *)
Definition word (s : string) : Prop := s <> ""%string /\ all_chars is_alnum s = true.
(** The name has the form of one of a derivative, for the parameters [a] and [b]. *)
Definition der_form (s a mid b : string) (c : ascii) (post : string) : Prop :=
  s = ("dCijGGd" ++ a ++ mid ++ "-" ++ b ++ "-Stef" ++ String c ("dat" ++ post))%string /\ word a /\ word b /\ StrLib.has newline mid = false /\ c <> newline.
Definition no_word_first (s : string) : Prop := match s with EmptyString => True | String c _ => is_alnum c = false end.

Lemma alnum_no s c : all_chars is_alnum s = true -> is_alnum c = false -> StrLib.has c s = false.
Proof.
  intros A N. induction s as [|x s IH]; [reflexivity|]. cbn [all_chars] in A. apply andb_true_iff in A. destruct A as [A1 A2]. cbn [StrLib.has]. rewrite (IH A2), orb_false_r.
  destruct (Ascii.eqb_spec x c); [congruence|reflexivity].
Qed.
Lemma last_none s : StrLib.has "-" s = false -> last_var s = None.
Proof.
  induction s as [|a s IH]; [reflexivity|]. cbn [StrLib.has last_var]. intros H. apply orb_false_iff in H. destruct H as [H1 H2]. rewrite (IH H2), H1. destruct (Ascii.eqb a newline); reflexivity.
Qed.
Lemma last_skip u s x : StrLib.has newline u = false -> last_var s = Some x -> last_var (u ++ s)%string = Some x.
Proof.
  intros N E. induction u as [|a u IH]; [exact E|]. cbn [StrLib.has] in N. apply orb_false_iff in N. destruct N as [N1 N2]. cbn [append last_var]. rewrite N1, (IH N2). reflexivity.
Qed.
Lemma last_skip_none u s : StrLib.has "-" u = false -> last_var s = None -> last_var (u ++ s)%string = None.
Proof.
  intros N E. induction u as [|a u IH]; [exact E|]. cbn [StrLib.has] in N. apply orb_false_iff in N. destruct N as [N1 N2]. cbn [append last_var]. rewrite N1, (IH N2). destruct (Ascii.eqb a newline); reflexivity.
Qed.
Lemma stef_has s : StrLib.has "-" s = false -> stef s = false.
Proof. intros H. unfold stef. destruct s as [|a s]; [reflexivity|]. cbn [StrLib.has] in H. apply orb_false_iff in H. destruct H as [H _]. cbn [strip_prefix]. rewrite Ascii.eqb_sym in H. cbn in H |- *. rewrite H. reflexivity. Qed.
Lemma stef_ok c post : c <> newline -> stef ("-Stef" ++ String c ("dat" ++ post)) = true.
Proof. intros N. unfold stef. rewrite strip_prefix_app. destruct (Ascii.eqb_spec c newline); [contradiction|]. cbn [negb andb]. apply starts_iff. exists post. reflexivity. Qed.
Lemma stef_form s : stef s = true -> exists c post, s = ("-Stef" ++ String c ("dat" ++ post))%string /\ c <> newline.
Proof.
  unfold stef. destruct (strip_prefix "-Stef" s) as [[|c r]|] eqn:E; try discriminate. intros H. apply andb_true_iff in H. destruct H as [H1 H2]. apply strip_prefix_some in E. apply starts_iff in H2. destruct H2 as [post ->].
  exists c, post. split; [exact E|]. intros ->. discriminate.
Qed.
Lemma word_span a r : word a -> no_word_first r -> span is_alnum (a ++ r) = (a, r).
Proof. intros [_ A] N. apply span_app; [exact A|]. destruct r; exact N. Qed.
(** A name with one mark and nothing after it with "-" names its two parameters. *)
Theorem C126_name s a mid b c post : der_form s a mid b c post -> no_word_first mid -> c <> "-"%char -> StrLib.has "-" post = false -> match_der s = Some (a, b).
Proof.
  intros (-> & Wa & Wb & Nm & Nc) Nf Cd Np. unfold match_der. rewrite strip_prefix_app. rewrite (word_span a _ Wa).
  2:{ destruct mid as [|x mid]; [reflexivity|exact Nf]. }
  destruct a as [|x a]; [destruct Wa as [C _]; congruence|]. cbn [nonempty]. erewrite last_skip; [reflexivity|exact Nm|].
  change ("-" ++ ?t)%string with (String "-" t). cbn [last_var]. change (Ascii.eqb "-" newline) with false. cbv iota.
  replace (last_var (b ++ "-Stef" ++ String c ("dat" ++ post))) with (None (A := string)).
  - change (Ascii.eqb "-" "-") with true. cbv iota. rewrite (word_span b _ Wb) by reflexivity. rewrite stef_ok by exact Nc. destruct b; [destruct Wb as [C _]; congruence|reflexivity].
  - symmetry. apply last_skip_none; [apply alnum_no; [apply Wb|reflexivity]|]. assert (T : StrLib.has "-" ("Stef" ++ String c ("dat" ++ post)) = false).
    { rewrite has_app. cbn [StrLib.has orb append]. rewrite Np. destruct (Ascii.eqb_spec c "-"); [contradiction|reflexivity]. }
    change ("-Stef" ++ String c ("dat" ++ post))%string with (String "-" ("Stef" ++ String c ("dat" ++ post))). cbn [last_var]. change (Ascii.eqb "-" newline) with false. cbv iota. rewrite (last_none _ T). change (Ascii.eqb "-" "-") with true. cbv iota.
    pose proof (ReportProps.span_split is_alnum ("Stef" ++ String c ("dat" ++ post))) as S. destruct (span is_alnum _) as [u t]. destruct S as [S _]. rewrite S, has_app in T. apply orb_false_iff in T. rewrite (stef_has t) by apply T. rewrite andb_false_r. reflexivity.
Qed.
Lemma last_form s : forall x, last_var s = Some x -> exists u c post, s = (u ++ "-" ++ x ++ "-Stef" ++ String c ("dat" ++ post))%string /\ word x /\ StrLib.has newline u = false /\ c <> newline.
Proof.
  induction s as [|a s IH]; intros x; [discriminate|]. cbn [last_var]. destruct (Ascii.eqb a newline) eqn:En.
  - apply Ascii.eqb_eq in En. subst a. discriminate.
  - destruct (last_var s) as [y|].
    + intros E. injection E as ->. destruct (IH x eq_refl) as (u & c & post & -> & W & N & C). exists (String a u), c, post. split; [reflexivity|]. split; [exact W|]. split; [cbn [StrLib.has]; rewrite En; exact N|exact C].
    + destruct (Ascii.eqb_spec a "-") as [->|]; [|discriminate]. pose proof (ReportProps.span_split is_alnum s) as S. destruct (span is_alnum s) as [w t]. destruct S as [-> A]. destruct w as [|y w]; [discriminate|]. cbn [nonempty andb].
      destruct (stef t) eqn:St; [|discriminate]. intros E. injection E as <-. apply stef_form in St. destruct St as (c & post & -> & C). exists ""%string, c, post. split; [reflexivity|]. split; [split; [discriminate|exact A]|]. split; [reflexivity|exact C].
Qed.
Lemma last_some u b c post : StrLib.has newline u = false -> word b -> c <> newline -> last_var (u ++ "-" ++ b ++ "-Stef" ++ String c ("dat" ++ post)) <> None.
Proof.
  intros N W C. destruct (last_var (b ++ "-Stef" ++ String c ("dat" ++ post))) as [y|] eqn:E.
  - rewrite (last_skip u _ y N); [discriminate|]. change ("-" ++ ?t)%string with (String "-" t). cbn [last_var]. change (Ascii.eqb "-" newline) with false. cbv iota. rewrite E. reflexivity.
  - rewrite (last_skip u _ b N); [discriminate|]. change ("-" ++ ?t)%string with (String "-" t). cbn [last_var]. change (Ascii.eqb "-" newline) with false. cbv iota. rewrite E.
    change (Ascii.eqb "-" "-") with true. cbv iota. rewrite (word_span b _ W) by reflexivity. rewrite stef_ok by exact C. destruct b; [destruct W as [X _]; congruence|reflexivity].
Qed.
(** Whatever is matched has the form, and whatever has the form is matched. *)
Theorem C126_matched s : (forall a b, match_der s = Some (a, b) -> exists mid c post, der_form s a mid b c post /\ no_word_first mid) /\
  (match_der s = None -> forall a mid b c post, ~ der_form s a mid b c post).
Proof.
  split.
  - intros a b. unfold match_der. destruct (strip_prefix "dCijGGd" s) as [r|] eqn:E; [|discriminate]. apply strip_prefix_some in E. subst s. pose proof (IstProps2.span_spec is_alnum r) as S. destruct (span is_alnum r) as [n t]. destruct S as (-> & A & Nf).
    destruct n as [|x n]; [discriminate|]. cbn [nonempty]. destruct (last_var t) as [y|] eqn:L; [|discriminate]. intros H. injection H as <- <-. apply last_form in L. destruct L as (u & c & post & -> & W & N & C).
    exists u, c, post. split; [|destruct u; [exact I|exact Nf]]. split; [reflexivity|]. split; [split; [discriminate|exact A]|]. split; [exact W|]. split; [exact N|exact C].
  - intros M a mid b c post (-> & Wa & Wb & Nm & C). unfold match_der in M. rewrite strip_prefix_app in M.
    (* the first name may take letters of [mid] *)
    pose proof (IstProps2.span_spec is_alnum mid) as S. destruct (span is_alnum mid) as [m1 m2]. destruct S as (-> & Am & Nf).
    assert (W : word (a ++ m1)). { destruct Wa as [Na Aa]. split; [destruct a; [congruence|discriminate]|]. clear -Aa Am. induction a as [|x a IH]; [exact Am|]. cbn [append all_chars] in *. apply andb_true_iff in Aa. destruct Aa as [-> Aa]. exact (IH Aa). }
    rewrite has_app in Nm. apply orb_false_iff in Nm. destruct Nm as [_ Nm]. rewrite sapp_assoc in M. rewrite <- (sapp_assoc a m1) in M. rewrite (word_span _ _ W) in M.
    2:{ destruct m2; [reflexivity|exact Nf]. }
    destruct (a ++ m1)%string as [|x w]; [destruct W as [X _]; congruence|]. cbn [nonempty] in M. destruct (last_var _) eqn:L; [discriminate|]. exact (last_some m2 b c post Nm Wb C L).
Qed.

Section C126.
  Context {F : Type} {K : Fld F}.

  (** ** The files of a variation *)
  Definition of_var (stem : dict Z Qc) (x : string * Z) (f : sc_file F) : Prop := parse_ist stem (sc_name f) = Ok x.
  Definition is_dat (f : sc_file F) : Prop := exists r, sc_name f = (r ++ ".dat")%string.
  (** [f] is the last of [l] that belongs to the variation. *)
  Definition last_of (stem : dict Z Qc) (l : list (sc_file F)) (x : string * Z) (f : sc_file F) : Prop :=
    exists pre post, l = pre ++ f :: post /\ is_dat f /\ of_var stem x f /\ forall g, In g post -> is_dat g -> ~ of_var stem x g.

  Lemma cosmo_files_spec stem : forall l acc d, cosmo_files stem l acc = Ok d -> NoDup (dkeys acc) ->
    NoDup (dkeys d) /\ (forall f, In f l -> exists x, of_var stem x f) /\
    (forall x f, dget var_eqb d x = Some f <->
      (exists pre post, l = pre ++ f :: post /\ of_var stem x f /\ forall g, In g post -> ~ of_var stem x g) \/ (dget var_eqb acc x = Some f /\ forall g, In g l -> ~ of_var stem x g)).
  Proof.
    induction l as [|g l IH]; intros acc d E N; cbn [cosmo_files] in E.
    - injection E as <-. split; [exact N|]. split; [intros f []|]. intros x f. split; [intros H; right; split; [exact H|intros g []]|]. intros [(pre & post & H & _)|[H _]]; [destruct pre; discriminate|exact H].
    - destruct (parse_ist stem (sc_name g)) as [y|] eqn:P; [|discriminate]. cbn [rbind] in E. apply IH in E; [|apply (NoDup_dset _ var_spec); exact N]. destruct E as (N' & A & B). split; [exact N'|]. split; [intros f [<-|H]; [exists y; exact P|exact (A f H)]|].
      intros x f. rewrite B. split.
      + intros [(pre & post & -> & H)|[H Q]]; [left; exists (g :: pre), post; split; [reflexivity|exact H]|]. destruct (var_spec y x) as [->|n].
        * rewrite (dget_dset_same _ var_spec) in H. injection H as <-. left. exists [], l. split; [reflexivity|]. split; [exact P|exact Q].
        * rewrite (dget_dset_other _ var_spec) in H by exact n. right. split; [exact H|]. intros g' [<-|Hg]; [|exact (Q g' Hg)]. unfold of_var. rewrite P. intros C. injection C as C. contradiction.
      + intros [(pre & post & H & V & Q)|[H Q]].
        * destruct pre as [|g0 pre]; injection H as -> ->; [|left; exists pre, post; split; [reflexivity|split; [exact V|exact Q]]]. right. unfold of_var in V. rewrite P in V. injection V as ->. split; [apply (dget_dset_same _ var_spec)|exact Q].
        * right. split; [|intros g' Hg; apply Q; right; exact Hg]. rewrite (dget_dset_other _ var_spec); [exact H|]. intros ->. apply (Q g (or_introl eq_refl)). exact P.
  Qed.
  Lemma last_exists (P : sc_file F -> Prop) (Dec : forall g, {P g} + {~ P g}) : forall l, (exists f, In f l /\ P f) -> exists g pre post, l = pre ++ g :: post /\ P g /\ forall g', In g' post -> ~ P g'.
  Proof.
    induction l as [|g l IH]; intros (f & I & V); [destruct I|]. destruct (Exists_dec P l Dec) as [X|X].
    - apply Exists_exists in X. destruct (IH X) as (h & pre & post & -> & R). exists h, (g :: pre), post. split; [reflexivity|exact R].
    - assert (X' : forall g', In g' l -> ~ P g') by (intros g' I' V'; apply X, Exists_exists; exists g'; split; assumption). destruct I as [<-|I]; [|elim (X' f I V)]. exists g, [], l. split; [reflexivity|]. split; [exact V|exact X'].
  Qed.
  Lemma var_dec stem x (g : sc_file F) : {of_var stem x g} + {~ of_var stem x g}.
  Proof. unfold of_var. destruct (parse_ist stem (sc_name g)) as [y|]; [|right; discriminate]. destruct (var_spec y x) as [->|n]; [left; reflexivity|right; intros C; injection C as C; contradiction]. Qed.
  Lemma ends_dat (f : sc_file F) : ends ".dat" (sc_name f) = true <-> is_dat f.
  Proof. unfold is_dat. apply WsLemmas.ends_iff. Qed.
  Lemma dat_last stem x f : forall l, (exists pre post, dat_files l = pre ++ f :: post /\ of_var stem x f /\ forall g, In g post -> ~ of_var stem x g) <-> last_of stem l x f.
  Proof.
    unfold last_of, dat_files. induction l as [|g l IH]; cbn [filter].
    - split; intros (pre & post & H & _); destruct pre; discriminate.
    - assert (Sh : (exists pre post, l = pre ++ f :: post /\ is_dat f /\ of_var stem x f /\ forall g, In g post -> is_dat g -> ~ of_var stem x g) -> (exists pre post, g :: l = pre ++ f :: post /\ is_dat f /\ of_var stem x f /\ forall g, In g post -> is_dat g -> ~ of_var stem x g)).
      { intros (pre & post & -> & H). exists (g :: pre), post. split; [reflexivity|exact H]. }
      destruct (ends ".dat" (sc_name g)) eqn:E.
      + split.
        * intros (pre & post & H & V & Q). destruct pre as [|g0 pre].
          -- injection H as -> H. exists [], l. split; [reflexivity|]. split; [apply ends_dat, E|]. split; [exact V|]. intros g' Hg Dg. apply Q. rewrite <- H. apply filter_In. split; [exact Hg|apply ends_dat, Dg].
          -- injection H as -> H. apply Sh, IH. exists pre, post. split; [exact H|]. split; [exact V|exact Q].
        * intros (pre & post & H & D & V & Q). destruct pre as [|g0 pre]; injection H as -> H.
          -- subst l. exists [], (filter (fun f => ends ".dat" (sc_name f)) post). split; [reflexivity|]. split; [exact V|]. intros g' Hg. apply filter_In in Hg. destruct Hg as [Hg Dg]. apply Q; [exact Hg|apply ends_dat, Dg].
          -- destruct (proj2 IH) as (p & q & Hp & Hq); [exists pre, post; split; [exact H|split; [exact D|split; [exact V|exact Q]]]|]. exists (g0 :: p), q. split; [cbn; f_equal; exact Hp|exact Hq].
      + rewrite IH. split; [exact Sh|]. intros (pre & post & H & D & V & Q). destruct pre as [|g0 pre]; injection H as -> H; [apply ends_dat in D; congruence|]. exists pre, post. split; [exact H|]. split; [exact D|]. split; [exact V|exact Q].
  Qed.
  Lemma dat_spec stem l d : cosmo_files stem (dat_files l) [] = Ok d ->
    NoDup (dkeys d) /\ (forall f, In f l -> is_dat f -> exists x, of_var stem x f /\ In x (dkeys d)) /\ forall x f, dget var_eqb d x = Some f <-> last_of stem l x f.
  Proof.
    intros E. apply cosmo_files_spec in E; [|constructor]. destruct E as (N & A & B).
    assert (G : forall x f, dget var_eqb d x = Some f <-> last_of stem l x f).
    { intros x f. rewrite B, <- dat_last. split; [intros [H|[H _]]; [exact H|discriminate]|intros H; left; exact H]. }
    split; [exact N|]. split; [|exact G]. intros f I D. assert (If : In f (dat_files l)) by (apply filter_In; split; [exact I|apply ends_dat, D]). destruct (A f If) as [x V]. exists x. split; [exact V|].
    destruct (dget var_eqb d x) as [g|] eqn:Eg; [apply (in_map fst _ _ (dget_In _ var_spec _ _ Eg))|]. exfalso.
    destruct (last_exists (of_var stem x) (var_dec stem x) (dat_files l)) as (g & pre & post & Q & R); [exists f; split; [exact If|exact V]|].
    assert (C : dget var_eqb d x = Some g) by (apply G, dat_last; exists pre, post; split; [exact Q|exact R]). congruence.
  Qed.
  Lemma dmem_var {V} (d : dict (string * Z) V) x : dmem var_eqb d x = true <-> In x (dkeys d).
  Proof.
    unfold dmem. destruct (dget var_eqb d x) as [v|] eqn:E.
    - split; [intros _; apply (in_map fst _ _ (dget_In _ var_spec _ _ E))|reflexivity].
    - apply (dget_None _ var_spec) in E. split; [discriminate|contradiction].
  Qed.
  Lemma same_iff (a b : dict (string * Z) (sc_file F)) : same_vars a b = true <-> forall x, In x (dkeys a) <-> In x (dkeys b).
  Proof.
    unfold same_vars. rewrite andb_true_iff, !forallb_forall. split.
    - intros [A B] x. split; intros H; apply dmem_var; [apply A|apply B]; exact H.
    - intros H. split; intros x I; apply dmem_var, H, I.
  Qed.
  (** The variation has a file in the directory. *)
  Definition has_var (stem : dict Z Qc) (l : list (sc_file F)) (x : string * Z) : Prop := exists f, In f l /\ is_dat f /\ of_var stem x f.
  Lemma key_has stem l d x : cosmo_files stem (dat_files l) [] = Ok d -> In x (dkeys d) <-> has_var stem l x.
  Proof.
    intros E. apply dat_spec in E. destruct E as (N & A & B). split.
    - intros I. destruct (dget var_eqb d x) as [f|] eqn:G; [|apply (dget_None _ var_spec) in G; contradiction]. apply B in G. destruct G as (pre & post & -> & D & V & _). exists f. split; [apply in_elt|]. split; [exact D|exact V].
    - intros (f & I & D & V). destruct (A f I D) as (y & W & Iy). unfold of_var in *. rewrite V in W. injection W as ->. exact Iy.
  Qed.
  Lemma cosmo_files_total stem : forall l acc, (forall f, In f l -> exists x, of_var stem x f) -> exists d, cosmo_files stem l acc = Ok d.
  Proof.
    induction l as [|g l IH]; intros acc H; cbn [cosmo_files]; [eexists; reflexivity|]. destruct (H g (or_introl eq_refl)) as [x ->]. cbn [rbind]. apply IH. intros f I. apply H. right. exact I.
  Qed.
  Lemma dat_total stem l : (forall f, In f l -> is_dat f -> exists x, of_var stem x f) -> exists d, cosmo_files stem (dat_files l) [] = Ok d.
  Proof. intros H. apply cosmo_files_total. intros f I. apply filter_In in I. destruct I as [I D]. apply H; [exact I|apply ends_dat, D]. Qed.

  (** Every variation with files is converted once, with the file of each
      directory that belongs to it, the last one if there are several. *)
  Theorem C126_files stem ph sp xc fd : build_files stem ph sp xc = Ok fd ->
    NoDup (dkeys fd) /\
    (forall x, In x (dkeys fd) <-> has_var stem ph x) /\ (forall x, In x (dkeys fd) <-> has_var stem sp x) /\ (forall x, In x (dkeys fd) <-> has_var stem xc x) /\
    forall x fs, In (x, fs) fd -> exists p s c, fs = [("GCph", p); ("GCsp", s); ("XC", c)]%string /\ last_of stem ph x p /\ last_of stem sp x s /\ last_of stem xc x c.
  Proof.
    unfold build_files. destruct (cosmo_files stem (dat_files ph) []) as [dp|] eqn:Ep; [|discriminate]. destruct (cosmo_files stem (dat_files sp) []) as [ds|] eqn:Es; [|discriminate]. destruct (cosmo_files stem (dat_files xc) []) as [dx|] eqn:Ex; [|discriminate]. cbn [rbind].
    destruct (same_vars dp ds) eqn:S1; [|discriminate]. destruct (same_vars dp dx) eqn:S2; [|discriminate]. cbn [negb]. intros R.
    assert (Kd : dkeys fd = dkeys dp).
    { revert R. generalize (dkeys dp) as l. clear. intros l. revert fd. induction l as [|x l IH]; intros fd; cbn [rmapM]; [intros H; injection H as <-; reflexivity|].
      destruct (file_of dp x); [|discriminate]. cbn [rbind]. destruct (file_of ds x); [|discriminate]. cbn [rbind]. destruct (file_of dx x); [|discriminate]. cbn [rbind]. destruct (rmapM _ l) as [ys|]; [|discriminate]. cbn [rbind]. intros H. injection H as <-. cbn. f_equal. apply IH. reflexivity. }
    rewrite Kd. rewrite same_iff in S1, S2. destruct (dat_spec _ _ _ Ep) as (Np & _ & Gp). destruct (dat_spec _ _ _ Es) as (_ & _ & Gs). destruct (dat_spec _ _ _ Ex) as (_ & _ & Gx).
    split; [exact Np|]. split; [intros x; apply (key_has stem ph dp x Ep)|]. split; [intros x; rewrite S1; apply (key_has stem sp ds x Es)|]. split; [intros x; rewrite S2; apply (key_has stem xc dx x Ex)|].
    intros x fs I. destruct (rmapM_In _ _ _ _ R I) as (y & _ & H). unfold file_of in H.
    destruct (dget var_eqb dp y) as [p|] eqn:D1; [|discriminate]. cbn [rbind] in H. destruct (dget var_eqb ds y) as [s'|] eqn:D2; [|discriminate]. cbn [rbind] in H. destruct (dget var_eqb dx y) as [c|] eqn:D3; [|discriminate]. cbn [rbind] in H. injection H as <- <-.
    exists p, s', c. split; [reflexivity|]. split; [apply Gp, D1|]. split; [apply Gs, D2|apply Gx, D3].
  Qed.
  (** It succeeds when the names are known and the directories have the same
      variations, and is an AssertionError when they have not. *)
  Theorem C126_build stem ph sp xc : (forall f, In f (ph ++ sp ++ xc) -> is_dat f -> exists x, of_var stem x f) ->
    ((forall x, has_var stem ph x <-> has_var stem sp x) -> (forall x, has_var stem ph x <-> has_var stem xc x) -> exists fd, build_files stem ph sp xc = Ok fd) /\
    (forall x, (has_var stem ph x /\ ~ has_var stem sp x) \/ (has_var stem sp x /\ ~ has_var stem ph x) \/ (has_var stem ph x /\ ~ has_var stem xc x) \/ (has_var stem xc x /\ ~ has_var stem ph x) ->
      build_files stem ph sp xc = Err EAssertion).
  Proof.
    intros T. destruct (dat_total stem ph) as [dp Ep]; [intros; apply T; auto with datatypes|]. destruct (dat_total stem sp) as [ds Es]; [intros; apply T; auto with datatypes|]. destruct (dat_total stem xc) as [dx Ex]; [intros; apply T; auto with datatypes|].
    unfold build_files. rewrite Ep, Es, Ex. cbn [rbind]. pose proof (fun x => key_has stem ph dp x Ep) as Kp. pose proof (fun x => key_has stem sp ds x Es) as Ks. pose proof (fun x => key_has stem xc dx x Ex) as Kx. split.
    - intros H1 H2. assert (S1 : same_vars dp ds = true) by (apply same_iff; intros x; rewrite Kp, Ks; apply H1). assert (S2 : same_vars dp dx = true) by (apply same_iff; intros x; rewrite Kp, Kx; apply H2). rewrite S1, S2. cbn [negb].
      apply CompareProps.rmapM_total. rewrite same_iff in S1, S2. intros x I. unfold file_of.
      assert (G : forall d : dict (string * Z) (sc_file F), In x (dkeys d) -> exists f, dget var_eqb d x = Some f). { intros d Id. destruct (dget var_eqb d x) eqn:E; [eexists; reflexivity|]. apply (dget_None _ var_spec) in E. contradiction. }
      destruct (G dp I) as [p ->]. destruct (G ds) as [q ->]; [apply S1, I|]. destruct (G dx) as [r ->]; [apply S2, I|]. eexists. reflexivity.
    - intros x H. destruct (same_vars dp ds) eqn:S1; [|reflexivity]. destruct (same_vars dp dx) eqn:S2; [|reflexivity]. exfalso. rewrite same_iff in S1, S2. specialize (S1 x). specialize (S2 x). rewrite Kp, Ks in S1. rewrite Kp, Kx in S2. tauto.
  Qed.

  (** ** The conversion *)
  Lemma one_no_kernel kf r : one_spectrum kf = Ok r -> s_kernel (snd (snd r)) = None.
  Proof.
    unfold one_spectrum. destruct (find probe_map (fst kf)) as [pp|]; [|discriminate]. cbn [rbind]. destruct (read_cl _ _ _) as [A|]; [|discriminate]. cbn [rbind]. destruct (find shapes (fst kf)) as [sh|]; [|discriminate]. cbn [rbind].
    destruct (_ && _); [|discriminate]. intros H. injection H as <-. reflexivity.
  Qed.
  Lemma fold_dset_last {V} (l : list (nat * (string * V))) d r : exists k v, In (k, v) (fold_left (fun d s => dset String.eqb d (fst (snd s)) (snd (snd s))) (l ++ [r]) d) /\ v = snd (snd r).
  Proof. rewrite fold_left_app. cbn [fold_left]. do 2 eexists. split; [|reflexivity]. apply (dget_In _ String.eqb_spec). apply (dget_dset_same _ String.eqb_spec). Qed.
  (** No input is ever converted: the spectra have no kernel, and without any there
      is no number of multipoles. *)
  Theorem C126_never_refuted meta stem ph sp xc : exists e, snd (convert_input meta stem ph sp xc) = Err e.
  Proof.
    unfold convert_input. destruct (build_files stem ph sp xc) as [fd|e] eqn:B; [|exists e; reflexivity].
    destruct fd as [|[x fs] fd]; [exists EValueError; reflexivity|]. cbn [convert_cls].
    destruct (C126_files _ _ _ _ _ B) as (_ & _ & _ & _ & Q). destruct (Q x fs (or_introl eq_refl)) as (p & s & c & -> & _).
    destruct (rmapM one_spectrum _) as [ss|e] eqn:R; [|exists e; reflexivity].
    change (dmem String.eqb (@nil (string * option (hfile F))) (jobdir_name (fst x) (snd x))) with false. cbv iota zeta.
    match goal with |- context [mkSpectra VNone ?t []] => set (cls := t) end. assert (In0 : exists k v, In (k, v) cls /\ s_kernel v = None).
    { pose proof (rmapM_length _ _ _ R) as L. destruct ss as [|r1 [|r2 [|r3 [|]]]]; try discriminate L. destruct (fold_dset_last (V := spectrum F) [r1; r2] [] r3) as (k & v & I & ->). exists k, (snd (snd r3)). split; [exact I|].
      destruct (rmapM_In _ _ _ r3 R) as (kf & _ & E); [right; right; left; reflexivity|]. exact (one_no_kernel _ _ E). }
    destruct In0 as (k & v & I & Nk). destruct (SpectraProps2.C96_no_kernel meta (mkSpectra VNone cls []) [] None k v I Nk) as [e He].
    destruct (save_steps meta (spectra_steps (mkSpectra VNone cls [])) [] None) as [h r] eqn:S. cbn [snd] in He. subst r. exists e. reflexivity.
  Qed.
  (** The files of the first variation are read, one file is begun, and the
      AttributeError of the missing kernel ends it. *)
  Theorem C126_begun_refuted meta stem ph sp xc x fs fd ss : build_files stem ph sp xc = Ok ((x, fs) :: fd) -> rmapM one_spectrum fs = Ok ss ->
    snd (convert_input meta stem ph sp xc) = Err EAttributeError /\ dkeys (fst (convert_input meta stem ph sp xc)) = [jobdir_name (fst x) (snd x)].
  Proof.
    intros B R. unfold convert_input. rewrite B. cbn [convert_cls]. rewrite R. change (dmem String.eqb (@nil (string * option (hfile F))) (jobdir_name (fst x) (snd x))) with false. cbv iota zeta.
    destruct (C126_files _ _ _ _ _ B) as (_ & _ & _ & _ & Q). destruct (Q x fs (or_introl eq_refl)) as (p & s & c & -> & _). clear Q B.
    assert (G : forall k f r, one_spectrum (k, f) = Ok r -> exists p q d l, dget String.eqb probe_map k = Some (p, q) /\ snd r = (comb_key p q, mkSpectrum p q (VArr d) (VArr l) VNone None)).
    { intros k f r. unfold one_spectrum. cbn [fst]. unfold find at 1. destruct (dget String.eqb probe_map k) as [[p' q']|]; [|discriminate]. cbn [rbind]. destruct (read_cl _ _ _) as [A|]; [|discriminate]. cbn [rbind]. destruct (find shapes k) as [sh|]; [|discriminate]. cbn [rbind].
      destruct (_ && _); [|discriminate]. intros H. injection H as <-. do 4 eexists. split; reflexivity. }
    cbn [rmapM] in R. destruct (one_spectrum ("GCph"%string, p)) as [r1|] eqn:E1; [|discriminate]. destruct (one_spectrum ("GCsp"%string, s)) as [r2|] eqn:E2; [|discriminate]. destruct (one_spectrum ("XC"%string, c)) as [r3|] eqn:E3; [|discriminate]. cbn [rbind] in R. injection R as <-.
    apply G in E1. destruct E1 as (p1 & q1 & d1 & l1 & H1 & F1). injection H1 as <- <-. apply G in E2. destruct E2 as (p2 & q2 & d2 & l2 & H2 & F2). injection H2 as <- <-. apply G in E3. destruct E3 as (p3 & q3 & d3 & l3 & H3 & F3). injection H3 as <- <-.
    cbn [fold_left]. rewrite F1, F2, F3. cbn. split; reflexivity.
  Qed.

  (** ** Derivatives *)
  (** The file is that of the derivative by [par] of the spectrum [key]. *)
  Definition gives (sf : string * sc_file F) (par key : string) (A : cl_arr (F := F)) : Prop :=
    exists a mid c post p q, der_form (sc_name (snd sf)) a mid a c post /\ match_der (sc_name (snd sf)) = Some (a, a) /\
      In (fst sf, (p, q)) [("GCph", ("PhotometricGalaxy", "PhotometricGalaxy")); ("GCsp", ("SpectroscopicGalaxy", "SpectroscopicGalaxy")); ("XC", ("PhotometricGalaxy", "SpectroscopicGalaxy"))]%string /\
      In (a, par) IstProps2.ist_pars /\ key = (p ++ "_" ++ q)%string /\
      read_cl (sc_lines (snd sf)) (sc_data (snd sf)) (String.eqb p q) = Ok A.
  Lemma read_gives acc sf d : read_der acc (fst sf) (snd sf) = Ok d -> exists par key A, gives sf par key A /\ d = put_der acc par key A.
  Proof.
    unfold read_der. destruct (match_der (sc_name (snd sf))) as [[a b]|] eqn:M; [|discriminate]. destruct (String.eqb_spec a b) as [<-|]; [|discriminate]. cbn [negb].
    unfold find. destruct (dget String.eqb probe_map (fst sf)) as [[p q]|] eqn:P; [|discriminate]. cbn [rbind fst snd]. destruct (dget String.eqb ist_map a) as [par|] eqn:D; [|discriminate]. cbn [rbind].
    destruct (read_cl _ _ _) as [A|] eqn:R; [|discriminate]. cbn [rbind]. intros H. injection H as <-. exists par, (comb_key p q), A. split; [|reflexivity].
    destruct (proj1 (C126_matched _) a a M) as (mid & c & post & Fm & _). exists a, mid, c, post, p, q. split; [exact Fm|]. split; [exact M|]. split; [apply (dget_In _ String.eqb_spec), P|]. split; [apply (dget_In _ String.eqb_spec) in D; exact D|]. split; [reflexivity|exact R].
  Qed.
  Lemma gives_read acc sf par key A : gives sf par key A -> read_der acc (fst sf) (snd sf) = Ok (put_der acc par key A).
  Proof.
    intros (a & mid & c & post & p & q & _ & M & P & D & -> & R). unfold read_der. rewrite M, String.eqb_refl. cbn [negb]. unfold find.
    assert (E1 : dget String.eqb probe_map (fst sf) = Some (p, q)). { destruct sf as [sub f]. cbn [fst] in *. destruct P as [P|[P|[P|[]]]]; injection P as <- <- <-; reflexivity. }
    assert (E2 : dget String.eqb ist_map a = Some par). { unfold IstProps2.ist_pars in D. cbn [In] in D. repeat (destruct D as [D|D]; [injection D as <- <-; reflexivity|]). destruct D. }
    rewrite E1, E2. cbn [rbind fst snd]. rewrite R. reflexivity.
  Qed.
  Lemma gives_fun sf par key A par' key' A' : gives sf par key A -> gives sf par' key' A' -> par = par' /\ key = key' /\ A = A'.
  Proof.
    intros (a & mid & c & post & p & q & _ & M & P & D & -> & R) (a' & mid' & c' & post' & p' & q' & _ & M' & P' & D' & -> & R'). rewrite M in M'. injection M' as <-.
    assert (Epq : p = p' /\ q = q'). { destruct sf as [sub f]. cbn [fst] in *. destruct P as [P|[P|[P|[]]]], P' as [P'|[P'|[P'|[]]]]; injection P as <- <- <-; injection P'; intros; subst; try discriminate; split; reflexivity. }
    destruct Epq as [<- <-]. assert (Ep : par = par').
    { unfold IstProps2.ist_pars in D, D'. cbn [In] in D, D'. repeat (destruct D as [D|D]; [injection D as <- <-; repeat (destruct D' as [D'|D']; [injection D'; intros; subst; try reflexivity; try discriminate|]); destruct D'|]). destruct D. }
    split; [exact Ep|]. split; [reflexivity|]. congruence.
  Qed.
  Definition found (d : derivatives F) (par key : string) (A : cl_arr (F := F)) : Prop := exists e, dget String.eqb d par = Some e /\ dget String.eqb e key = Some A.
  Lemma put_same d par key A B : found (put_der d par key A) par key B <-> B = A.
  Proof. unfold found, put_der. rewrite (dget_dset_same _ String.eqb_spec). split; [intros (e & E & G); injection E as <-; rewrite (dget_dset_same _ String.eqb_spec) in G; congruence|intros ->; eexists; split; [reflexivity|apply (dget_dset_same _ String.eqb_spec)]]. Qed.
  Lemma put_other d par key A par' key' B : par <> par' \/ key <> key' -> found (put_der d par key A) par' key' B <-> found d par' key' B.
  Proof.
    intros N. unfold found, put_der. destruct (String.eqb_spec par par') as [<-|n].
    - destruct N as [N|N]; [congruence|]. rewrite (dget_dset_same _ String.eqb_spec). split.
      + intros (e & E & G). injection E as <-. rewrite (dget_dset_other _ String.eqb_spec) in G by exact N. destruct (dget String.eqb d par) as [e|]; [exists e; split; [reflexivity|exact G]|discriminate].
      + intros (e & E & G). rewrite E. eexists. split; [reflexivity|]. rewrite (dget_dset_other _ String.eqb_spec) by exact N. exact G.
    - rewrite (dget_dset_other _ String.eqb_spec) by exact n. tauto.
  Qed.
  Lemma ders_spec : forall l acc d, read_ders l acc = Ok d -> (forall sf, In sf l -> exists par key A, gives sf par key A) /\
    forall par key A, found d par key A <-> (exists pre sf post, l = pre ++ sf :: post /\ gives sf par key A /\ forall sf' A', In sf' post -> ~ gives sf' par key A') \/ (found acc par key A /\ forall sf' A', In sf' l -> ~ gives sf' par key A').
  Proof.
    induction l as [|g l IH]; intros acc d E; cbn [read_ders] in E.
    - injection E as <-. split; [intros sf []|]. intros par key A. split; [intros H; right; split; [exact H|intros sf' A' []]|]. intros [(pre & sf & post & H & _)|[H _]]; [destruct pre; discriminate|exact H].
    - destruct (read_der acc (fst g) (snd g)) as [a|] eqn:R; [|discriminate]. cbn [rbind] in E. apply IH in E. destruct E as [T Q]. apply read_gives in R. destruct R as (par0 & key0 & A0 & G & ->).
      split; [intros sf [<-|I]; [exists par0, key0, A0; exact G|exact (T sf I)]|]. intros par key A. rewrite Q. split.
      + intros [(pre & sf & post & -> & H)|[H N]]; [left; exists (g :: pre), sf, post; split; [reflexivity|exact H]|]. destruct (String.eqb_spec par0 par) as [<-|n]; [destruct (String.eqb_spec key0 key) as [<-|n]|].
        * apply put_same in H. subst A0. left. exists [], g, l. split; [reflexivity|]. split; [exact G|exact N].
        * apply (put_other acc par0 key0 A0 par0 key A (or_intror n)) in H. right. split; [exact H|]. intros sf' A' [<-|I]; [|exact (N sf' A' I)]. intros G'. destruct (gives_fun _ _ _ _ _ _ _ G G') as (_ & C & _). contradiction.
        * apply (put_other acc par0 key0 A0 par key A (or_introl n)) in H. right. split; [exact H|]. intros sf' A' [<-|I]; [|exact (N sf' A' I)]. intros G'. destruct (gives_fun _ _ _ _ _ _ _ G G') as (C & _ & _). contradiction.
      + intros [(pre & sf & post & H & G' & N)|[H N]].
        * destruct pre as [|g0 pre]; injection H as -> ->; [|left; exists pre, sf, post; split; [reflexivity|split; [exact G'|exact N]]]. right. destruct (gives_fun _ _ _ _ _ _ _ G G') as (-> & -> & ->). split; [apply put_same; reflexivity|exact N].
        * right. split; [|intros sf' A' I; apply N; right; exact I]. apply put_other; [|exact H]. destruct (String.eqb_spec par0 par) as [->|n]; [|left; exact n]. destruct (String.eqb_spec key0 key) as [->|n]; [|right; exact n]. elim (N g A0 (or_introl eq_refl) G).
  Qed.
  Lemma ders_total : forall l acc, (forall sf, In sf l -> exists par key A, gives sf par key A) -> exists d, read_ders l acc = Ok d.
  Proof.
    induction l as [|g l IH]; intros acc H; cbn [read_ders]; [eexists; reflexivity|]. destruct (H g (or_introl eq_refl)) as (par & key & A & G). rewrite (gives_read acc g par key A G). cbn [rbind]. apply IH. intros sf I. apply H. right. exact I.
  Qed.
  (** The files that are read: those of the subdirectories with such a name. *)
  Definition der_file (dirs : list (string * list (sc_file F))) (sf : string * sc_file F) : Prop :=
    exists l r, In (fst sf, l) dirs /\ In (snd sf) l /\ sc_name (snd sf) = ("dCijGGd" ++ r ++ ".dat")%string.
  Theorem C126_read dirs sf : In sf (der_files dirs) <-> der_file dirs sf.
  Proof.
    unfold der_files, der_file. rewrite in_flat_map. assert (G : forall n, der_glob n = true <-> exists r, n = ("dCijGGd" ++ r ++ ".dat")%string).
    { intros n. unfold der_glob. split.
      - destruct (strip_prefix "dCijGGd" n) as [r|] eqn:E; [|discriminate]. apply strip_prefix_some in E. intros H. apply WsLemmas.ends_iff in H. destruct H as [u ->]. exists u. exact E.
      - intros [r ->]. rewrite strip_prefix_app. apply WsLemmas.ends_iff. exists r. reflexivity. }
    split.
    - intros ([sub l] & I & H). apply in_map_iff in H. destruct H as (f & <- & H). apply filter_In in H. destruct H as [H D]. apply G in D. destruct D as [r D]. exists l, r. split; [exact I|]. split; [exact H|exact D].
    - intros (l & r & I & H & D). exists (fst sf, l). split; [exact I|]. apply in_map_iff. exists (snd sf). split; [destruct sf; reflexivity|]. apply filter_In. split; [exact H|]. apply G. exists r. exact D.
  Qed.
  (** All derivatives are read if every file is one of a known parameter and
      directory; each is the array of its file, the last one that gives it. *)
  Theorem C126_derivatives dirs : ((exists d, read_derivatives dirs = Ok d) <-> forall sf, der_file dirs sf -> exists par key A, gives sf par key A) /\
    forall d, read_derivatives dirs = Ok d -> forall par key A, found d par key A <->
      exists pre sf post, der_files dirs = pre ++ sf :: post /\ gives sf par key A /\ forall sf' A', In sf' post -> ~ gives sf' par key A'.
  Proof.
    split.
    - split; [intros [d E] sf I; apply ders_spec in E; apply (proj1 E), C126_read, I|]. intros H. apply ders_total. intros sf I. apply H, C126_read, I.
    - intros d E par key A. apply ders_spec in E. rewrite (proj2 E). split; [intros [H|[(e & C & _) _]]; [exact H|discriminate]|intros H; left; exact H].
  Qed.
  (** Two files for the same derivative never come from one directory with one name
      of a parameter each: a derivative is decided by the directory and the name. *)
  Theorem C126_distinct sf sf' par key A A' : gives sf par key A -> gives sf' par key A' ->
    fst sf = fst sf' /\ exists a mid c post mid' c' post', der_form (sc_name (snd sf)) a mid a c post /\ der_form (sc_name (snd sf')) a mid' a c' post'.
  Proof.
    intros (a & mid & c & post & p & q & Fa & _ & P & D & E & _) (a' & mid' & c' & post' & p' & q' & Fa' & _ & P' & D' & E' & _).
    assert (a = a') as <-. { unfold IstProps2.ist_pars in D, D'. cbn [In] in D, D'. repeat (destruct D as [D|D]; [injection D as <- <-; repeat (destruct D' as [D'|D']; [injection D'; intros; subst; try reflexivity; try discriminate|]); destruct D'|]). destruct D. }
    split; [|exists a, mid, c, post, mid', c', post'; split; assumption]. destruct sf as [sub f], sf' as [sub' f']. cbn [fst] in *. rewrite E in E'. clear -P P' E'.
    destruct P as [P|[P|[P|[]]]], P' as [P'|[P'|[P'|[]]]]; injection P as <- <- <-; injection P' as <- <- <-; try reflexivity; discriminate E'.
  Qed.
  (** The first file that cannot be read ends the reading. *)
  Theorem C126_refused dirs pre sub f post : der_files dirs = pre ++ (sub, f) :: post -> (forall sf, In sf pre -> exists par key A, gives sf par key A) ->
    (match_der (sc_name f) = None -> read_derivatives dirs = Err EException) /\
    (forall a b, match_der (sc_name f) = Some (a, b) -> a <> b -> read_derivatives dirs = Err EAssertion) /\
    (forall a, match_der (sc_name f) = Some (a, a) -> ~ In sub ["GCph"; "GCsp"; "XC"]%string \/ (forall par, ~ In (a, par) IstProps2.ist_pars) -> read_derivatives dirs = Err EKeyError).
  Proof.
    intros E H. assert (St : forall e, (forall acc, read_der acc sub f = Err e) -> read_derivatives dirs = Err e).
    { intros e He. unfold read_derivatives. rewrite E. clear E. revert H. generalize (@nil (string * dict string (cl_arr (F := F)))) as acc. induction pre as [|g pre IH]; intros acc H; cbn [app read_ders fst snd]; [rewrite He; reflexivity|].
      destruct (H g (or_introl eq_refl)) as (par & key & A & G). rewrite (gives_read acc g par key A G). cbn [rbind]. apply IH. intros sf I. apply H. right. exact I. }
    split; [intros M; apply St; intros acc; unfold read_der; rewrite M; reflexivity|]. split.
    - intros a b M N. apply St. intros acc. unfold read_der. rewrite M. destruct (String.eqb_spec a b); [contradiction|reflexivity].
    - intros a M N. apply St. intros acc. unfold read_der. rewrite M, String.eqb_refl. cbn [negb]. unfold find. destruct (dget String.eqb probe_map sub) as [pq|] eqn:P; [|reflexivity]. cbn [rbind]. destruct N as [N|N].
      + exfalso. apply N. apply (dget_In _ String.eqb_spec) in P. cbn in P. destruct P as [P|[P|[P|[]]]]; injection P as <- _; cbn; tauto.
      + destruct (dget String.eqb ist_map a) as [par|] eqn:D; [|reflexivity]. exfalso. apply (N par). apply (dget_In _ String.eqb_spec) in D. exact D.
  Qed.
End C126.

Section C126_more.
  Open Scope nat_scope.
  Context {F : Type} {K : Fld F}.
  Lemma flat_length {A B} (f : A -> list B) m : forall l, (forall x, In x l -> length (f x) = m) -> length (flat_map f l) = length l * m.
  Proof. induction l as [|x l IH]; intros H; [reflexivity|]. cbn [flat_map length]. rewrite app_length, (H x (or_introl eq_refl)), IH; [lia|]. intros y I. apply H. right. exact I. Qed.
  Lemma flat_nth {B} (f : nat -> list B) m d : forall n s i j, (forall x, length (f x) = m) -> i < n -> j < m -> nth (i * m + j) (flat_map f (seq s n)) d = nth j (f (s + i)) d.
  Proof.
    induction n as [|n IH]; intros s i j H Hi Hj; [lia|]. cbn [seq flat_map]. destruct i as [|i].
    - rewrite Nat.add_0_r. cbn. rewrite app_nth1 by (rewrite H; exact Hj). reflexivity.
    - rewrite app_nth2 by (rewrite H; cbn; lia). rewrite H. replace (S i * m + j - m) with (i * m + j) by (cbn; lia). rewrite IH by (try exact H; lia). f_equal. f_equal. lia.
  Qed.
  (** A file is taken for a spectrum if its array has the size of the surveys: ten
      photometric and four spectroscopic bins; that and its multipoles are kept. *)
  Theorem C126_spectrum k (f : sc_file F) p q n m A :
    In (k, (p, q), (n, m)) [("GCph", ("PhotometricGalaxy", "PhotometricGalaxy"), (10, 10)); ("GCsp", ("SpectroscopicGalaxy", "SpectroscopicGalaxy"), (4, 4)); ("XC", ("PhotometricGalaxy", "SpectroscopicGalaxy"), (10, 4))]%string ->
    read_cl (sc_lines f) (sc_data f) (String.eqb p q) = Ok A ->
    (c_shape A = (n, m) -> exists c l, one_spectrum (k, f) = Ok (length (c_ells A), ((p ++ "_" ++ q)%string, mkSpectrum p q (VArr c) (VArr l) VNone None)) /\
       shape c = [length (c_ells A); n; m] /\ shape l = [length (c_ells A)] /\ items l = map Some (c_ells A) /\
       forall x i j, x < length (c_ells A) -> i < n -> j < m -> nth ((x * n + i) * m + j) (items c) None = Some (c_val A x i j)) /\
    (c_shape A <> (n, m) -> one_spectrum (k, f) = Err EAssertion).
  Proof.
    intros I R. assert (E : dget String.eqb probe_map k = Some (p, q) /\ dget String.eqb shapes k = Some (n, m)) by (destruct I as [I|[I|[I|[]]]]; injection I as <- <- <- <- <-; split; reflexivity).
    destruct E as [E1 E2]. unfold one_spectrum, find. cbn [fst snd]. rewrite E1. cbn [rbind fst snd]. rewrite R. cbn [rbind]. rewrite E2. cbn [rbind fst snd]. destruct (c_shape A) as [x y] eqn:S. split.
    - intros H. injection H as -> ->. cbn [fst snd]. rewrite !Nat.eqb_refl. cbn [andb]. unfold cl_value, ell_value. rewrite S. do 2 eexists. split; [reflexivity|]. split; [reflexivity|]. split; [reflexivity|]. split; [reflexivity|]. intros x i j Hx Hi Hj. cbn [items fst snd].
      assert (L1 : forall x i, length (map (fun j => Some (c_val A x i j)) (seq 0 m)) = m) by (intros; rewrite map_length, seq_length; reflexivity).
      assert (L2 : forall x, length (flat_map (fun i => map (fun j => Some (c_val A x i j)) (seq 0 m)) (seq 0 n)) = n * m) by (intros x'; rewrite (flat_length _ m), seq_length; [reflexivity|intros; apply L1]).
      replace ((x * n + i) * m + j) with (x * (n * m) + (i * m + j)) by ring. rewrite (flat_nth _ (n * m)); [|exact L2|exact Hx|nia]. rewrite (flat_nth _ m); [|intros; apply L1|exact Hi|exact Hj].
      cbn [Nat.add]. rewrite (nth_indep _ None (Some (c_val A x i 0))) by (rewrite L1; exact Hj). rewrite (map_nth (fun j => Some (c_val A x i j))), seq_nth by exact Hj. reflexivity.
    - intros N. cbn [fst snd]. destruct (Nat.eqb_spec x n) as [->|]; [|reflexivity]. destruct (Nat.eqb_spec y m) as [->|]; [congruence|reflexivity].
  Qed.
End C126_more.

Definition ex_om : sc_file Qc := mkSc "Cij-Om_pl_eps_6p3E-3.dat" [] [].
Definition ex_om2 : sc_file Qc := mkSc "new-Om_pl_eps_6p3E-3.dat" [] [].
(** Of two files for one variation the first is left out without an error. *)
Theorem C126_twice_refuted c : exists fd fs, build_files (stem_dict (ist_reader c)) [ex_om; ex_om2] [ex_om] [ex_om] = Ok fd /\ fd = [(("Omm"%string, 1%Z), fs)] /\ ~ In ex_om (map snd (filter (fun kf => String.eqb (fst kf) "GCph") fs)).
Proof. do 2 eexists. split; [vm_compute; reflexivity|]. split; [reflexivity|]. cbn. intros [C|[]]. discriminate. Qed.

Open Scope nat_scope.
(** A full case: three files of one variation, of ten and four bins. *)
Definition ex_nat (n : nat) : string := match n with 10 => "10" | _ => String (ascii_of_nat (48 + n)) "" end.
Definition ex_head (n m : nat) : string := ("# l" ++ String.concat "" (flat_map (fun i => map (fun j => (" " ++ ex_nat i ++ "-" ++ ex_nat j)%string) (seq 1 m)) (seq 1 n)))%string.
Definition ex_file (name : string) (n m : nat) : sc_file Qc := mkSc name [ex_head n m; ""; ""] [map (fun k => qz (Z.of_nat k)) (seq 0 (S (n * m))); map (fun k => qz (Z.of_nat (2 * k + 5))) (seq 0 (S (n * m)))].
Definition ex_name : string := "Cij-Om_pl_eps_6p3E-3.dat".
Definition is_ok {A} (r : res A) : bool := match r with Ok _ => true | Err _ => false end.
Lemma ok_ex {A} (r : res A) : is_ok r = true -> exists x, r = Ok x.
Proof. destruct r; [eexists; reflexivity|discriminate]. Qed.
Example C126_instance c meta : let r := convert_input meta (stem_dict (ist_reader c)) [ex_file ex_name 10 10] [ex_file ex_name 4 4] [ex_file ex_name 10 4] in
  snd r = Err EAttributeError /\ dkeys (fst r) = ["dvar_Omm_step_p_1"]%string.
Proof.
  cbv zeta. assert (R : exists ss, rmapM one_spectrum [("GCph", ex_file ex_name 10 10); ("GCsp", ex_file ex_name 4 4); ("XC", ex_file ex_name 10 4)]%string = Ok ss) by (apply ok_ex; vm_compute; reflexivity). destruct R as [ss R].
  refine (C126_begun_refuted meta _ _ _ _ ("Omm"%string, 1%Z) _ [] ss _ R). rewrite IstProps2.steps_eq. vm_compute. reflexivity.
Qed.
Example C126_derivatives_instance : let dirs := [("XC", [ex_file "dCijGGdOm-Om-Stef.dat" 10 4]); ("GCsp", [ex_file "dCijGGds8_3-s8-Stef.dat" 4 4; ex_file "readme.txt" 1 1])]%string in
  exists d, read_derivatives dirs = Ok d /\ dkeys d = ["Omm"; "sigma8"]%string /\ exists e, dget String.eqb d "Omm"%string = Some e /\ dkeys e = ["PhotometricGalaxy_SpectroscopicGalaxy"]%string.
Proof.
  cbv zeta. unfold read_derivatives. cbn [der_files]. vm_compute. eexists. split; [reflexivity|]. split; [reflexivity|]. eexists. split; reflexivity.
Qed.

Print Assumptions C126_name.
Print Assumptions C126_matched.
Print Assumptions C126_files.
Print Assumptions C126_build.
Print Assumptions C126_never_refuted.
Print Assumptions C126_begun_refuted.
Print Assumptions C126_read.
Print Assumptions C126_derivatives.
Print Assumptions C126_distinct.
Print Assumptions C126_refused.
Print Assumptions C126_spectrum.
Print Assumptions C126_twice_refuted.
