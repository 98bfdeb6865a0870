(** Properties of the selection of run directories (C109). *)
From Verif Require Import Base SortLib StrLib FrameModel NameModel NameLemmas FsModel FrameLemmas FileLemmas2 BatchModel WsModel WsLemmas WaitProps ConfigModel EditorProps SelectModel.
From Verif Require BatchProps ParamProps2.
Open Scope string_scope.
Open Scope list_scope.

(** ** The names of run directories *)
Definition digits (d : string) : Prop := all_chars is_digit d = true /\ d <> "".
Definition no_digit_first (r : string) : Prop := match r with EmptyString => True | String c _ => is_digit c = false end.
Definition scenario (s : string) : Prop := s = "optimistic" \/ s = "pessimistic".
(** The three forms, with what they say. *)
Inductive run_name : string -> groups -> Prop :=
| rn_run s r : scenario s -> run_name ("run_" ++ s ++ r) [("scenario", Some s)]
| rn_file s d r : scenario s -> digits d -> run_name (s ++ "_" ++ d ++ "_sp_bins_" ++ r) [("scenario", Some s); ("nbins", Some d)]
| rn_id s d r : scenario s -> digits d -> no_digit_first r ->
    run_name ("scenario_" ++ s ++ "__n_sp_bins_" ++ d ++ r) [("scenario", Some s); ("nbins", Some d)].

Lemma scenario_at_spec s sc r : scenario_at s = Some (sc, r) <-> scenario sc /\ s = (sc ++ r)%string.
Proof.
  unfold scenario_at, scenario. split.
  - destruct (strip_prefix "optimistic" s) as [u|] eqn:A.
    + intros E; injection E as <- <-. apply strip_prefix_some in A. auto.
    + destruct (strip_prefix "pessimistic" s) as [u|] eqn:B; [|discriminate]. intros E; injection E as <- <-.
      apply strip_prefix_some in B. auto.
  - intros [[->| ->] ->].
    + rewrite strip_prefix_app. reflexivity.
    + change (strip_prefix "optimistic" ("pessimistic" ++ r)) with (@None string). rewrite strip_prefix_app. reflexivity.
Qed.
Lemma nonempty_iff s : nonempty s = true <-> s <> "".
Proof. destruct s; cbn; split; congruence. Qed.
Lemma re_run_spec n g : re_run n = Some g <-> exists s r, scenario s /\ n = ("run_" ++ s ++ r)%string /\ g = [("scenario", Some s)].
Proof.
  unfold re_run. split.
  - destruct (strip_prefix "run_" n) as [u|] eqn:A; [|discriminate]. apply strip_prefix_some in A.
    destruct (scenario_at u) as [[s r]|] eqn:B; [|discriminate]. apply scenario_at_spec in B. destruct B as [S ->].
    intros E; injection E as <-. exists s, r. auto.
  - intros (s & r & S & -> & ->). rewrite strip_prefix_app. rewrite (proj2 (scenario_at_spec (s ++ r)%string s r)) by auto. reflexivity.
Qed.
Lemma re_file_spec n g : re_file n = Some g <-> exists s d r, scenario s /\ digits d /\ n = (s ++ "_" ++ d ++ "_sp_bins_" ++ r)%string /\ g = [("scenario", Some s); ("nbins", Some d)].
Proof.
  unfold re_file. split.
  - destruct (scenario_at n) as [[s u]|] eqn:A; [|discriminate]. apply scenario_at_spec in A. destruct A as [S ->].
    destruct (strip_prefix "_" u) as [v|] eqn:B; [|discriminate]. apply strip_prefix_some in B. subst u.
    destruct (span is_digit v) as [d w] eqn:Sp. apply span_spec in Sp. destruct Sp as (-> & D & _).
    destruct (nonempty d && starts "_sp_bins_" w) eqn:C; [|discriminate]. apply andb_true_iff in C. destruct C as [Ne St].
    apply starts_iff in St. destruct St as (r & ->). intros E; injection E as <-. exists s, d, r. repeat split; auto. apply nonempty_iff; exact Ne.
  - intros (s & d & r & S & [D Ne] & -> & ->). rewrite (proj2 (scenario_at_spec _ s ("_" ++ d ++ "_sp_bins_" ++ r)%string)) by auto.
    rewrite strip_prefix_app. rewrite span_app; [|exact D|reflexivity]. apply nonempty_iff in Ne. rewrite Ne.
    cbn [andb]. unfold starts. rewrite strip_prefix_app. reflexivity.
Qed.
Lemma re_id_spec n g : re_id n = Some g <-> exists s d r, scenario s /\ digits d /\ no_digit_first r /\ n = ("scenario_" ++ s ++ "__n_sp_bins_" ++ d ++ r)%string /\ g = [("scenario", Some s); ("nbins", Some d)].
Proof.
  unfold re_id. split.
  - destruct (strip_prefix "scenario_" n) as [x|] eqn:A; [|discriminate]. apply strip_prefix_some in A. subst n.
    destruct (scenario_at x) as [[s u]|] eqn:A; [|discriminate]. apply scenario_at_spec in A. destruct A as [S ->].
    destruct (strip_prefix "__n_sp_bins_" u) as [v|] eqn:B; [|discriminate]. apply strip_prefix_some in B. subst u.
    destruct (span is_digit v) as [d w] eqn:Sp. apply span_spec in Sp. destruct Sp as (-> & D & N).
    destruct (nonempty d) eqn:C; [|discriminate]. intros E; injection E as <-. exists s, d, w. repeat split; auto.
    apply nonempty_iff; exact C.
  - intros (s & d & r & S & [D Ne] & N & -> & ->). rewrite strip_prefix_app.
    rewrite (proj2 (scenario_at_spec _ s ("__n_sp_bins_" ++ d ++ r)%string)) by auto.
    rewrite strip_prefix_app. rewrite span_app; [|exact D|exact N]. apply nonempty_iff in Ne. rewrite Ne. reflexivity.
Qed.
Lemma mandatory_some n g : run_name n g -> mandatory base_regexps n = [Some g].
Proof.
  intros [s r S|s d r S D|s d r S D N]; unfold base_regexps; cbn [mandatory].
  - rewrite (proj2 (re_run_spec _ _)) by eauto. reflexivity.
  - destruct (re_run (s ++ "_" ++ d ++ "_sp_bins_" ++ r)%string) as [g0|] eqn:A.
    { destruct S as [->| ->]; cbv in A; discriminate. }
    rewrite (proj2 (re_file_spec _ _)) by (exists s, d, r; eauto). reflexivity.
  - replace (re_run ("scenario_" ++ s ++ "__n_sp_bins_" ++ d ++ r)%string) with (@None groups) by reflexivity.
    replace (re_file ("scenario_" ++ s ++ "__n_sp_bins_" ++ d ++ r)%string) with (@None groups) by reflexivity.
    rewrite (proj2 (re_id_spec _ _)) by (exists s, d, r; eauto 10). reflexivity.
Qed.
Lemma mandatory_cases n : (exists g, run_name n g /\ mandatory base_regexps n = [Some g]) \/ ((forall g, ~ run_name n g) /\ mandatory base_regexps n = []).
Proof.
  destruct (mandatory base_regexps n) as [|x l] eqn:E.
  - right. split; [|reflexivity]. intros g H. apply mandatory_some in H. congruence.
  - left. unfold base_regexps in E. cbn [mandatory] in E.
    destruct (re_run n) as [g|] eqn:A.
    { exists g. split; [|symmetry; exact E]. apply re_run_spec in A. destruct A as (s & r & S & -> & ->). constructor; exact S. }
    destruct (re_file n) as [g|] eqn:B.
    { exists g. split; [|symmetry; exact E]. apply re_file_spec in B. destruct B as (s & d & r & S & D & -> & ->). constructor; assumption. }
    destruct (re_id n) as [g|] eqn:C; [|discriminate].
    exists g. split; [|symmetry; exact E]. apply re_id_spec in C. destruct C as (s & d & r & S & D & N & -> & ->). constructor; assumption.
Qed.

(** ** What is asked for *)
(** A directory [name] (as the patterns see it) called [own] in its parent. *)
Definition accepted (q : request) (name own : string) : Prop :=
  ((exists g, run_name name g) \/ r_adds q <> []) /\
  (forall p, In p (r_adds q) -> p name <> None) /\
  (forall f, In f (r_filters q) -> f own = true) /\
  (forall c, In c (r_with q) -> exists a b, own = (a ++ c ++ b)%string) /\
  (forall c, In c (r_without q) -> forall a b, own <> (a ++ c ++ b)%string).
(** The value of a group: from the last pattern that has it; the additional
    patterns come after the name of the run. *)
Inductive said (q : request) (name k : string) : option (option string) -> Prop :=
| said_add ps p ps' g v : r_adds q = ps ++ p :: ps' -> p name = Some g -> dget String.eqb g k = Some v ->
    (forall p', In p' ps' -> forall g', p' name = Some g' -> dget String.eqb g' k = None) -> said q name k (Some v)
| said_base g : run_name name g -> (forall p, In p (r_adds q) -> forall g', p name = Some g' -> dget String.eqb g' k = None) -> said q name k (dget String.eqb g k)
| said_none : (forall g, ~ run_name name g) -> (forall p, In p (r_adds q) -> forall g', p name = Some g' -> dget String.eqb g' k = None) -> said q name k None.

Lemma filter_spec q name own : dir_filter q own (dir_matches (r_adds q) name) = true <-> accepted q name own.
Proof.
  unfold accepted.
  assert (G : forall ms : list (option groups), dir_filter q own ms = true <->
    ms <> [] /\ (forall m, In m ms -> m <> None) /\ (forall f, In f (r_filters q) -> f own = true) /\
    (forall c, In c (r_with q) -> exists a b, own = (a ++ c ++ b)%string) /\
    (forall c, In c (r_without q) -> forall a b, own <> (a ++ c ++ b)%string)).
  { intros ms. assert (E : dir_filter q own ms = negb (isnil ms) && (forallb is_some ms && (forallb (fun f => f own) (r_filters q) &&
      (forallb (fun c => occurs c own) (r_with q) && forallb (fun c => negb (occurs c own)) (r_without q))))).
    { destruct ms as [|m ms]; [reflexivity|]. unfold dir_filter. rewrite !forallb_app.
      assert (M : forall {A} (f : A -> bool) l, forallb (fun b => b) (map f l) = forallb f l) by (intros A f l; induction l as [|a l IH]; cbn; [reflexivity|rewrite IH; reflexivity]).
      rewrite !M. reflexivity. }
    rewrite E, !andb_true_iff, !forallb_forall. split.
    - intros (A & B & C & D & W). split; [destruct ms; [discriminate|discriminate]|]. split; [intros m Hm Em; specialize (B m Hm); subst m; discriminate|].
      split; [exact C|]. split; [intros c Hc; apply occurs_iff; apply D; exact Hc|].
      intros c Hc a b Eq. specialize (W c Hc). apply negb_true_iff in W. assert (occurs c own = true) by (apply occurs_iff; eauto). congruence.
    - intros (A & B & C & D & W). split; [destruct ms; [congruence|reflexivity]|]. split; [intros m Hm; specialize (B m Hm); destruct m; [reflexivity|congruence]|].
      split; [exact C|]. split; [intros c Hc; apply occurs_iff; auto|].
      intros c Hc. apply negb_true_iff. destruct (occurs c own) eqn:Oc; [|reflexivity]. apply occurs_iff in Oc. destruct Oc as (a & b & Eq). exfalso. exact (W c Hc a b Eq). }
  rewrite G. unfold dir_matches. split.
  - intros (A & B & C). split; [|split].
    + destruct (mandatory_cases name) as [(g & R & _)|[_ E]]; [left; eauto|]. rewrite E in A. right. intros N. rewrite N in A. apply A. reflexivity.
    + intros p Hp. apply B. apply in_or_app. right. apply in_map_iff. eauto.
    + exact C.
  - intros (A & B & C). split; [|split]; [| |exact C].
    + destruct A as [[g R]|A]; [rewrite (mandatory_some _ _ R); discriminate|]. destruct (r_adds q); [congruence|]. cbn [map]. intros N. apply app_eq_nil in N. destruct N; discriminate.
    + intros m Hm. apply in_app_or in Hm. destruct Hm as [Hm|Hm].
      * destruct (mandatory_cases name) as [(g & _ & E)|[_ E]]; rewrite E in Hm; [destruct Hm as [<-|[]]; discriminate|destruct Hm].
      * apply in_map_iff in Hm. destruct Hm as (p & <- & Hp). apply B. exact Hp.
Qed.

(** Group dictionaries of Python matches have no repeated name. *)
Definition proper (q : request) : Prop := forall p s g, In p (r_adds q) -> p s = Some g -> NoDup (dkeys g).
Lemma groups_fold ms : forall d k, (forall g, In (Some g) ms -> NoDup (dkeys g)) ->
  dget String.eqb (fold_left (fun (d : groups) (m : option groups) => match m with Some g => dupdate String.eqb d g | None => d end) ms d) k =
  fold_left (fun (v : option (option string)) (m : option groups) => match m with Some g => match dget String.eqb g k with Some x => Some x | None => v end | None => v end) ms (dget String.eqb d k).
Proof.
  induction ms as [|m ms IH]; intros d k N; [reflexivity|]. cbn [fold_left]. destruct m as [g|].
  - rewrite IH by (intros g' H; apply N; right; exact H). rewrite ParamProps2.dget_dupdate by (apply N; left; reflexivity). reflexivity.
  - apply IH. intros g' H; apply N; right; exact H.
Qed.
Lemma fold_none (k name : string) (ps : list pattern) : forall v : option (option string),
  (forall p, In p ps -> forall g, p name = Some g -> dget String.eqb g k = None) ->
  fold_left (fun (v : option (option string)) (m : option groups) => match m with Some g => match dget String.eqb g k with Some x => Some x | None => v end | None => v end) (map (fun p => p name) ps) v = v.
Proof.
  induction ps as [|p ps IH]; intros v H; [reflexivity|]. cbn [map fold_left]. destruct (p name) as [g|] eqn:E.
  - rewrite (H p (or_introl eq_refl) g E). apply IH. intros p' Hp. apply H. right; exact Hp.
  - apply IH. intros p' Hp. apply H. right; exact Hp.
Qed.
Lemma run_name_nodup n g : run_name n g -> NoDup (dkeys g).
Proof. intros []; cbn; (constructor; [cbn; intuition discriminate|]); try (constructor; [cbn; tauto|]); constructor. Qed.
Lemma groups_said q name k v : proper q -> said q name k v -> dget String.eqb (groups_of (dir_matches (r_adds q) name)) k = v.
Proof.
  intros Pr H. unfold groups_of. rewrite groups_fold.
  2:{ intros g Hg. unfold dir_matches in Hg. apply in_app_or in Hg. destruct Hg as [Hg|Hg].
      - destruct (mandatory_cases name) as [(g' & R & E)|[_ E]]; rewrite E in Hg; [destruct Hg as [Hg|[]]; injection Hg as ->; apply (run_name_nodup _ _ R)|destruct Hg].
      - apply in_map_iff in Hg. destruct Hg as (p & E & Hp). apply (Pr p name g Hp E). }
  cbn [dget]. unfold dir_matches. destruct H as [ps p ps' g v E Ep Eg H|g R H|R H].
  - rewrite E, map_app, !fold_left_app. cbn [map fold_left]. rewrite Ep, Eg. apply fold_none. exact H.
  - rewrite (mandatory_some _ _ R), fold_left_app. cbn [fold_left]. rewrite fold_none by exact H. destruct (dget String.eqb g k); reflexivity.
  - destruct (mandatory_cases name) as [(g' & R' & _)|[_ E]]; [exfalso; exact (R g' R')|]. rewrite E. cbn [app]. apply fold_none. exact H.
Qed.

(** ** Choosing among candidates *)
Lemma take_get q cs : forall d (p : path),
  dget sl_eqb (fold_left (take_cand q) cs d) p =
  fold_left (fun (v : option groups) (c : cand) => if sl_eqb (fst c) p && dir_filter q (snd (snd c)) (dir_matches (r_adds q) (fst (snd c))) then Some (groups_of (dir_matches (r_adds q) (fst (snd c)))) else v) cs (dget sl_eqb d p).
Proof.
  induction cs as [|c cs IH]; intros d p; [reflexivity|]. cbn [fold_left]. rewrite IH. f_equal. unfold take_cand. cbv zeta.
  destruct (dir_filter q (snd (snd c)) (dir_matches (r_adds q) (fst (snd c)))) eqn:Ed; [|destruct (sl_eqb (fst c) p); reflexivity].
  destruct (sl_eqb_spec (fst c) p) as [->|N]; [apply (dget_dset_same _ sl_eqb_spec)|apply (dget_dset_other _ sl_eqb_spec); exact N].
Qed.
Lemma take_get_one q (cs : list cand) (p : path) name own : (forall c, In c cs -> fst c = p -> snd c = (name, own)) ->
  dget sl_eqb (take_all q cs) p =
  if existsb (fun c : cand => sl_eqb (fst c) p) cs && dir_filter q own (dir_matches (r_adds q) name) then Some (groups_of (dir_matches (r_adds q) name)) else None.
Proof.
  intros H. unfold take_all. rewrite take_get. cbn [dget].
  assert (G : forall cs v, (forall c, In c cs -> fst c = p -> snd c = (name, own)) ->
    fold_left (fun (v : option groups) (c : cand) => if sl_eqb (fst c) p && dir_filter q (snd (snd c)) (dir_matches (r_adds q) (fst (snd c))) then Some (groups_of (dir_matches (r_adds q) (fst (snd c)))) else v) cs v =
    if existsb (fun c : cand => sl_eqb (fst c) p) cs && dir_filter q own (dir_matches (r_adds q) name) then Some (groups_of (dir_matches (r_adds q) name)) else v).
  { clear. induction cs as [|c cs IH]; intros v H; [reflexivity|]. cbn [fold_left existsb]. rewrite IH by (intros c' Hc; apply H; right; exact Hc).
    destruct (sl_eqb_spec (fst c) p) as [E|N]; cbn [orb andb].
    - rewrite (H c (or_introl eq_refl) E). cbn [fst snd]. destruct (existsb (fun c : cand => sl_eqb (fst c) p) cs); cbn [andb]; [|reflexivity].
      destruct (dir_filter q own (dir_matches (r_adds q) name)); reflexivity.
    - reflexivity. }
  apply G. exact H.
Qed.

(** ** One level: the entries of the root directory *)
(** Entries of a directory have different names. *)
Definition named_apart (l : list node) : Prop := forall x y, In x l -> In y l -> n_name x = n_name y -> x = y.
(** Where an entry leads: a directory keeps its name, a link has that of its target. *)
Inductive entry_dir (l : list node) : string -> string -> Prop :=
| ed_dir n l' : In (Dir n l') l -> entry_dir l n n
| ed_link n t : In (Link n t true) l -> entry_dir l n (last t "").
Lemma flat_in root l p : named_apart l -> (exists own name, entry_dir l own name /\ p = root ++ [own]) \/ (forall c, In c (flat_cands root l) -> fst c <> p).
Proof.
  intros N. destruct (existsb (fun c : cand => sl_eqb (fst c) p) (flat_cands root l)) eqn:E.
  - left. apply existsb_exists in E. destruct E as (c & Hc & E). destruct (sl_eqb_spec (fst c) p) as [<-|]; [|discriminate].
    unfold flat_cands in Hc. apply in_map_iff in Hc. destruct Hc as (x & <- & Hx). apply filter_In in Hx. destruct Hx as [Hx D].
    destruct x as [n|n l'|n t b]; cbn in D; [discriminate| |subst b]; cbn; eexists _, _; (split; [|reflexivity]); [econstructor 1|econstructor 2]; exact Hx.
  - right. intros c Hc Ec. assert (existsb (fun c : cand => sl_eqb (fst c) p) (flat_cands root l) = true); [|congruence].
    apply existsb_exists. exists c. split; [exact Hc|]. rewrite Ec. destruct (sl_eqb_spec p p); congruence.
Qed.
Lemma flat_cand root l own name : named_apart l -> entry_dir l own name ->
  (forall c, In c (flat_cands root l) -> fst c = root ++ [own] -> snd c = (name, own)) /\ existsb (fun c : cand => sl_eqb (fst c) (root ++ [own])) (flat_cands root l) = true.
Proof.
  intros N H. assert (X : exists x, In x l /\ n_isdir x = true /\ n_name x = own /\ n_resolved x = name).
  { destruct H as [n l' H|n t H]; eexists; (split; [exact H|]); repeat split; reflexivity. }
  destruct X as (x & Hx & D & <- & <-). split.
  - intros c Hc Ec. unfold flat_cands in Hc. apply in_map_iff in Hc. destruct Hc as (y & <- & Hy). apply filter_In in Hy. destruct Hy as [Hy _].
    cbn [fst snd] in *. apply app_inv_head in Ec. injection Ec as Ec. rewrite (N y x Hy Hx Ec). reflexivity.
  - apply existsb_exists. exists (root ++ [n_name x], (n_resolved x, n_name x)). split.
    + unfold flat_cands. apply in_map_iff. exists x. split; [reflexivity|]. apply filter_In. auto.
    + cbn [fst]. destruct (sl_eqb_spec (root ++ [n_name x]) (root ++ [n_name x])); congruence.
Qed.
(** The directories taken are the entries that are accepted, the patterns being
    tried on the name of the directory a link leads to. *)
Theorem C109_flat root resolved l q d : named_apart l -> select_dirs false root resolved (Some l) q = Ok d ->
  forall p, (exists g, dget sl_eqb d p = Some g) <-> exists own name, entry_dir l own name /\ p = root ++ [own] /\ accepted q name own.
Proof.
  intros N E p. injection E as <-. split.
  - intros (g & H). destruct (flat_in root l p N) as [(own & name & Hd & ->)|No].
    + destruct (flat_cand root l own name N Hd) as [U X]. rewrite (take_get_one _ _ _ _ _ U), X in H. cbn [andb] in H.
      destruct (dir_filter q own (dir_matches (r_adds q) name)) eqn:F; [|discriminate]. exists own, name. split; [exact Hd|]. split; [reflexivity|]. apply filter_spec; exact F.
    + rewrite (take_get_one q _ _ "" "") in H by (intros c Hc Ec; exfalso; exact (No c Hc Ec)).
      assert (existsb (fun c : cand => sl_eqb (fst c) p) (flat_cands root l) = false); [|rewrite H0 in H; discriminate].
      destruct (existsb _ _) eqn:X; [|reflexivity]. apply existsb_exists in X. destruct X as (c & Hc & X). exfalso. apply (No c Hc). destruct (sl_eqb_spec (fst c) p); [assumption|discriminate].
  - intros (own & name & Hd & -> & A). destruct (flat_cand root l own name N Hd) as [U X]. rewrite (take_get_one _ _ _ _ _ U), X. cbn [andb].
    apply filter_spec in A. rewrite A. eauto.
Qed.
Theorem C109_flat_groups root resolved l q d own name g k v : named_apart l -> proper q -> select_dirs false root resolved (Some l) q = Ok d ->
  entry_dir l own name -> dget sl_eqb d (root ++ [own]) = Some g -> said q name k v -> dget String.eqb g k = v.
Proof.
  intros N Pr E Hd H S. injection E as <-. destruct (flat_cand root l own name N Hd) as [U X]. rewrite (take_get_one _ _ _ _ _ U), X in H. cbn [andb] in H.
  destruct (dir_filter q own (dir_matches (r_adds q) name)); [|discriminate]. injection H as <-. apply groups_said; assumption.
Qed.

(** They come in the order in which the directory lists them. *)
Inductive part_of {A} : list A -> list A -> Prop :=
| po_nil l : part_of [] l
| po_take x l m : part_of l m -> part_of (x :: l) (x :: m)
| po_skip x l m : part_of l m -> part_of l (x :: m).
Lemma part_filter {A} (f : A -> bool) l : part_of (filter f l) l.
Proof. induction l as [|x l IH]; cbn; [constructor|]. destruct (f x); constructor; exact IH. Qed.
Lemma part_map {A B} (f : A -> B) l m : part_of l m -> part_of (map f l) (map f m).
Proof. induction 1; cbn; constructor; assumption. Qed.
Lemma part_trans {A} (l m n : list A) : part_of l m -> part_of m n -> part_of l n.
Proof.
  intros H G. revert l H. induction G as [n|x m n G IH|x m n G IH]; intros l H.
  - inversion H; subst; constructor.
  - inversion H; subst; constructor; apply IH; assumption.
  - constructor. apply IH; exact H.
Qed.
Lemma take_keys q cs : forall d, NoDup (dkeys d ++ map fst cs) ->
  dkeys (fold_left (take_cand q) cs d) = dkeys d ++ map fst (filter (fun c : cand => dir_filter q (snd (snd c)) (dir_matches (r_adds q) (fst (snd c)))) cs).
Proof.
  induction cs as [|c cs IH]; intros d N; [cbn; rewrite app_nil_r; reflexivity|]. cbn [fold_left map] in *.
  pose proof (NoDup_remove_1 _ _ _ N) as N1. pose proof (NoDup_remove_2 _ _ _ N) as N2.
  unfold take_cand at 2. cbv zeta. cbn [filter]. destruct (dir_filter q (snd (snd c)) (dir_matches (r_adds q) (fst (snd c)))) eqn:E; [|apply IH; exact N1].
  assert (K : dkeys (dset sl_eqb d (fst c) (groups_of (dir_matches (r_adds q) (fst (snd c))))) = dkeys d ++ [fst c]).
  { rewrite (dkeys_dset _ sl_eqb_spec). unfold dmem. rewrite (proj2 (dget_None _ sl_eqb_spec d (fst c))); [reflexivity|]. intros H. apply N2. apply in_or_app. left; exact H. }
  rewrite IH.
  - etransitivity; [apply f_equal2; [exact K|reflexivity]|]. rewrite <- app_assoc. reflexivity.
  - assert (G : forall k : list path, k = dkeys d ++ [fst c] -> NoDup (k ++ map fst cs)) by (intros k ->; rewrite <- app_assoc; exact N).
    apply G. exact K.
Qed.
Theorem C109_order root resolved l q d : NoDup (map n_name l) -> select_dirs false root resolved (Some l) q = Ok d ->
  part_of (dkeys d) (map (fun x => root ++ [n_name x]) l).
Proof.
  intros N E. injection E as <-. unfold take_all. rewrite take_keys; cbn [dkeys map app].
  - apply (part_trans _ (map fst (flat_cands root l))); [apply part_map, part_filter|]. unfold flat_cands. rewrite map_map. cbn [fst]. apply (part_map (fun x => root ++ [n_name x])). apply part_filter.
  - unfold flat_cands. rewrite map_map. cbn [fst]. induction l as [|x l IH]; cbn [filter]; [constructor|]. inversion N as [|y m Hx Hl]; subst.
    destruct (n_isdir x); [|apply IH; exact Hl]. cbn [map]. constructor; [|apply IH; exact Hl]. intros H. apply in_map_iff in H. destruct H as (y & Ey & Hy).
    apply app_inv_head in Ey. injection Ey as Ey. apply Hx. rewrite <- Ey. apply filter_In in Hy. apply in_map. tauto.
Qed.

(** ** All levels *)
(** [sub l p n]: below the directory with entries [l], in the directory [p], there is a directory
    (or a link to one) called [n]; links are not followed. *)
Inductive sub : list node -> path -> string -> Prop :=
| sub_dir l n l' : In (Dir n l') l -> sub l [] n
| sub_link l n t : In (Link n t true) l -> sub l [] n
| sub_below l n l' p m : In (Dir n l') l -> sub l' p m -> sub l (n :: p) m.
Lemma sub_level l p n : sub l p n -> p = [] -> exists x, In x l /\ n_isdir x = true /\ n_name x = n.
Proof. intros [l0 n0 l' H|l0 n0 t H|l0 n0 l' p0 m H _] E; [| |discriminate]; eexists; (split; [exact H|split; reflexivity]). Qed.
Lemma level_sub root l c : In c (level root l) -> exists n, sub l [] n /\ c = (root ++ [n], (n, n)).
Proof.
  unfold level. intros H. apply in_map_iff in H. destruct H as (x & <- & H). apply filter_In in H. destruct H as [H D].
  destruct x as [n|n l'|n t b]; cbn in D; [discriminate| |subst b]; eexists; (split; [|reflexivity]); [econstructor 1|econstructor 2]; exact H.
Qed.
Fixpoint node_size (x : node) : nat := match x with Dir _ l => S (fold_right (fun y n => node_size y + n) 0 l) | _ => 1 end.
Lemma size_in x l : In x l -> (node_size x <= fold_right (fun y n => node_size y + n) 0 l)%nat.
Proof. induction l as [|y l IH]; intros []; cbn; [subst y; lia|]. specialize (IH H). lia. Qed.
Lemma walk_sub_aux n : forall l root c, (fold_right (fun y n => node_size y + n) 0 l < n)%nat -> In c (walk root l) -> exists p m, sub l p m /\ c = (root ++ p ++ [m], (m, m)).
Proof.
  induction n as [|n IH]; intros l root c L H; [lia|]. unfold walk in H. apply in_app_or in H. destruct H as [H|H].
  - apply level_sub in H. destruct H as (m & Hs & ->). exists [], m. auto.
  - apply in_flat_map in H. destruct H as (x & Hx & H). destruct x as [y|y l'|y t b]; cbn [below] in H; try contradiction.
    destruct (IH l' (root ++ [y]) c) as (p & m & Hs & ->); [|exact H|].
    + apply size_in in Hx. cbn [node_size] in Hx. lia.
    + exists (y :: p), m. split; [econstructor; eauto|]. cbn [app]. rewrite <- app_assoc. reflexivity.
Qed.
Lemma walk_sub root l c : In c (walk root l) <-> exists p m, sub l p m /\ c = (root ++ p ++ [m], (m, m)).
Proof.
  split.
  - apply (walk_sub_aux (S (fold_right (fun y n => node_size y + n) 0 l))). lia.
  - intros (p & m & H & ->). revert root. induction H as [l n l' H|l n t H|l n l' p m H Hs IH]; intros root; unfold walk; apply in_or_app.
    + left. unfold level. apply in_map_iff. exists (Dir n l'). split; [reflexivity|]. apply filter_In. auto.
    + left. unfold level. apply in_map_iff. exists (Link n t true). split; [reflexivity|]. apply filter_In. auto.
    + right. apply in_flat_map. exists (Dir n l'). split; [exact H|]. cbn [below]. specialize (IH (root ++ [n])). cbn [app] in *.
      rewrite <- app_assoc in IH. exact IH.
Qed.
Lemma walk_name root l c p m : In c (walk root l) -> fst c = root ++ p ++ [m] -> snd c = (m, m).
Proof.
  intros H E. apply walk_sub in H. destruct H as (p' & m' & _ & ->). cbn [fst snd] in *. apply app_inv_head in E.
  apply app_inj_tail in E. destruct E as [_ ->]. reflexivity.
Qed.
(** The directories taken are those at any depth that are accepted under their
    own names. *)
Theorem C109_walk root resolved l q d : select_dirs true root resolved (Some l) q = Ok d ->
  forall f, (exists g, dget sl_eqb d f = Some g) <-> exists p m, sub l p m /\ f = resolved ++ p ++ [m] /\ accepted q m m.
Proof.
  intros E f. injection E as <-. split.
  - intros (g & H). destruct (existsb (fun c : cand => sl_eqb (fst c) f) (walk resolved l)) eqn:X.
    + apply existsb_exists in X. destruct X as (c & Hc & X). destruct (sl_eqb_spec (fst c) f) as [Ef|]; [|discriminate].
      pose proof Hc as Hc'. apply walk_sub in Hc'. destruct Hc' as (p & m & Hs & Ec). rewrite Ec in Ef. cbn [fst] in Ef. subst f.
      rewrite (take_get_one q _ _ m m) in H by (intros c' H' E'; apply (walk_name resolved l c' p m H' E')).
      destruct (existsb _ _ && dir_filter q m (dir_matches (r_adds q) m)) eqn:F; [|discriminate]. apply andb_true_iff in F. destruct F as [_ F].
      exists p, m. split; [exact Hs|]. split; [reflexivity|]. apply filter_spec; exact F.
    + rewrite (take_get_one q _ _ "" ""), X in H; [discriminate|]. intros c Hc Ec. exfalso.
      assert (existsb (fun c : cand => sl_eqb (fst c) f) (walk resolved l) = true); [|congruence]. apply existsb_exists. exists c. split; [exact Hc|]. rewrite Ec. destruct (sl_eqb_spec f f); congruence.
  - intros (p & m & Hs & -> & A). rewrite (take_get_one q _ _ m m) by (intros c' H' E'; apply (walk_name resolved l c' p m H' E')).
    apply filter_spec in A. rewrite A, andb_true_r.
    assert (X : existsb (fun c : cand => sl_eqb (fst c) (resolved ++ p ++ [m])) (walk resolved l) = true).
    { apply existsb_exists. exists (resolved ++ p ++ [m], (m, m)). split; [apply walk_sub; eauto|]. cbn [fst]. destruct (sl_eqb_spec (resolved ++ p ++ [m]) (resolved ++ p ++ [m])); congruence. }
    rewrite X. eauto.
Qed.
Theorem C109_walk_groups root resolved l q d p m g k v : proper q -> select_dirs true root resolved (Some l) q = Ok d ->
  dget sl_eqb d (resolved ++ p ++ [m]) = Some g -> said q m k v -> dget String.eqb g k = v.
Proof.
  intros Pr E H S. injection E as <-. rewrite (take_get_one q _ _ m m) in H by (intros c' H' E'; apply (walk_name resolved l c' p m H' E')).
  destruct (existsb _ _ && dir_filter q m (dir_matches (r_adds q) m)); [|discriminate]. injection H as <-. apply groups_said; assumption.
Qed.
(** A root that is not there: an empty selection in one case, an error in the other. *)
Theorem C109_missing root resolved q : select_dirs true root resolved None q = Ok [] /\ select_dirs false root resolved None q = Err EFileNotFound.
Proof. split; reflexivity. Qed.

(** ** Runs of the pipeline *)
(** A run whose name is made from the standard options (identifier of the
    configuration, version, time) is recognised, with its scenario and number
    of bins, whatever the switches. *)
Theorem C109_pipeline {F} {K : Fld F} (ftext : F -> string) s n f1 f2 f3 i rest : scenario s -> (0 <= n)%Z ->
  config_id ftext (std_opts s n f1 f2 f3) = Some i -> run_name (i ++ "_" ++ rest)%string [("scenario", Some s); ("nbins", Some (dec (Z.to_nat n)))].
Proof.
  intros S Hn E.
  assert (X : exists r, no_digit_first r /\ i = ("scenario_" ++ s ++ "__n_sp_bins_" ++ dec (Z.to_nat n) ++ r)%string).
  { unfold config_id, std_opts, id_parts in E. cbn [flat_map fst snd app] in E.
    assert (Z' : sv_text ftext (SInt n) = dec (Z.to_nat n)) by (cbn [sv_text]; unfold ztext; destruct (Z.ltb_spec n 0); [lia|reflexivity]).
    rewrite Z' in E. cbn [sv_text] in E.
    exists ((if f1 then "__gcph_minus_gcsp" else "") ++ (if f2 then "__shot_noise_sp_reduced" else "") ++ (if f3 then "__gcph_only_bins_in_spectro_range" else ""))%string.
    split; [destruct f1, f2, f3; try exact I; reflexivity|].
    destruct f1, f2, f3; cbn [app] in E; injection E as <-; unfold join; cbn [String.concat]; cbn [append]; rewrite ?sapp_assoc; cbn [append]; rewrite ?sapp_nil_r; reflexivity. }
  destruct X as (r & Nr & ->). rewrite !sapp_assoc. apply rn_id; [exact S| |].
  - destruct (BatchProps.dec_digits (Z.to_nat n)). split; assumption.
  - destruct r; [reflexivity|exact Nr].
Qed.

(** ** What is not so *)
(** "Mandatory" patterns are not: with an additional pattern that matches, any
    directory is taken, and nothing is known of its scenario. *)
Theorem C109_mandatory_refuted root resolved l q d n l' : named_apart l -> proper q -> select_dirs false root resolved (Some l) q = Ok d ->
  In (Dir n l') l -> (forall g, ~ run_name n g) -> r_adds q <> [] -> (forall p, In p (r_adds q) -> exists g, p n = Some g /\ dget String.eqb g "scenario" = None) ->
  r_filters q = [] -> r_with q = [] -> r_without q = [] -> exists g, dget sl_eqb d (root ++ [n]) = Some g /\ dget String.eqb g "scenario" = None.
Proof.
  intros N Pr E H R A P F W W'. destruct (proj2 (C109_flat root resolved l q d N E (root ++ [n]))) as (g & Hg).
  { exists n, n. split; [econstructor; exact H|]. split; [reflexivity|]. unfold accepted. rewrite F, W, W'. split; [auto|].
    split; [intros p Hp; destruct (P p Hp) as (g & -> & _); discriminate|]. split; [intros ? []|]. split; intros ? []. }
  exists g. split; [exact Hg|]. apply (C109_flat_groups root resolved l q d n n g "scenario" None N Pr E); [econstructor; exact H|exact Hg|].
  apply said_none; [exact R|]. intros p Hp g' Eg. destruct (P p Hp) as (g'' & Eg' & X). congruence.
Qed.
(** A link is judged by the name of its target at one level, by its own in a
    recursive search. *)
Theorem C109_link_refuted : exists l q d d', named_apart l /\ select_dirs false ["r"] ["r"] (Some l) q = Ok d /\ select_dirs true ["r"] ["r"] (Some l) q = Ok d' /\
  dkeys d = [["r"; "latest"]] /\ dkeys d' = [].
Proof.
  exists [Link "latest" ["store"; "run_optimistic_1"] true], (mkReq [] [] [] []). eexists _, _. split.
  - intros x y [<-|[]] [<-|[]] _. reflexivity.
  - split; [reflexivity|]. split; [reflexivity|]. split; reflexivity.
Qed.

Example C109_ex_names :
  run_name "optimistic_12_sp_bins_gcph_minus_gcsp" [("scenario", Some "optimistic"); ("nbins", Some "12")] /\
  run_name "scenario_pessimistic__n_sp_bins_40_1.1.0_2021" [("scenario", Some "pessimistic"); ("nbins", Some "40")] /\ (forall g, ~ run_name "optimistic_12_bins" g).
Proof.
  split; [apply (rn_file "optimistic" "12" "gcph_minus_gcsp"); [left; reflexivity|split; [reflexivity|discriminate]]|].
  split; [apply (rn_id "pessimistic" "40" "_1.1.0_2021"); [right; reflexivity|split; [reflexivity|discriminate]|reflexivity]|].
  intros g H. apply mandatory_some in H. discriminate.
Qed.
Definition ex_tree : list node :=
  [Dir "run_optimistic_a" [Dir "run_pessimistic_inner" []; File "x"]; File "run_optimistic_b"; Dir "other" [Dir "optimistic_4_sp_bins_x" []; Link "run_optimistic_l" ["e"; "y"] true]].
Example C109_ex_flat : select_dirs false ["d"] ["e"] (Some ex_tree) (mkReq [] [] [] []) = Ok [(["d"; "run_optimistic_a"], [("scenario", Some "optimistic")])] /\ named_apart ex_tree.
Proof.
  split; [reflexivity|]. intros x y Hx Hy E. cbn in Hx, Hy. destruct Hx as [<-|[<-|[<-|[]]]], Hy as [<-|[<-|[<-|[]]]]; try reflexivity; discriminate E.
Qed.
Example C109_ex_walk : rmap (@dkeys _ _) (select_dirs true ["d"] ["e"] (Some ex_tree) (mkReq [] [] [] ["inner"])) =
  Ok [["e"; "run_optimistic_a"]; ["e"; "other"; "optimistic_4_sp_bins_x"]; ["e"; "other"; "run_optimistic_l"]].
Proof. reflexivity. Qed.
Example C109_ex_extra : let q := mkReq [fun s => if occurs "th" s then Some [("x", None)] else None] [] [] [] in
  proper q /\ select_dirs false ["d"] ["e"] (Some ex_tree) q = Ok [(["d"; "other"], [("x", None)])] /\ (forall g, ~ run_name "other" g).
Proof.
  cbv zeta. split; [|split; [reflexivity|intros g H; apply mandatory_some in H; discriminate]].
  intros p s g [<-|[]] E. destruct (occurs "th" s); [|discriminate]. injection E as <-. repeat constructor. intros [].
Qed.

Print Assumptions C109_flat.
Print Assumptions C109_flat_groups.
Print Assumptions C109_order.
Print Assumptions C109_walk.
Print Assumptions C109_walk_groups.
Print Assumptions C109_missing.
Print Assumptions C109_pipeline.
Print Assumptions C109_mandatory_refuted.
Print Assumptions C109_link_refuted.
