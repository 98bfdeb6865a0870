(** Property C102: the command line of run_seyfert and the lists of configurations. *)
From Verif Require Import Base SortLib StrLib NameModel NameLemmas FsModel IniModel IniProps BatchModel RunModel RunLemmas.
Open Scope list_scope.
Open Scope string_scope.

(** ** The command line *)
(** Words that are values: those that do not begin with "-", "-" and numbers. *)
Definition argument (w : string) : Prop := starts "-" w = false \/ w = "-" \/ exists n, w = ztext n.
Lemma argument_is w : argument w -> is_argument w = true.
Proof.
  intros [H|[->|(n & ->)]]; [|reflexivity|apply argument_number].
  destruct w as [|a w]; [reflexivity|]. unfold is_argument. assert (N : a <> "-"%char). { intros ->. discriminate H. }
  destruct a as [[] [] [] [] [] [] [] []]; try reflexivity. congruence.
Qed.
(** The options with what they are when left away. *)
Definition flags : list string := ["test_batch"; "is_batch_job"].
Definition numbers : list (string * Z) := [("n_cores_per_job", 1%Z); ("memory", 2048%Z)].
Definition texts (cfg data : string) : list (string * value) :=
  [("powerspectrum_config", VText (cfg ++ "/power_spectrum_config.json")); ("angular_config", VText (cfg ++ "/angular_config.json"));
   ("derivative_config", VText (cfg ++ "/derivative_config.json")); ("fisher_config", VText (cfg ++ "/fisher_config.json")); ("results_config", VText (cfg ++ "/results_config.json"));
   ("powerspectrum_dir", VNone); ("angular_dir", VNone); ("derivative_dir", VNone); ("fisher_dir", VNone);
   ("queue", VText "long"); ("workdir", VText "."); ("input_data_dir", VText data)].
(** What the words after an option stand for. *)
Inductive given : string -> list string -> value -> Prop :=
| g_text cfg data k v w : In (k, v) (texts cfg data) -> given k [w] (VText w)
| g_exec w : given "execution" [w] (VText w)
| g_number k m n : In (k, m) numbers -> given k [ztext n] (VInt n)
| g_flag k : In k flags -> given k [] (VFlag true)
| g_flag_text k w : In k flags -> given k [w] (VText w)
| g_list w ws : given "forecast_config" (w :: ws) (VList (w :: ws)).
Definition line (l : list (string * list string * value)) : list string := flat_map (fun x => ("--" ++ fst (fst x)) :: snd (fst x)) l.
Definition names (l : list (string * list string * value)) : list string := map (fun x => fst (fst x)) l.

Section Line.
  Variables cfg data : string.
  Let os := run_options cfg data.
  Lemma os_names : NoDup (map o_name os).
  Proof. apply (NoDup_count_occ' string_dec). intros x H. unfold os in *. cbn in H. decompose [or] H; try contradiction; subst x; vm_compute; reflexivity. Qed.
  Lemma given_opt k ws v : given k ws v -> exists o, In o os /\ o_name o = k /\ take (o_kind o) ws = Some v.
  Proof.
    intros G. assert (F : exists o, find_opt os ("--" ++ k) = Some o /\ take (o_kind o) ws = Some v).
    { destruct G as [cfg' data' k v w H|w|k m n H|k H|k w H|w ws].
      - unfold texts in H. cbn [In] in H. decompose [or] H; try contradiction; clear H; match goal with X : (_, _) = (_, _) |- _ => injection X; intros; subst end; (eexists; split; [reflexivity|reflexivity]).
      - eexists; split; reflexivity.
      - cbn in H. decompose [or] H; try contradiction; clear H; match goal with X : (_, _) = (_, _) |- _ => injection X; intros; subst end;
          (eexists; split; [reflexivity|cbn [take o_kind]; rewrite parse_ztext; reflexivity]).
      - cbn in H. decompose [or] H; try contradiction; subst k; (eexists; split; reflexivity).
      - cbn in H. decompose [or] H; try contradiction; subst k; (eexists; split; reflexivity).
      - eexists; split; reflexivity. }
    destruct F as (o & Fo & T). apply find_opt_some in Fo. destruct Fo as (Io & E). apply dashes_inj in E. exists o. auto.
  Qed.
  Lemma group_args ws acc : (forall w, In w ws -> is_argument w = true) -> fold_right group_step acc ws = (ws ++ fst acc, snd acc)%list.
  Proof.
    destruct acc as [p g]. intros H. induction ws as [|w ws IH]; [reflexivity|]. cbn [fold_right]. rewrite IH by (intros; apply H; right; assumption). unfold group_step. cbn [fst snd]. rewrite H by (left; reflexivity). reflexivity.
  Qed.
  Lemma group_line l : (forall x w, In x l -> In w (snd (fst x)) -> is_argument w = true) -> group (line l) = Some (map (fun x => ("--" ++ fst (fst x), snd (fst x))) l).
  Proof.
    intros H. unfold group. assert (E : fold_right group_step ([], []) (line l) = ([], map (fun x => ("--" ++ fst (fst x), snd (fst x))) l)); [|rewrite E; reflexivity].
    induction l as [|[[k ws] v] l IH]; [reflexivity|]. unfold line. cbn [flat_map map fst snd]. cbn [app fold_right]. rewrite fold_right_app. fold (line l). rewrite IH by (intros; eapply H; [right|]; eassumption).
    rewrite group_args by (intros w Hw; apply (H (k, ws, v) w); [left; reflexivity|exact Hw]). unfold group_step. cbn [fst snd]. rewrite option_not_argument, app_nil_r. reflexivity.
  Qed.
  Lemma parse_line l : (forall k ws v, In (k, ws, v) l -> given k ws v) -> forall d, dkeys d = map o_name os ->
    exists d', parse_groups os (map (fun x => ("--" ++ fst (fst x), snd (fst x))) l) d = Some d' /\ dkeys d' = map o_name os /\
      (forall pre k ws v post, l = (pre ++ (k, ws, v) :: post)%list -> ~ In k (names post) -> dget String.eqb d' k = Some v) /\
      (forall k, ~ In k (names l) -> dget String.eqb d' k = dget String.eqb d k).
  Proof.
    induction l as [|[[k ws] v] l IH]; intros H d Dk.
    - exists d. split; [reflexivity|]. split; [exact Dk|]. split; [|reflexivity]. intros pre k ws v post E. destruct pre; discriminate E.
    - destruct (given_opt k ws v (H k ws v (or_introl eq_refl))) as (o & Io & <- & T).
      destruct (IH (fun k' ws' v' I => H k' ws' v' (or_intror I)) (sset d (o_name o) v)) as (d' & P & Dk' & L & Nl).
      { rewrite sset_keys; [exact Dk|]. rewrite Dk. apply in_map. exact Io. }
      exists d'. cbn [map parse_groups fst snd]. rewrite (find_opt_named os o os_names Io), T. split; [exact P|]. split; [exact Dk'|]. split.
      + intros [|x pre] k' ws' v' post E Np; cbn in E; injection E as E1 E2.
        * subst. rewrite Nl by exact Np. apply aset_same.
        * apply (L pre k' ws' v' post E2 Np).
      + intros k' Nk. cbn in Nk. rewrite Nl by tauto. apply aset_other. tauto.
  Qed.
  (** A command line with the two required options is read: every option has the
      value given last, or its default. *)
  Theorem C102_command_line l : (forall k ws v, In (k, ws, v) l -> given k ws v /\ forall w, In w ws -> argument w) ->
    In "execution" (names l) -> In "forecast_config" (names l) ->
    exists d, parse_args os (line l) = Some d /\
      (forall pre k ws v post, l = (pre ++ (k, ws, v) :: post)%list -> ~ In k (names post) -> dget String.eqb d k = Some v) /\
      (forall k, ~ In k (names l) ->
         (In k flags -> dget String.eqb d k = Some (VFlag false)) /\
         (forall n, In (k, n) numbers -> dget String.eqb d k = Some (VInt n)) /\
         (forall v, In (k, v) (texts cfg data) -> dget String.eqb d k = Some v)).
  Proof.
    intros H He Hf. unfold parse_args. rewrite group_line. 2:{ intros [[k ws] v] w I Hw. apply argument_is. apply (proj2 (H _ _ _ I)). exact Hw. }
    assert (R : forallb (fun o => negb (o_required o) || existsb (fun g => String.eqb ("--" ++ o_name o) (fst g)) (map (fun x => ("--" ++ fst (fst x), snd (fst x))) l)) os = true).
    { assert (G : forall k, In k (names l) -> existsb (fun g => String.eqb ("--" ++ k) (fst g)) (map (fun x => ("--" ++ fst (fst x), snd (fst x))) l) = true).
      { intros k Hk. apply existsb_exists. unfold names in Hk. apply in_map_iff in Hk. destruct Hk as (x & <- & Ix). eexists. split; [apply in_map_iff; exists x; split; [reflexivity|exact Ix]|]. cbn [fst]. apply String.eqb_refl. }
      unfold os, run_options. cbn [forallb o_required o_name negb orb]. rewrite (G _ He), (G _ Hf). reflexivity. }
    rewrite R. destruct (parse_line l (fun k ws v I => proj1 (H k ws v I)) (map (fun o => (o_name o, o_default o)) os)) as (d & P & _ & L & N); [unfold dkeys; rewrite map_map; reflexivity|].
    exists d. split; [exact P|]. split; [exact L|]. intros k Nk. split; [|split].
    - intros I. rewrite N by exact Nk. cbn in I. decompose [or] I; try contradiction; subst k; reflexivity.
    - intros n I. rewrite N by exact Nk. cbn in I. decompose [or] I; try contradiction; match goal with X : (_, _) = (_, _) |- _ => injection X; intros; subst end; reflexivity.
    - intros v I. rewrite N by exact Nk. unfold texts in I. cbn [In] in I. decompose [or] I; try contradiction; match goal with X : (_, _) = (_, _) |- _ => injection X; intros; subst end; reflexivity.
  Qed.
  (** Command lines that end the program: without a required option, with a word
      before the first option, with an unknown option. *)
  Theorem C102_usage ws :
    (forall k, In k ["execution"; "forecast_config"] -> ~ In ("--" ++ k) ws -> parse_args os ws = None) /\
    (forall w r, ws = w :: r -> argument w -> parse_args os ws = None) /\
    (forall w, In w ws -> starts "--" w = true -> (forall k, w = "--" ++ k -> ~ In k (flags ++ map fst numbers ++ map fst (texts cfg data) ++ ["execution"; "forecast_config"])) -> parse_args os ws = None).
  Proof.
    assert (G : forall ws p g, fold_right group_step ([], []) ws = (p, g) -> ws = (p ++ flat_map (fun x => fst x :: snd x) g)%list /\ forall w, In w ws -> is_argument w = false -> exists r, In (w, r) g).
    { clear. induction ws as [|w ws IH]; intros p g E; [injection E as <- <-; split; [reflexivity|intros w []]|]. cbn [fold_right] in E. destruct (fold_right group_step ([], []) ws) as [p0 g0] eqn:E0.
      destruct (IH p0 g0 eq_refl) as (E1 & A). unfold group_step in E. destruct (is_argument w) eqn:Aw; injection E as <- <-.
      - split; [cbn; f_equal; exact E1|]. intros w' [<-|I] Nw; [congruence|apply A; assumption].
      - split; [cbn; f_equal; exact E1|]. intros w' [<-|I] Nw; [exists p0; left; reflexivity|]. destruct (A w' I Nw) as (r & Ir). exists r. right. exact Ir. }
    unfold parse_args, group. destruct (fold_right group_step ([], []) ws) as [p g] eqn:E. destruct (G ws p g E) as (Ew & A). split; [|split].
    - intros k Hk Nk. destruct p as [|]; [|reflexivity].
      assert (X : existsb (fun g => String.eqb ("--" ++ k) (fst g)) g = false).
      { apply not_true_is_false. intros X. apply existsb_exists in X. destruct X as ([w r] & I & Eq). apply String.eqb_eq in Eq. cbn in Eq. apply Nk. rewrite Ew. apply in_or_app. right. apply in_flat_map. exists (w, r). split; [exact I|left; symmetry; exact Eq]. }
      destruct (forallb _ os) eqn:F; [|reflexivity]. rewrite forallb_forall in F. cbn in Hk. destruct Hk as [<-|[<-|[]]].
      + specialize (F {| o_name := "execution"; o_kind := KText; o_required := true; o_default := VNone |}). cbn [o_required o_name negb orb] in F. rewrite X in F. symmetry. discriminate F. unfold os; cbn; eauto 30.
      + specialize (F {| o_name := "forecast_config"; o_kind := KList; o_required := true; o_default := VNone |}). cbn [o_required o_name negb orb] in F. rewrite X in F. symmetry. discriminate F. unfold os; cbn; eauto 30.
    - intros w r -> Aw. apply argument_is in Aw. destruct p as [|]; [|reflexivity]. exfalso. cbn [fold_right] in E. destruct (fold_right group_step ([], []) r) as [p0 g0]. unfold group_step in E. rewrite Aw in E. discriminate E.
    - intros w Iw Sw Nw. destruct p as [|]; [|reflexivity]. destruct (forallb _ os); [|reflexivity].
      assert (Na : is_argument w = false /\ exists k, w = "--" ++ k). { unfold starts in Sw. destruct (strip_prefix "--" w) as [k|] eqn:Ek; [|discriminate Sw]. apply strip_prefix_some in Ek. subst w. split; [reflexivity|exists k; reflexivity]. }
      destruct Na as (Na & k & Ek). destruct (A w Iw Na) as (r & Ir). clear -Ir Ek Nw.
      assert (Fo : find_opt os w = None).
      { destruct (find_opt os w) as [o|] eqn:Fo; [exfalso|reflexivity]. apply find_opt_some in Fo. destruct Fo as (Io & Eo). apply (Nw (o_name o) Eo). clear -Io. unfold os in Io. cbn [In run_options] in Io. decompose [or] Io; try contradiction; subst o; cbn; eauto 30. }
      generalize (map (fun o => (o_name o, o_default o)) os). induction g as [|[w' ws'] g IH]; intros d; [destruct Ir|]. destruct Ir as [Eq|Ir].
      + injection Eq as -> ->. cbn [parse_groups]. rewrite Fo. reflexivity.
      + cbn [parse_groups]. destruct (find_opt os w'); [|reflexivity]. destruct (take _ ws'); [|reflexivity]. apply IH. exact Ir.
  Qed.
End Line.

(** ** Lists of configurations *)
Definition blank (s : string) : Prop := all_chars is_space s = true.
Lemma lstrip_blank u s : blank u -> lstrip (u ++ s) = lstrip s.
Proof. unfold blank. induction u as [|a u IH]; [reflexivity|]. cbn. intros H. apply andb_true_iff in H. destruct H as (-> & H). apply IH. exact H. Qed.
Lemma rstrip_blank u : blank u -> rstrip u = "".
Proof. unfold blank. induction u as [|a u IH]; [reflexivity|]. cbn. intros H. apply andb_true_iff in H. destruct H as (-> & H). rewrite IH by exact H. reflexivity. Qed.
Lemma strip_between u f v a b g : blank u -> blank v -> f = String a "" \/ f = String a (g ++ String b "") -> is_space a = false -> is_space b = false -> strip (u ++ f ++ v) = f.
Proof.
  intros U V Ef A B. unfold strip. rewrite lstrip_blank by exact U. assert (L : lstrip (f ++ v) = f ++ v) by (destruct Ef as [->| ->]; cbn; rewrite A; reflexivity). rewrite L.
  rewrite rstrip_app, rstrip_blank by exact V. destruct Ef as [->| ->]; [cbn; rewrite A; reflexivity|].
  change (String a (g ++ String b "")) with (String a g ++ String b ""). rewrite rstrip_app. cbn. rewrite B. reflexivity.
Qed.
(** A line with the path [f] between blanks. *)
Definition holds (l f : string) : Prop := exists u v a b g, l = u ++ f ++ v /\ blank u /\ blank v /\ is_space a = false /\ is_space b = false /\ (f = String a "" \/ f = String a (g ++ String b "")).
(** Lists whose names all end in .txt are replaced by the paths on their lines, in
    order; an empty line is the current directory.  With any other file among
    them all files are configurations themselves. *)
Theorem C102_configs lines fs :
  ((exists f, In f fs /\ suffix f <> ".txt") -> get_paths lines fs = Ok fs) /\
  ((forall f, In f fs -> suffix f = ".txt") ->
     (forall (text : string -> list string) (paths : string -> list string),
        (forall f, In f fs -> lines f = Some (text f) /\ Forall2 (fun l p => holds l p \/ (blank l /\ p = ".")) (text f) (paths f)) ->
        get_paths lines fs = Ok (flat_map paths fs)) /\
     ((exists f, In f fs /\ lines f = None) -> get_paths lines fs = Err EFileNotFound)).
Proof.
  unfold get_paths. split; [|intros T].
  - intros (f & I & N). destruct (forallb _ fs) eqn:E; [|reflexivity]. rewrite forallb_forall in E. specialize (E f I). apply String.eqb_eq in E. contradiction.
  - assert (E : forallb (fun f => String.eqb (suffix f) ".txt") fs = true) by (apply forallb_forall; intros f I; apply String.eqb_eq, T, I). rewrite E. clear E T. split.
    + intros text paths H. assert (R : rmapM (fun f => match lines f with Some ls => Ok (map line_path ls) | None => Err EFileNotFound end) fs = Ok (map paths fs)).
      { induction fs as [|f fs IH]; [reflexivity|]. cbn [rmapM map]. destruct (H f (or_introl eq_refl)) as (-> & L). rewrite IH by (intros; apply H; right; assumption). cbn [rbind].
        assert (Q : map line_path (text f) = paths f); [|rewrite Q; reflexivity].
        clear -L. induction L as [|l p ls ps Hl L IH]; [reflexivity|]. cbn [map]. f_equal; [|exact IH]. unfold line_path. destruct Hl as [(u & v & a & b & g & -> & U & V & A & B & Ef)|(Bl & ->)].
        - rewrite (strip_between u p v a b g U V Ef A B). destruct Ef as [->| ->]; reflexivity.
        - unfold strip. rewrite <- (sapp_nil_r l), lstrip_blank by exact Bl. reflexivity. }
      rewrite R. cbn. f_equal. symmetry. apply flat_map_concat_map.
    + intros (f & I & N). assert (R : rmapM (fun f => match lines f with Some ls => Ok (map line_path ls) | None => Err EFileNotFound end) fs = Err EFileNotFound); [|rewrite R; reflexivity].
      induction fs as [|g fs IH]; [destruct I|]. cbn [rmapM]. destruct (lines g) eqn:Eg; [|reflexivity]. destruct I as [->|I]; [congruence|]. rewrite IH by exact I. reflexivity.
Qed.

(** ** A command line and a list *)
Example C102_line_instance : exists d, parse_args (run_options "/cfg" "/data") ["--memory"; "-5"; "--execution"; "batch"; "--test_batch"; "--forecast_config"; "a.json"; "b.json"; "--memory"; "4096"] = Some d /\
  map (dget String.eqb d) ["memory"; "test_batch"; "is_batch_job"; "forecast_config"; "queue"] = [Some (VInt 4096); Some (VFlag true); Some (VFlag false); Some (VList ["a.json"; "b.json"]); Some (VText "long")].
Proof.
  destruct (C102_command_line "/cfg" "/data" [("memory", [ztext (-5)], VInt (-5)); ("execution", ["batch"], VText "batch"); ("test_batch", [], VFlag true); ("forecast_config", ["a.json"; "b.json"], VList ["a.json"; "b.json"]); ("memory", [ztext 4096], VInt 4096)]) as (d & P & L & D).
  - intros k ws v H. cbn [In] in H. decompose [or] H; try contradiction; clear H; match goal with X : _ = _ |- _ => injection X; clear X; intros; subst end.
    + split; [apply (g_number "memory" 2048); cbn; tauto|]. intros w [<-|[]]. right. right. eexists. reflexivity.
    + split; [apply g_exec|]. intros w [<-|[]]. left. reflexivity.
    + split; [apply g_flag; cbn; tauto|]. intros w [].
    + split; [apply g_list|]. intros w [<-|[<-|[]]]; left; reflexivity.
    + split; [apply (g_number "memory" 2048); cbn; tauto|]. intros w [<-|[]]. right. right. eexists. reflexivity.
  - cbn. tauto.
  - cbn. tauto.
  - exists d. split; [exact P|]. cbn [map].
    rewrite (L [("memory", [ztext (-5)], VInt (-5)); ("execution", ["batch"], VText "batch"); ("test_batch", [], VFlag true); ("forecast_config", ["a.json"; "b.json"], VList ["a.json"; "b.json"])] "memory" [ztext 4096] (VInt 4096) [] eq_refl) by (intros []).
    rewrite (L [("memory", [ztext (-5)], VInt (-5)); ("execution", ["batch"], VText "batch")] "test_batch" [] (VFlag true) _ eq_refl) by (cbn; intuition discriminate).
    rewrite (proj1 (D "is_batch_job" ltac:(cbn; intuition discriminate))) by (cbn; tauto).
    rewrite (L [("memory", [ztext (-5)], VInt (-5)); ("execution", ["batch"], VText "batch"); ("test_batch", [], VFlag true)] "forecast_config" _ _ _ eq_refl) by (cbn; intuition discriminate).
    rewrite (proj2 (proj2 (D "queue" ltac:(cbn; intuition discriminate))) (VText "long")) by (cbn; tauto). reflexivity.
Qed.
Example C102_list_instance : get_paths (fun f => if String.eqb f "runs.txt" then Some ["  a.json "; ""; "b.json"] else None) ["runs.txt"] = Ok ["a.json"; "."; "b.json"].
Proof.
  destruct (C102_configs (fun f => if String.eqb f "runs.txt" then Some ["  a.json "; ""; "b.json"] else None) ["runs.txt"]) as (_ & H).
  destruct H as (H & _). { intros f [<-|[]]. reflexivity. }
  refine (H (fun _ => ["  a.json "; ""; "b.json"]) (fun _ => ["a.json"; "."; "b.json"]) _). intros f [<-|[]]. split; [reflexivity|].
  constructor; [|constructor; [|constructor; [|constructor]]].
  - left. exists "  ", " ", "a"%char, "n"%char, ".jso". repeat split; try reflexivity. right. reflexivity.
  - right. split; reflexivity.
  - left. exists "", "", "b"%char, "n"%char, ".jso". repeat split; try reflexivity. right. reflexivity.
Qed.

Print Assumptions C102_command_line.
Print Assumptions C102_usage.
Print Assumptions C102_configs.
