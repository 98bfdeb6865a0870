(** Property C102, continued: the whole program, its jobs and their order. *)
From Coq Require Import Permutation Sorted.
From Verif Require Import Base SortLib StrLib NameModel NameLemmas FsModel IniModel BatchModel BatchProps BatchProps2 RunModel RunLemmas RunLemmas2 RunProps.
Open Scope list_scope.
Open Scope string_scope.

(** ** The order of the configurations *)
Lemma parts_total a b : parts_leb a b = true \/ parts_leb b a = true.
Proof.
  revert b. induction a as [|x a IH]; intros [|y b]; cbn [parts_leb]; auto. destruct (String.eqb_spec x y) as [->|N].
  - rewrite String.eqb_refl. apply IH.
  - destruct (String.eqb_spec y x) as [->|_]; [congruence|]. destruct (String.leb x y) eqn:E; [auto|]. right. destruct (String.leb_total x y); congruence.
Qed.
Lemma parts_trans a b c : parts_leb a b = true -> parts_leb b c = true -> parts_leb a c = true.
Proof.
  revert b c. induction a as [|x a IH]; intros b c A B; [reflexivity|]. destruct b as [|y b]; [discriminate A|]. destruct c as [|z c]; [discriminate B|]. cbn [parts_leb] in *.
  destruct (String.eqb_spec x y) as [->|Nxy].
  - destruct (String.eqb y z); [apply (IH b c A B)|exact B].
  - destruct (String.eqb_spec y z) as [->|Nyz].
    + destruct (String.eqb_spec x z) as [->|_]; [congruence|exact A].
    + destruct (String.eqb_spec x z) as [->|_].
      * exfalso. apply Nxy. apply String.leb_antisym; assumption.
      * apply (str_leb_trans x y z A B).
Qed.
(** Each configuration once; by the numbers of bins when every name has one, else
    by path. *)
Theorem C102_order fs : Permutation (order_configs fs) fs /\
  ((forall f, In f fs -> file_bins f <> None) ->
     forall i j f g n m, (i < j)%nat -> nth_error (order_configs fs) i = Some f -> nth_error (order_configs fs) j = Some g -> file_bins f = Some n -> file_bins g = Some m -> (n <= m)%nat) /\
  ((exists f, In f fs /\ file_bins f = None) ->
     forall i j f g, (i < j)%nat -> nth_error (order_configs fs) i = Some f -> nth_error (order_configs fs) j = Some g -> parts_leb (parts f) (parts g) = true).
Proof.
  assert (SS : forall (R : string -> string -> Prop) l, StronglySorted R l -> forall i j f g, (i < j)%nat -> nth_error l i = Some f -> nth_error l j = Some g -> R f g).
  { intros R l. induction l as [|a l IH]; intros S i j f g L A B; [destruct i; discriminate A|]. inversion S as [|? ? S' F]; subst. destruct j as [|j]; [lia|]. destruct i as [|i].
    - cbn in A, B. injection A as <-. apply nth_error_In in B. rewrite Forall_forall in F. auto.
    - cbn in A, B. apply (IH S' i j); [lia|assumption..]. }
  unfold order_configs. destruct (forallb _ fs) eqn:E.
  - split; [apply isort_perm|]. split.
    + intros _ i j f g n m L A B Fn Gm. assert (H := SS _ _ (isort_ssorted by_bins ltac:(intros x y; unfold by_bins; rewrite !Nat.leb_le; lia) ltac:(intros x y z; unfold by_bins; rewrite !Nat.leb_le; lia) fs) i j f g L A B).
      unfold le, by_bins in H. rewrite Fn, Gm in H. apply Nat.leb_le. exact H.
    + intros (f & I & N). exfalso. rewrite forallb_forall in E. specialize (E f I). cbv beta in E. rewrite N in E. discriminate E.
  - split; [apply isort_perm|]. split.
    + intros H. exfalso. assert (X : forallb (fun f => match file_bins f with Some _ => true | None => false end) fs = true); [|congruence].
      apply forallb_forall. intros f I. specialize (H f I). destruct (file_bins f); congruence.
    + intros _ i j f g L A B. exact (SS _ _ (isort_ssorted (fun a b => parts_leb (parts a) (parts b)) ltac:(intros x y; apply parts_total) ltac:(intros x y z; apply parts_trans) fs) i j f g L A B).
Qed.

Section Main.
  Variable version : string.
  Variable load : string -> res (Z * string).
  Variable resolve : string -> path.
  Variables cfg_dir data_dir : string.
  Notation os := (run_options cfg_dir data_dir).
  Notation submit := (submit_one version load resolve).
  Variable outcome : event -> res unit.
  Variables now log_now : nat -> string.
  Notation run := (main version load resolve outcome now log_now).

  (** What has been submitted before does not matter. *)
  Lemma submit_state d f n ln st : bsub_state st -> snd (submit d f n ln st) = snd (submit d f n ln bsub_default) /\ bsub_state (fst (submit d f n ln st)).
  Proof.
    intros S. unfold submit_one. destruct (rbind _ _) as [[[[[wd bi] mem] queue] cores]|e]; [|split; [reflexivity|exact S]].
    cbv zeta. rewrite (set_options_state st _ _ _ S), (set_options_state bsub_default _ _ _ (or_introl eq_refl)). split; [reflexivity|]. right. cbn [fst]. eauto.
  Qed.

  (** ** Batch mode *)
  Lemma each_batch_spec d fs : forall i st l x, bsub_state st -> each_batch version load resolve outcome now log_now d i st fs = (l, x) ->
    (forall j e, nth_error l j = Some e -> exists f s, nth_error fs j = Some f /\ e = Submitted s /\ snd (submit d f (now (i + j)) (log_now (i + j)) bsub_default) = Ok s) /\
    (x = Ok tt -> length l = length fs /\ forall s, In (Submitted s) l -> s_test s = true \/ outcome (Submitted s) = Ok tt) /\
    (forall er, x = Err er -> (exists f, nth_error fs (length l) = Some f /\ snd (submit d f (now (i + length l)) (log_now (i + length l)) bsub_default) = Err er) \/
      (exists l' s, l = l' ++ [Submitted s] /\ s_test s = false /\ outcome (Submitted s) = Err er)%list).
  Proof.
    induction fs as [|f fs IH]; intros i st l x S E; cbn [each_batch] in E.
    - injection E as <- <-. split; [intros [|j] e H; discriminate H|]. split; [intros _; split; [reflexivity|intros s []]|discriminate].
    - destruct (submit_state d f (now i) (log_now i) st S) as [Sn Sf]. destruct (submit d f (now i) (log_now i) st) as [st' [s|er]]; cbn [fst snd] in *.
      + destruct (if s_test s then Ok tt else outcome (Submitted s)) as [[]|er] eqn:O.
        * destruct (each_batch _ _ _ _ _ _ d (Datatypes.S i) st' fs) as [l' x'] eqn:R. injection E as <- <-. destruct (IH (Datatypes.S i) st' l' x' Sf R) as (A & B & C). split; [|split].
          -- intros [|j] e H; cbn in H.
             ++ injection H as <-. exists f, s. rewrite Nat.add_0_r. auto.
             ++ destruct (A j e H) as (f' & s' & F & Es & Q). exists f', s'. replace (i + Datatypes.S j)%nat with (Datatypes.S i + j)%nat by lia. auto.
          -- intros X. destruct (B X) as [L T]. split; [cbn; lia|]. intros s' [Es|I]; [|auto]. injection Es as <-. destruct (s_test s); [auto|right; exact O].
          -- intros er X. destruct (C er X) as [(f' & F & Q)|(l0 & s' & -> & T & Q)]; [left; exists f'; cbn [length nth_error]; replace (i + Datatypes.S (length l'))%nat with (Datatypes.S i + length l')%nat by lia; auto|].
             right. exists (Submitted s :: l0), s'. auto.
        * injection E as <- <-. split; [|split; [discriminate|]].
          -- intros [|[|j]] e H; cbn in H; try discriminate H. injection H as <-. exists f, s. rewrite Nat.add_0_r. auto.
          -- intros er' X. injection X as <-. right. exists [], s. destruct (s_test s); [discriminate O|auto].
      + injection E as <- <-. split; [intros [|j] e H; discriminate H|]. split; [discriminate|]. intros er' X. injection X as <-. left. exists f. cbn. rewrite Nat.add_0_r. auto.
  Qed.
  (** One submission per configuration, each as if it were the first; the program
      stops at the first that fails. *)
  Theorem C102_batch lines d fs ps l x : dget String.eqb d "forecast_config" = Some (VList fs) -> dget String.eqb d "execution" = Some (VText "batch") -> get_paths lines fs = Ok ps -> run lines d = (l, x) ->
    (forall i e, nth_error l i = Some e -> exists f s, nth_error (order_configs ps) i = Some f /\ e = Submitted s /\ snd (submit d f (now i) (log_now i) bsub_default) = Ok s) /\
    (x = Ok tt -> length l = length ps /\ forall s, In (Submitted s) l -> s_test s = true \/ outcome (Submitted s) = Ok tt) /\
    (forall er, x = Err er -> (exists f, nth_error (order_configs ps) (length l) = Some f /\ snd (submit d f (now (length l)) (log_now (length l)) bsub_default) = Err er) \/
      (exists l' s, l = l' ++ [Submitted s] /\ s_test s = false /\ outcome (Submitted s) = Err er)%list).
  Proof.
    intros F X P R. unfold main, get_text in R. rewrite F in R. cbn [rbind] in R. rewrite P in R. cbn [rbind] in R. rewrite X in R. cbn [rbind] in R.
    change (String.eqb "batch" "interactive") with false in R. change (String.eqb "batch" "batch") with true in R. cbv iota in R.
    destruct (each_batch_spec d _ 0 bsub_default l x (or_introl eq_refl) R) as (A & B & C). split; [exact A|]. split; [|exact C].
    intros Q. destruct (B Q) as [L T]. split; [|exact T]. rewrite L. destruct (C102_order ps) as [Pm _]. apply Permutation_length. exact Pm.
  Qed.

  (** ** Interactive mode *)
  (** The options of the forecast of one configuration. *)
  Definition forecast_of (d : args) (f now : string) (a : args) : Prop :=
    exists wd b, dget String.eqb d "workdir" = Some (VText wd) /\ dget String.eqb d "is_batch_job" = Some b /\
      dget String.eqb a "workdir" = Some (VText (path_text (if truthy b then resolve wd else run_dir version (resolve wd) f now))) /\
      dget String.eqb a "forecast_config" = Some (VText f) /\ forall k, k <> "workdir" -> k <> "forecast_config" -> dget String.eqb a k = dget String.eqb d k.
  Lemma forecast_args_spec d f n a : forecast_args version resolve d f n = Ok a -> forecast_of d f n a.
  Proof.
    unfold forecast_args, get_text, get_truth. destruct (dget String.eqb d "workdir") as [[| | |wd|]|] eqn:W; cbn [rbind]; try discriminate.
    destruct (dget String.eqb d "is_batch_job") as [b|] eqn:B; cbn [rbind]; [|discriminate]. intros E. injection E as <-. exists wd, b. split; [exact W|]. split; [exact B|].
    split; [apply aset_same|]. split; [rewrite aset_other by discriminate; apply aset_same|]. intros k N1 N2. rewrite aset_other by congruence. apply aset_other. congruence.
  Qed.
  Lemma each_interactive_spec d fs : forall i l x, each_interactive version resolve outcome now d i fs = (l, x) ->
    (forall j e, nth_error l j = Some e -> exists f a, nth_error fs j = Some f /\ e = Forecast a /\ forecast_of d f (now (i + j)) a) /\
    (x = Ok tt -> length l = length fs /\ forall e, In e l -> outcome e = Ok tt) /\
    (forall er, x = Err er -> (l = [] /\ forall a f n, forecast_args version resolve d f n <> Ok a) \/ exists l' a, l = (l' ++ [Forecast a])%list /\ outcome (Forecast a) = Err er).
  Proof.
    induction fs as [|f fs IH]; intros i l x E; cbn [each_interactive] in E.
    - injection E as <- <-. split; [intros [|j] e H; discriminate H|]. split; [intros _; split; [reflexivity|intros e []]|discriminate].
    - destruct (forecast_args version resolve d f (now i)) as [a|er] eqn:Fa.
      + pose proof (forecast_args_spec d f (now i) a Fa) as Sp. destruct (outcome (Forecast a)) as [[]|er] eqn:O.
        * destruct (each_interactive _ _ _ _ d (S i) fs) as [l' x'] eqn:R. injection E as <- <-. destruct (IH (S i) l' x' R) as (A & B & C). split; [|split].
          -- intros [|j] e H; cbn in H.
             ++ injection H as <-. exists f, a. rewrite Nat.add_0_r. auto.
             ++ destruct (A j e H) as (f' & a' & F & Es & Q). exists f', a'. replace (i + S j)%nat with (S i + j)%nat by lia. auto.
          -- intros X. destruct (B X) as [L T]. split; [cbn; lia|]. intros e [<-|I]; [exact O|auto].
          -- intros er X. destruct (C er X) as [(-> & N)|(l0 & a' & -> & Q)].
             ++ exfalso. unfold forecast_args, get_text, get_truth in *. destruct (dget String.eqb d "workdir") as [[| | |wd|]|]; cbn [rbind] in *; try discriminate Fa.
                destruct (dget String.eqb d "is_batch_job") as [b|]; cbn [rbind] in *; [|discriminate Fa]. exact (N _ f (now i) eq_refl).
             ++ right. exists (Forecast a :: l0), a'. auto.
        * injection E as <- <-. split; [|split; [discriminate|]].
          -- intros [|[|j]] e H; cbn in H; try discriminate H. injection H as <-. exists f, a. rewrite Nat.add_0_r. auto.
          -- intros er' X. injection X as <-. right. exists [], a. auto.
      + injection E as <- <-. split; [intros [|j] e H; discriminate H|]. split; [discriminate|]. intros er' X. left. split; [reflexivity|]. intros a f' n Q.
        unfold forecast_args, get_text, get_truth in *. destruct (dget String.eqb d "workdir") as [[| | |wd|]|]; cbn [rbind] in *; try discriminate Q.
        destruct (dget String.eqb d "is_batch_job") as [b|]; cbn [rbind] in *; discriminate.
  Qed.
  Lemma run_interactive lines d fs ps : dget String.eqb d "forecast_config" = Some (VList fs) -> dget String.eqb d "execution" = Some (VText "interactive") -> get_paths lines fs = Ok ps ->
    run lines d = each_interactive version resolve outcome now d 0 (order_configs ps).
  Proof. intros F X P. unfold main, get_text. rewrite F. cbn [rbind]. rewrite P. cbn [rbind]. rewrite X. reflexivity. Qed.
  Theorem C102_interactive ws lines d fs ps l x : parse_args os ws = Some d -> dget String.eqb d "forecast_config" = Some (VList fs) -> dget String.eqb d "execution" = Some (VText "interactive") ->
    get_paths lines fs = Ok ps -> run lines d = (l, x) ->
    (forall i e, nth_error l i = Some e -> exists f a, nth_error (order_configs ps) i = Some f /\ e = Forecast a /\ forecast_of d f (now i) a) /\
    (x = Ok tt -> length l = length ps /\ forall e, In e l -> outcome e = Ok tt) /\
    (forall er, x = Err er -> exists l' a, l = (l' ++ [Forecast a])%list /\ outcome (Forecast a) = Err er).
  Proof.
    intros E F X P R. rewrite (run_interactive lines d fs ps F X P) in R. destruct (each_interactive_spec d _ 0 l x R) as (A & B & C). split; [exact A|]. split.
    - intros Q. destruct (B Q) as [L T]. split; [|exact T]. rewrite L. destruct (C102_order ps) as [Pm _]. apply Permutation_length. exact Pm.
    - intros er Q. destruct (C er Q) as [(-> & N)|H]; [exfalso|exact H].
      assert (Iw : In {| o_name := "workdir"; o_kind := KText; o_required := false; o_default := VText "." |} os) by (cbn; tauto).
      assert (Ib : In {| o_name := "is_batch_job"; o_kind := KFlag; o_required := false; o_default := VFlag false |} os) by (cbn; tauto).
      destruct (value_of version load resolve cfg_dir data_dir ws d _ E Iw) as (w & Dw & _). destruct (value_of version load resolve cfg_dir data_dir ws d _ E Ib) as (b & Db & _). cbn [o_name] in Dw, Db.
      destruct (value_kind version load resolve cfg_dir data_dir ws d _ w E Iw Dw) as [(t & ->)|(-> & D & _)]; [|discriminate D].
      refine (N _ "" "" _). unfold forecast_args, get_text, get_truth. rewrite Dw, Db. reflexivity.
  Qed.

  (** Nothing for "no", an error for any other word. *)
  Theorem C102_modes lines d fs ps m : dget String.eqb d "forecast_config" = Some (VList fs) -> dget String.eqb d "execution" = Some (VText m) -> get_paths lines fs = Ok ps ->
    m <> "interactive" -> m <> "batch" -> run lines d = ([], if String.eqb m "no" then Ok tt else Err EValueError).
  Proof.
    intros F X P N1 N2. unfold main, get_text. rewrite F. cbn [rbind]. rewrite P. cbn [rbind]. rewrite X. cbn [rbind]. apply String.eqb_neq in N1, N2. rewrite N1, N2. destruct (String.eqb m "no"); reflexivity.
  Qed.

  (** ** A batch job *)
  (** The job of a submission runs one forecast: the one an interactive run of the
      same command line at that time would run, up to the options about batch jobs. *)
  Theorem C102_job ws lines d f n ln st st' s bins id b : parse_args os ws = Some d -> bsub_state st -> submit d f n ln st = (st', Ok s) -> load f = Ok (bins, id) ->
    plain_args d -> plain_arg f -> clean (path_text (s_dir s)) -> clean id -> clean ln ->
    suffix f <> ".txt" -> resolve (path_text (s_dir s)) = s_dir s -> dget String.eqb d "is_batch_job" = Some b -> truthy b = false ->
    exists job d' a a0, bsub_job (tl (shell false None (s_text s))) = "run_seyfert" :: job /\ parse_args os job = Some d' /\
      run lines d' = ([Forecast a], outcome (Forecast a)) /\
      forecast_args version resolve d f n = Ok a0 /\
      forall k, In k (map o_name os) -> ~ In k ["execution"; "is_batch_job"; "test_batch"] -> dget String.eqb a k = dget String.eqb a0 k.
  Proof.
    intros E St R L P Pf Pd Ci Cn Nt Rs Db Tb. destruct (C102_submission version load resolve cfg_dir data_dir ws d f n ln st st' s bins id E St R L P Pf Pd Ci Cn) as
      (_ & wd & queue & mem & cores & m & job & d' & Dw & _ & _ & _ & _ & Sd & _ & J & Pj & Jf & Jw & Je & Jb & _ & Jo).
    assert (Fa0 : forecast_args version resolve d f n = Ok (sset (sset d "forecast_config" (VText f)) "workdir" (VText (path_text (s_dir s))))).
    { unfold forecast_args, get_text, get_truth. rewrite Dw. cbn [rbind]. rewrite Db. cbn [rbind]. rewrite Tb, Sd. reflexivity. }
    assert (Fa : forall n', forecast_args version resolve d' f n' = Ok (sset (sset d' "forecast_config" (VText f)) "workdir" (VText (path_text (s_dir s))))).
    { intros n'. unfold forecast_args, get_text, get_truth. rewrite Jw. cbn [rbind]. rewrite Jb. cbn [rbind]. change (truthy (VText "True")) with true. cbv iota. rewrite Rs. reflexivity. }
    exists job, d', (sset (sset d' "forecast_config" (VText f)) "workdir" (VText (path_text (s_dir s)))), (sset (sset d "forecast_config" (VText f)) "workdir" (VText (path_text (s_dir s)))).
    split; [exact J|]. split; [exact Pj|]. split; [|split; [exact Fa0|]].
    - rewrite (run_interactive lines d' [f] [f]); [|exact Jf|exact Je|].
      + replace (order_configs [f]) with [f] by (symmetry; apply Permutation_length_1_inv, Permutation_sym, C102_order). cbn [each_interactive]. rewrite Fa. destruct (outcome _) as [[]|er]; reflexivity.
      + unfold get_paths. cbn [forallb]. apply String.eqb_neq in Nt. rewrite Nt. reflexivity.
    - intros k Ik Nk. destruct (String.eqb_spec k "workdir") as [->|N1]; [rewrite !aset_same; reflexivity|]. rewrite !(aset_other _ "workdir" k) by congruence.
      destruct (String.eqb_spec k "forecast_config") as [->|N2]; [rewrite !aset_same; reflexivity|]. rewrite !(aset_other _ "forecast_config" k) by congruence.
      apply Jo; [|exact Ik]. cbn in Nk |- *. intuition.
  Qed.
End Main.

(** ** What does not hold *)
(** "--test_batch False" asks for a test. *)
Theorem C102_test_batch_refuted version load resolve cfg_dir data_dir ws d f n ln st st' s : parse_args (run_options cfg_dir data_dir) ws = Some d -> bsub_state st ->
  dget String.eqb d "test_batch" = Some (VText "False") -> submit_one version load resolve d f n ln st = (st', Ok s) -> s_test s = true.
Proof.
  intros E S D R. destruct (submit_inv version load resolve cfg_dir data_dir ws d f n ln st st' s E S R) as (wd & q & mem & c & bins & id & t & _ & _ & _ & _ & _ & D5 & Ht & _).
  rewrite D in D5. injection D5 as <-. exact Ht.
Qed.

(** ** A run *)
Definition ex_load (f : string) : res (Z * string) := if String.eqb f "/c/a_40_sp_bins.json" then Ok (40%Z, "id40") else Ok (12%Z, "id12").
Definition ex_options := run_options "/cfg" "/data".
Definition ex_words (wd : string) : list string :=
  ["--execution"; "batch"; "--workdir"; wd; "--memory"; "4096"; "--forecast_config"; "/c/a_40_sp_bins.json"; "/c/b_12_sp_bins.json"; "--fisher_dir"; "/old/fisher"].
Definition ex_args (wd : string) : args := match parse_args ex_options (ex_words wd) with Some d => d | None => [] end.
Definition ex_run (d : args) := main "v1" ex_load to_path (fun _ => Ok tt) (fun _ => "T") (fun _ => "L") (fun _ => None) d.
Definition ex_submitted (wd : string) : list submission := flat_map (fun e => match e with Submitted s => [s] | _ => [] end) (fst (ex_run (ex_args wd))).

Example C102_instance : parse_args ex_options (ex_words "/w") = Some (ex_args "/w") /\ plain_args (ex_args "/w") /\ dget String.eqb (ex_args "/w") "test_batch" = Some (VFlag false) /\
  snd (ex_run (ex_args "/w")) = Ok tt /\
  map (fun s => path_text (s_dir s)) (ex_submitted "/w") = ["/w/run_b_12_sp_bins_v1_T"; "/w/run_a_40_sp_bins_v1_T"] /\
  map (fun s => firstn 9 (shell false None (s_text s))) (ex_submitted "/w") =
    [["bsub"; "-P"; "c7"; "-q"; "long"; "-M"; "4096"; "-n"; "1"]; ["bsub"; "-P"; "c7"; "-q"; "long"; "-M"; "10000"; "-n"; "1"]] /\
  map (fun s => match parse_args ex_options (tl (bsub_job (tl (shell false None (s_text s))))) with
                | Some d' => map (dget String.eqb d') ["workdir"; "fisher_dir"; "angular_dir"; "memory"; "test_batch"] | None => [] end) (ex_submitted "/w") =
    [[Some (VText "/w/run_b_12_sp_bins_v1_T"); Some (VText "/old/fisher"); Some VNone; Some (VInt 4096); Some (VText "False")];
     [Some (VText "/w/run_a_40_sp_bins_v1_T"); Some (VText "/old/fisher"); Some VNone; Some (VInt 4096); Some (VText "False")]].
Proof.
  split; [vm_compute; reflexivity|]. split; [|vm_compute; repeat split; reflexivity].
  intros k v D N Nv. apply (dget_In _ String.eqb_spec) in D. vm_compute in D. repeat (destruct D as [D|D]; [injection D as <- <-; try (exfalso; apply N; cbn; tauto); try congruence; repeat split; discriminate|]). destruct D.
Qed.

(** The jobs of a directory with a space do not start. *)
Theorem C102_space_refuted : exists ws d l, parse_args ex_options ws = Some d /\ ex_run d = (l, Ok tt) /\ length l = 2%nat /\
  forall e, In e l -> exists s, e = Submitted s /\ s_test s = false /\ parse_args ex_options (tl (bsub_job (tl (shell false None (s_text s))))) = None.
Proof.
  exists (ex_words "/my runs"), (ex_args "/my runs"), (fst (ex_run (ex_args "/my runs"))).
  split; [vm_compute; reflexivity|]. split; [vm_compute; reflexivity|]. split; [vm_compute; reflexivity|]. intros e I.
  assert (H : forallb (fun e => match e with Submitted s => negb (s_test s) && match parse_args ex_options (tl (bsub_job (tl (shell false None (s_text s))))) with None => true | Some _ => false end | _ => false end)
    (fst (ex_run (ex_args "/my runs"))) = true) by (vm_compute; reflexivity).
  rewrite forallb_forall in H. specialize (H e I). destruct e as [|s]; [discriminate H|]. exists s. apply andb_true_iff in H as [A B]. split; [reflexivity|]. split; [apply negb_true_iff; exact A|].
  destruct (parse_args _ _); [discriminate B|reflexivity].
Qed.
(** Two configurations of the same name at the same time share a directory. *)
Theorem C102_shared_refuted version wd : exists f f' now, f <> f' /\ run_dir version wd f now = run_dir version wd f' now.
Proof. exists "/a/x.json", "/b/x.json", "T". split; [discriminate|reflexivity]. Qed.

Print Assumptions C102_own_directory.
Print Assumptions C102_submission.
Print Assumptions C102_order.
Print Assumptions C102_batch.
Print Assumptions C102_interactive.
Print Assumptions C102_modes.
Print Assumptions C102_job.
Print Assumptions C102_test_batch_refuted.
Print Assumptions C102_space_refuted.
Print Assumptions C102_shared_refuted.
