(** Property C102: the forecasts of run_seyfert, in one process or as batch jobs. *)
From Coq Require Import Permutation Sorted.
From Verif Require Import Base SortLib StrLib NameModel NameLemmas FsModel IniModel BatchModel BatchProps BatchProps2 RunModel RunLemmas RunLemmas2.
Open Scope list_scope.
Open Scope string_scope.

(** ** Names of directories and log files *)
Lemma has_join_slash c l : c <> "/"%char -> has c (join "/" l) = existsb (has c) l.
Proof.
  intros N. induction l as [|a l IH]; [reflexivity|]. destruct l as [|b l]; [cbn; rewrite orb_false_r; reflexivity|].
  change (join "/" (a :: b :: l)) with (a ++ "/" ++ join "/" (b :: l)). rewrite !has_app, IH. cbn [existsb has].
  destruct (Ascii.eqb_spec "/" c) as [E|]; [congruence|]. reflexivity.
Qed.
Lemma has_path c p : c <> "/"%char -> has c (path_text p) = existsb (has c) p.
Proof. intros N. unfold path_text. rewrite has_app, has_join_slash by exact N. cbn [has]. destruct (Ascii.eqb_spec "/" c) as [E|]; [congruence|]. reflexivity. Qed.
Lemma clean_path p : clean (path_text p) <-> forall x, In x p -> has " " x = false /\ has """" x = false.
Proof.
  unfold clean. rewrite !has_path by discriminate. split.
  - intros (_ & A & B) x I. split; [destruct (has " " x) eqn:E; [|reflexivity]|destruct (has """" x) eqn:E; [|reflexivity]];
      (assert (X : existsb (has _) p = true) by (apply existsb_exists; exists x; split; [exact I|exact E])); congruence.
  - intros H. split; [discriminate|]. split; (destruct (existsb _ p) eqn:E; [|reflexivity]); apply existsb_exists in E as (x & I & E); destruct (H x I); congruence.
Qed.
Lemma tail_inj (a b x y : string) : String.length x = String.length y -> a ++ x = b ++ y -> a = b /\ x = y.
Proof.
  intros L. revert b. induction a as [|c a IH]; intros b E.
  - destruct b as [|e b]; [auto|]. exfalso. apply (f_equal String.length) in E. cbn [append] in E. cbn [String.length] in E. rewrite slen_app in E. lia.
  - destruct b as [|e b].
    + exfalso. apply (f_equal String.length) in E. cbn [append] in E. cbn [String.length] in E. rewrite slen_app in E. lia.
    + cbn [append] in E. injection E as <- E. destruct (IH b E) as [-> ->]. auto.
Qed.

Section Props.
  Variable version : string.
  Variable load : string -> res (Z * string).
  Variable resolve : string -> path.
  Variables cfg_dir data_dir : string.
  Notation os := (run_options cfg_dir data_dir).
  Notation submit := (submit_one version load resolve).

  Lemma names_nodup : NoDup (map o_name os).
  Proof. cbn. repeat (constructor; [cbn; intuition discriminate|]). constructor. Qed.

  (** Two runs share a directory only if their configurations have the same stem
      and they were started at the same time. *)
  Theorem C102_own_directory wd f f' now now' : String.length now = String.length now' ->
    run_dir version wd f now = run_dir version wd f' now' -> stem (to_path f) = stem (to_path f') /\ now = now'.
  Proof.
    intros L E. unfold run_dir in E. apply app_inj_tail in E as [_ E]. apply sapp_inj_l in E.
    rewrite <- !sapp_assoc in E. apply tail_inj in E as [E ->]; [|exact L]. split; [|reflexivity].
    apply tail_inj in E as [E _]; [|reflexivity]. apply tail_inj in E as [E _]; [|reflexivity]. apply tail_inj in E as [E _]; [|reflexivity]. exact E.
  Qed.

  (** ** A submission *)
  (** A value the shell and argparse take for one argument. *)
  Definition plain_arg (w : string) : Prop := clean w /\ is_argument w = true.
  Definition changed : list string := ["forecast_config"; "workdir"; "is_batch_job"; "execution"].
  Definition plain_args (d : args) : Prop := forall k v, dget String.eqb d k = Some v -> ~ In k changed -> v <> VNone -> plain_arg (value_text v).
  (** The object that submits: its options before and after the first submission. *)
  Definition bsub_state (st : bopts) : Prop := st = bsub_default \/ exists q m n, st = [("-P", "c7"); ("-q", q); ("-M", m); ("-n", n)].
  Lemma set_options_state st q n m : bsub_state st -> set_options st q n m = [("-P", "c7"); ("-q", q); ("-M", ztext m); ("-n", ztext n)].
  Proof. intros [->|(q0 & m0 & n0 & ->)]; reflexivity. Qed.
  Definition log_file (dir : path) (k id log_now : string) : string := path_text (dir ++ ["batch_logs"; k; (k ++ "_" ++ id ++ "_" ++ log_now ++ "." ++ k)%string])%list.
  Definition resources (m : string) : string := "-Rselect[avx && mem>" ++ m ++ "] rusage[mem=" ++ m ++ "]".
  Definition job_memory (mem bins m : Z) : Prop := ((24 < bins /\ mem < 10000) /\ m = 10000 \/ (bins <= 24 \/ 10000 <= mem) /\ m = mem)%Z.

  Lemma value_of ws d o : parse_args os ws = Some d -> In o os -> exists v, dget String.eqb d (o_name o) = Some v /\
    ((exists l, take (o_kind o) l = Some v) \/ (v = o_default o /\ o_required o = false)).
  Proof. intros E I. apply (parse_args_values os ws d names_nodup E). exact I. Qed.
  (** What the values of the options look like. *)
  Lemma value_kind ws d o v : parse_args os ws = Some d -> In o os -> dget String.eqb d (o_name o) = Some v ->
    match o_kind o with
    | KText => (exists s, v = VText s) \/ (v = VNone /\ o_default o = VNone /\ o_required o = false)
    | KInt => exists n, v = VInt n
    | KFlag => (exists s, v = VText s) \/ exists b, v = VFlag b
    | KList => exists l, v = VList l
    end.
  Proof.
    intros E I D. destruct (value_of ws d o E I) as (v' & D' & H). assert (v' = v) by congruence. subst v'. destruct H as [(l & T)|(-> & R)].
    - destruct (o_kind o).
      + destruct l as [|w [|]]; try discriminate T. injection T as <-. eauto.
      + destruct l as [|w [|]]; try discriminate T. cbn in T. destruct (parse_int w); [|discriminate T]. injection T as <-. eauto.
      + destruct l as [|w [|]]; try discriminate T; injection T as <-; eauto.
      + destruct l as [|w l]; try discriminate T. injection T as <-. eauto.
    - cbn [In] in I. clear D E. repeat (destruct I as [<-|I]; [cbn in *; try discriminate R; eauto 6|]). destruct I.
  Qed.

  Lemma submit_inv ws d f now log_now st st' s : parse_args os ws = Some d -> bsub_state st -> submit d f now log_now st = (st', Ok s) ->
    exists wd queue mem cores bins id t, dget String.eqb d "workdir" = Some (VText wd) /\ dget String.eqb d "queue" = Some (VText queue) /\
      dget String.eqb d "memory" = Some (VInt mem) /\ dget String.eqb d "n_cores_per_job" = Some (VInt cores) /\ load f = Ok (bins, id) /\
      dget String.eqb d "test_batch" = Some t /\ s_test s = truthy t /\ s_dir s = run_dir version (resolve wd) f now /\
      st' = [("-P", "c7"); ("-q", queue); ("-M", ztext (bsub_memory mem bins)); ("-n", ztext cores)] /\
      let arguments := sset (sset (sset d "forecast_config" (VText f)) "workdir" (VText (path_text (s_dir s)))) "is_batch_job" (VFlag true) in
      bsub_command st' (interactive_command arguments) (log_file (s_dir s) "err" id log_now) (log_file (s_dir s) "out" id log_now) = Ok (s_text s).
  Proof.
    intros E S R. unfold submit_one, get_text, get_int in R.
    destruct (dget String.eqb d "workdir") as [[| | |wd|]|]; cbn [rbind] in R; try discriminate R.
    destruct (load f) as [[bins id]|]; cbn [rbind] in R; [|discriminate R].
    destruct (dget String.eqb d "memory") as [[| |mem| |]|]; cbn [rbind] in R; try discriminate R.
    destruct (dget String.eqb d "queue") as [[| | |queue|]|]; cbn [rbind] in R; try discriminate R.
    destruct (dget String.eqb d "n_cores_per_job") as [[| |cores| |]|]; cbn [rbind] in R; try discriminate R.
    cbv zeta in R. rewrite (set_options_state st queue cores _ S) in R. unfold get_truth in R. destruct (dget String.eqb d "test_batch") as [t|]; cbn [rbind] in R; [|discriminate R].
    match type of R with (_, rbind ?x _) = _ => destruct x as [c|] eqn:C; cbn [rbind] in R; [|discriminate R] end. injection R as <- <-.
    exists wd, queue, mem, cores, bins, id, t. cbn [s_test s_dir s_text fst snd] in *. repeat (split; [reflexivity|]). cbv zeta. unfold log_file. cbn [snd] in C. rewrite <- !app_assoc in C. exact C.
  Qed.

  (** ** The command of a submission *)
  Lemma command_words d : interactive_command d = join " " ("run_seyfert" :: flat_map pair_words (printed_pairs (sset d "execution" (VText "interactive")))).
  Proof.
    unfold interactive_command. cbv zeta. set (e := sset d "execution" (VText "interactive")).
    assert (NE : flat_map pair_words (printed_pairs e) <> []).
    { assert (I : In ("execution", "interactive") (printed_pairs e)).
      { change "interactive" with (value_text (VText "interactive")). apply printed_In; [|discriminate]. apply (dget_In _ String.eqb_spec). apply aset_same. }
      destruct (printed_pairs e) as [|p l]; [destruct I|discriminate]. }
    assert (J : join " " (map (fun kx : string * value => "--" ++ fst kx ++ " " ++ value_text (snd kx)) (filter (fun kx => match snd kx with VNone => false | _ => true end) e)) = join " " (flat_map pair_words (printed_pairs e))).
    { unfold printed_pairs. change (fun kx : string * value => printed (snd kx)) with (fun kx : string * value => match snd kx with VNone => false | _ => true end).
      generalize (filter (fun kx : string * value => match snd kx with VNone => false | _ => true end) e). intros l.
      rewrite flat_map_concat_map, map_map, <- flat_map_concat_map. pose proof (join_pairs (fun kx : string * value => ("--" ++ fst kx, value_text (snd kx))) l) as Q. cbn [fst snd] in Q.
      exact Q. }
    rewrite J. destruct (flat_map pair_words (printed_pairs e)) as [|a l]; [congruence|]. reflexivity.
  Qed.
  Lemma pair_words_clean l : (forall k v, In (k, v) l -> has " " k = false /\ has """" k = false /\ clean v) -> Forall clean (flat_map pair_words l).
  Proof.
    induction l as [|[k v] l IH]; intros H; [constructor|]. destruct (H k v (or_introl eq_refl)) as (A & B & C). cbn [flat_map pair_words fst snd app].
    constructor; [|constructor; [exact C|apply IH; intros k' v' I; apply (H k' v'); right; exact I]]. split; [discriminate|]. cbn [append has]. auto.
  Qed.
  Lemma names_clean o : In o os -> has " " (o_name o) = false /\ has """" (o_name o) = false.
  Proof. intros I. cbn [In run_options] in I. repeat (destruct I as [<-|I]; [split; reflexivity|]). destruct I. Qed.

  (** The dictionary a job is submitted with. *)
  Definition job_args (d : args) (f : string) (dir : path) : args :=
    sset (sset (sset (sset d "forecast_config" (VText f)) "workdir" (VText (path_text dir))) "is_batch_job" (VFlag true)) "execution" (VText "interactive").
  Lemma job_args_get d f dir k : dget String.eqb (job_args d f dir) k =
    if String.eqb "execution" k then Some (VText "interactive") else if String.eqb "is_batch_job" k then Some (VFlag true)
    else if String.eqb "workdir" k then Some (VText (path_text dir)) else if String.eqb "forecast_config" k then Some (VText f) else dget String.eqb d k.
  Proof.
    unfold job_args. destruct (String.eqb_spec "execution" k) as [<-|N1]; [apply aset_same|]. rewrite aset_other by exact N1.
    destruct (String.eqb_spec "is_batch_job" k) as [<-|N2]; [apply aset_same|]. rewrite aset_other by exact N2.
    destruct (String.eqb_spec "workdir" k) as [<-|N3]; [apply aset_same|]. rewrite aset_other by exact N3.
    destruct (String.eqb_spec "forecast_config" k) as [<-|N4]; [apply aset_same|]. rewrite aset_other by exact N4. reflexivity.
  Qed.
  Lemma job_args_keys ws d f dir : parse_args os ws = Some d -> dkeys (job_args d f dir) = map o_name os.
  Proof.
    intros E. destruct (parse_args_values os ws d names_nodup E) as [K _]. unfold job_args.
    assert (S1 : forall (e : args) k v, dkeys e = map o_name os -> In k (map o_name os) -> dkeys (sset e k v) = map o_name os) by (intros e k v Ke I; rewrite sset_keys; rewrite Ke; auto).
    repeat (apply S1; [|cbn; tauto]). exact K.
  Qed.
  Lemma absolute_argument p : is_argument (path_text p) = true. Proof. reflexivity. Qed.
  (** Its values are all readable and printable. *)
  Lemma job_args_fit ws d f dir o v : parse_args os ws = Some d -> plain_args d -> plain_arg f -> clean (path_text dir) -> In o os ->
    dget String.eqb (job_args d f dir) (o_name o) = Some v ->
    fits_kind o v /\ (v = VNone -> o_required o = false) /\ (v <> VNone -> plain_arg (value_text v)).
  Proof.
    intros E P Pf Pd I D. rewrite job_args_get in D.
    assert (Sp : forall n (w : value), String.eqb n (o_name o) = true -> (forall o', In o' os -> o_name o' = n -> fits_kind o' w) -> w <> VNone -> plain_arg (value_text w) -> Some w = Some v ->
      fits_kind o v /\ (v = VNone -> o_required o = false) /\ (v <> VNone -> plain_arg (value_text v))).
    { intros n w En Hf Nw Hw Q. injection Q as <-. apply String.eqb_eq in En. split; [apply Hf; [exact I|congruence]|]. split; [congruence|auto]. }
    destruct (String.eqb "execution" (o_name o)) eqn:E1; [|destruct (String.eqb "is_batch_job" (o_name o)) eqn:E2; [|destruct (String.eqb "workdir" (o_name o)) eqn:E3; [|destruct (String.eqb "forecast_config" (o_name o)) eqn:E4]]].
    - refine (Sp _ (VText "interactive") E1 _ ltac:(discriminate) _ D); [|repeat split; discriminate]. intros o' I' En. cbn [In run_options] in I'. repeat (destruct I' as [<-|I']; [cbn in *; discriminate|]). destruct I'.
    - refine (Sp _ (VFlag true) E2 _ ltac:(discriminate) _ D); [|repeat split; discriminate]. intros o' I' En. cbn [In run_options] in I'. repeat (destruct I' as [<-|I']; [cbn in *; try discriminate; reflexivity|]). destruct I'.
    - refine (Sp _ (VText (path_text dir)) E3 _ ltac:(discriminate) _ D); [|split; [exact Pd|reflexivity]]. intros o' I' En. cbn [In run_options] in I'. repeat (destruct I' as [<-|I']; [cbn in *; discriminate|]). destruct I'.
    - refine (Sp _ (VText f) E4 _ ltac:(discriminate) _ D); [|exact Pf]. intros o' I' En. cbn [In run_options] in I'. repeat (destruct I' as [<-|I']; [cbn in *; discriminate|]). destruct I'.
    - pose proof (value_kind ws d o v E I D) as K.
      assert (Nc : ~ In (o_name o) changed) by (intros [Q|[Q|[Q|[Q|[]]]]]; rewrite Q, String.eqb_refl in *; discriminate).
      split; [|split].
      + destruct (o_kind o) eqn:Ko.
        * destruct K as [(t & ->)|(-> & _)]; cbn; [congruence|trivial].
        * destruct K as (n & ->). exact Ko.
        * destruct K as [(t & ->)|(b & ->)]; cbn; congruence.
        * exfalso. cbn [In run_options] in I. repeat (destruct I as [<-|I]; [cbn in *; discriminate|]). destruct I.
      + intros ->. destruct (o_kind o) eqn:Ko.
        * destruct K as [(t & Q)|(_ & _ & R)]; [discriminate Q|exact R].
        * destruct K as (n & Q). discriminate Q.
        * destruct K as [(t & Q)|(b & Q)]; discriminate Q.
        * destruct K as (l & Q). discriminate Q.
      + intros Nv. apply (P (o_name o)); assumption.
  Qed.

  (** The shell hands bsub the options asked for and the command of the job, and
      run_seyfert reads the options of the submission back from it, with the one
      configuration and the directory of this run; only flags come back as texts. *)
  Theorem C102_submission ws d f now log_now st st' s bins id : parse_args os ws = Some d -> bsub_state st -> submit d f now log_now st = (st', Ok s) -> load f = Ok (bins, id) ->
    plain_args d -> plain_arg f -> clean (path_text (s_dir s)) -> clean id -> clean log_now ->
    bsub_state st' /\
    exists wd queue mem cores m job d', dget String.eqb d "workdir" = Some (VText wd) /\ dget String.eqb d "queue" = Some (VText queue) /\
      dget String.eqb d "memory" = Some (VInt mem) /\ dget String.eqb d "n_cores_per_job" = Some (VInt cores) /\ job_memory mem bins m /\
      s_dir s = run_dir version (resolve wd) f now /\
      shell false None (s_text s) = (["bsub"; "-P"; "c7"; "-q"; queue; "-M"; ztext m; "-n"; ztext cores; "-e"; log_file (s_dir s) "err" id log_now; "-o"; log_file (s_dir s) "out" id log_now;
                                      resources (ztext m)] ++ "run_seyfert" :: job)%list /\
      bsub_job (tl (shell false None (s_text s))) = "run_seyfert" :: job /\
      parse_args os job = Some d' /\
      dget String.eqb d' "forecast_config" = Some (VList [f]) /\ dget String.eqb d' "workdir" = Some (VText (path_text (s_dir s))) /\
      dget String.eqb d' "execution" = Some (VText "interactive") /\ dget String.eqb d' "is_batch_job" = Some (VText "True") /\
      (forall t, dget String.eqb d "test_batch" = Some t -> dget String.eqb d' "test_batch" = Some (VText (value_text t))) /\
      forall k, ~ In k ("test_batch" :: changed) -> In k (map o_name os) -> dget String.eqb d' k = dget String.eqb d k.
  Proof.
    intros E St R L P Pf Pd Ci Cn. destruct (submit_inv ws d f now log_now st st' s E St R) as (wd & queue & mem & cores & bins' & id' & t & D1 & D2 & D3 & D4 & L' & D5 & Ht & Hd & -> & C).
    rewrite L in L'. injection L' as <- <-. split; [right; eauto|]. cbv zeta in C. set (m := bsub_memory mem bins) in *.
    set (ja := job_args d f (s_dir s)).
    assert (Kj : dkeys ja = map o_name os) by (apply (job_args_keys ws); exact E).
    destruct (read_back os ja names_nodup Kj) as (d' & Pj & G).
    { intros o v I D. destruct (job_args_fit ws d f (s_dir s) o v E P Pf Pd I D) as (A & B & Cc). split; [exact A|]. split; [exact B|]. intros N. apply (Cc N). }
    set (job := flat_map pair_words (printed_pairs ja)) in *.
    assert (Jc : Forall clean job).
    { apply pair_words_clean. intros k tx I. destruct (printed_out ja k tx I) as (v & Iv & Nv & ->).
      assert (Ik : In k (map o_name os)) by (rewrite <- Kj; apply in_map_iff; exists (k, v); auto). apply in_map_iff in Ik as (o & <- & Io).
      assert (D : dget String.eqb ja (o_name o) = Some v) by (apply (dget_NoDup_In _ String.eqb_spec); [rewrite Kj; apply names_nodup|exact Iv]).
      destruct (names_clean o Io) as [A B]. split; [exact A|]. split; [exact B|]. apply (job_args_fit ws d f (s_dir s) o v E P Pf Pd Io D). exact Nv. }
    assert (Lc : forall k, clean k -> clean (log_file (s_dir s) k id log_now)).
    { intros k (_ & K1 & K2). unfold log_file. apply clean_path. intros x I. apply in_app_or in I as [I|[<-|[<-|[<-|[]]]]]; [apply (proj1 (clean_path (s_dir s)) Pd x I)|split; reflexivity|auto|].
      destruct Ci as (_ & C1 & C2). destruct Cn as (_ & N1 & N2). rewrite !has_app, K1, K2, C1, C2, N1, N2. split; reflexivity. }
    assert (Qc : clean queue). { destruct (P "queue" (VText queue) D2) as [X _]; [cbn; intuition discriminate|discriminate|exact X]. }
    set (opts := ["bsub"; "-P"; "c7"; "-q"; queue; "-M"; ztext m; "-n"; ztext cores; "-e"; log_file (s_dir s) "err" id log_now; "-o"; log_file (s_dir s) "out" id log_now]).
    assert (Oc : Forall clean opts).
    { unfold opts. repeat (constructor; [first [exact Qc|apply clean_ztext|apply Lc; repeat split; discriminate|repeat split; discriminate]|]). constructor. }
    assert (Mq : has """" ("select[avx && mem>" ++ ztext m ++ "] rusage[mem=" ++ ztext m ++ "]") = false).
    { destruct (clean_ztext m) as (_ & _ & Q). rewrite !has_app, Q. reflexivity. }
    assert (Tx : s_text s = join " " opts ++ " " ++ ("-R" ++ dq ++ ("select[avx && mem>" ++ ztext m ++ "] rusage[mem=" ++ ztext m ++ "]") ++ dq ++ " " ++ join " " ("run_seyfert" :: job))).
    { unfold bsub_command in C. cbn [dget rbind] in C. change (String.eqb "-P" "-M") with false in C. change (String.eqb "-q" "-M") with false in C. change (String.eqb "-M" "-M") with true in C. cbv iota in C. cbn [rbind] in C.
      match type of C with Ok ?x = Ok _ => assert (C' : x = s_text s) by congruence end. rewrite <- C'. rewrite command_words.
      change (sset (sset (sset (sset d "forecast_config" (VText f)) "workdir" (VText (path_text (s_dir s)))) "is_batch_job" (VFlag true)) "execution" (VText "interactive")) with ja. fold job.
      generalize (join " " ("run_seyfert" :: job)) as cmd. intros cmd. unfold opts. change dq with """". generalize (log_file (s_dir s) "err" id log_now) (log_file (s_dir s) "out" id log_now) (ztext m) (ztext cores). intros l1 l2 tm tc.
      clear. change (sset (sset [("-P", "c7"); ("-q", queue); ("-M", tm); ("-n", tc)] "-e" l1) "-o" l2) with [("-P", "c7"); ("-q", queue); ("-M", tm); ("-n", tc); ("-e", l1); ("-o", l2)].
      unfold join. cbn [map String.concat fst snd]. rewrite ?sapp_assoc. cbn [append]. rewrite ?sapp_assoc. reflexivity. }
    assert (Sh : shell false None (s_text s) = (opts ++ resources (ztext m) :: "run_seyfert" :: job)%list).
    { rewrite Tx, shell_list by (discriminate || exact Oc). f_equal. rewrite shell_option by exact Mq. f_equal. apply shell_whole. constructor; [repeat split; discriminate|exact Jc]. }
    exists wd, queue, mem, cores, m, job, d'.
    assert (Jm : job_memory mem bins m).
    { unfold m, bsub_memory, job_memory. destruct (Z.ltb_spec 24 bins), (Z.ltb_spec mem 10000); cbn [andb]; lia. }
    repeat (split; [assumption|]). split; [rewrite Sh; clear; generalize job; intros [|w j]; reflexivity|]. split; [exact Pj|].
    assert (Gn : forall n v, In n (map o_name os) -> dget String.eqb ja n = Some v -> exists o, In o os /\ o_name o = n /\ dget String.eqb d' n = Some (match v with VNone => o_default o | _ => read_as (o_kind o) v end)).
    { intros n v I D. apply in_map_iff in I as (o & <- & Io). exists o. split; [exact Io|]. split; [reflexivity|]. apply G; assumption. }
    split; [|split; [|split; [|split; [|split]]]].
    - destruct (Gn "forecast_config" (VText f)) as (o & Io & En & Ho); [cbn; tauto|unfold ja; rewrite job_args_get; reflexivity|]. rewrite Ho. cbn [In run_options] in Io. repeat (destruct Io as [<-|Io]; [cbn in *; try discriminate; reflexivity|]). destruct Io.
    - destruct (Gn "workdir" (VText (path_text (s_dir s)))) as (o & Io & En & Ho); [cbn; tauto|unfold ja; rewrite job_args_get; reflexivity|]. rewrite Ho. cbn [In run_options] in Io. repeat (destruct Io as [<-|Io]; [cbn in *; try discriminate; reflexivity|]). destruct Io.
    - destruct (Gn "execution" (VText "interactive")) as (o & Io & En & Ho); [cbn; tauto|unfold ja; rewrite job_args_get; reflexivity|]. rewrite Ho. cbn [In run_options] in Io. repeat (destruct Io as [<-|Io]; [cbn in *; try discriminate; reflexivity|]). destruct Io.
    - destruct (Gn "is_batch_job" (VFlag true)) as (o & Io & En & Ho); [cbn; tauto|unfold ja; rewrite job_args_get; reflexivity|]. rewrite Ho. reflexivity.
    - intros t' Dt. assert (t' = t) by congruence. subst t'. destruct (Gn "test_batch" t) as (o & Io & En & Ho); [cbn; tauto|unfold ja; rewrite job_args_get; exact D5|]. rewrite Ho.
      rewrite <- En in D5. pose proof (value_kind ws d o t E Io D5) as K. cbn [In run_options] in Io. repeat (destruct Io as [<-|Io]; [cbn in *; try discriminate; destruct K as [(tx & ->)|(b & ->)]; reflexivity|]). destruct Io.
    - intros k Nk Ik. apply in_map_iff in Ik as (o & <- & Io). destruct (value_of ws d o E Io) as (v & Dv & _).
      assert (Dj : dget String.eqb ja (o_name o) = Some v).
      { unfold ja. rewrite job_args_get. assert (Q : forall n, In n ("test_batch" :: changed) -> String.eqb n (o_name o) = false) by (intros n In_; apply String.eqb_neq; intros ->; exact (Nk In_)).
        rewrite !Q by (cbn; tauto). exact Dv. }
      rewrite (G o v Io Dj), Dv. f_equal. pose proof (value_kind ws d o v E Io Dv) as K. destruct v as [|b|n|tx|l]; try reflexivity.
      + destruct (o_kind o); [destruct K as [(q & Q)|(_ & Q & _)]; [discriminate Q|exact Q]|destruct K as (q & Q); discriminate Q|destruct K as [(q & Q)|(q & Q)]; discriminate Q|destruct K as (q & Q); discriminate Q].
      + exfalso. assert (Kf : o_kind o = KFlag) by (destruct (o_kind o); [destruct K as [(q & Q)|(Q & _)]; discriminate Q|destruct K as (q & Q); discriminate Q|reflexivity|destruct K as (q & Q); discriminate Q]).
        cbn [In run_options] in Io. repeat (destruct Io as [<-|Io]; [cbn in *; try discriminate Kf; apply Nk; tauto|]). destruct Io.
      + destruct (o_kind o) eqn:Ko; cbn; try rewrite Ko; try reflexivity. destruct K as (q & Q). discriminate Q.
  Qed.
End Props.
