(** Properties of the reports of batch jobs (C114). *)
From Coq Require Import QArith Permutation Sorted.
From Verif Require Import Base StrLib SortLib NameModel NameLemmas WsModel WsLemmas TimeModel KeyModel ReportModel.
Close Scope Q_scope.
Open Scope string_scope.
Open Scope list_scope.

Lemma status_eqb_spec a b : reflect (a = b) (status_eqb a b).
Proof. destruct a, b; cbn; constructor; congruence. Qed.
(** Files called pre...suf. *)
Definition called (pre suf n : string) : Prop := exists m, n = (pre ++ m ++ suf)%string.
Lemma strip_iff p s r : strip_prefix p s = Some r <-> s = (p ++ r)%string.
Proof.
  revert s. induction p as [|a p IH]; intros s; cbn; [split; congruence|]. destruct s as [|b s]; [split; discriminate|]. destruct (Ascii.eqb_spec a b) as [->|N].
  - rewrite IH. split; [intros ->; reflexivity|intros [= ->]; reflexivity].
  - split; [discriminate|intros [= E _]; congruence].
Qed.
Lemma fits_iff pre suf n : fits pre suf n = true <-> called pre suf n.
Proof.
  unfold fits, called. destruct (strip_prefix pre n) as [r|] eqn:E.
  - apply strip_iff in E. rewrite ends_iff. split; intros [m H]; exists m; [congruence|]. rewrite E in H. apply sapp_inj_l in H. exact H.
  - split; [discriminate|]. intros [m ->]. rewrite strip_prefix_app in E. discriminate.
Qed.
(** The first file of that name in the order of the listing; no such file. *)
Definition chosen (pre suf : string) (l : list jfile) (f : jfile) : Prop :=
  exists l1 l2, l = l1 ++ f :: l2 /\ called pre suf (fname f) /\ forall g, In g l1 -> ~ called pre suf (fname g).
Definition no_file (pre suf : string) (l : list jfile) : Prop := forall g, In g l -> ~ called pre suf (fname g).
Lemma first_file_spec pre suf l : match first_file pre suf l with Some f => chosen pre suf l f | None => no_file pre suf l end.
Proof.
  unfold first_file. induction l as [|g l IH]; cbn [find]; [intros g []|]. destruct (fits pre suf (fname g)) eqn:F.
  - exists [], l. split; [reflexivity|]. split; [apply fits_iff; exact F|intros ? []].
  - assert (N : ~ called pre suf (fname g)) by (rewrite <- fits_iff, F; discriminate). destruct (find _ l) as [f|].
    + destruct IH as (l1 & l2 & -> & C & H). exists (g :: l1), l2. split; [reflexivity|]. split; [exact C|]. intros h [<-|Hh]; [exact N|exact (H h Hh)].
    + intros h [<-|Hh]; [exact N|exact (IH h Hh)].
Qed.
Lemma chosen_iff pre suf l f : first_file pre suf l = Some f <-> chosen pre suf l f.
Proof.
  split; [intros E; pose proof (first_file_spec pre suf l) as H; rewrite E in H; exact H|]. intros (l1 & l2 & -> & C & H). unfold first_file. induction l1 as [|g l1 IH]; cbn [app find].
  - apply fits_iff in C. rewrite C. reflexivity.
  - destruct (fits pre suf (fname g)) eqn:F; [destruct (H g (or_introl eq_refl)); apply fits_iff; exact F|]. apply IH. intros h Hh. apply H. right. exact Hh.
Qed.
Lemma none_iff pre suf l : first_file pre suf l = None <-> no_file pre suf l.
Proof.
  split; [intros E; pose proof (first_file_spec pre suf l) as H; rewrite E in H; exact H|]. intros H. destruct (first_file pre suf l) as [f|] eqn:E; [|reflexivity]. apply chosen_iff in E. destruct E as (l1 & l2 & -> & C & _). destruct (H f); [apply in_elt|exact C].
Qed.
(** core dump, in the text of an error file or as a file. *)
Fixpoint white (s : string) : Prop := match s with EmptyString => True | String a r => In (nat_of_ascii a) [9; 10; 11; 12; 13; 28; 29; 30; 31; 32]%nat /\ white r end.
Lemma is_white_iff a : is_white a = true <-> In (nat_of_ascii a) [9; 10; 11; 12; 13; 28; 29; 30; 31; 32]%nat.
Proof. unfold is_white. rewrite orb_true_iff, !andb_true_iff, !Nat.leb_le. cbn [In]. lia. Qed.
Definition mentions_core (s : string) : Prop := exists a c w d b, s = (a ++ c ++ w ++ d ++ b)%string /\ In c ["core"; "Core"] /\ white w /\ w <> "" /\ In d ["dump"; "Dump"].
Definition dump_file (n : string) : Prop := exists c r, n = ("core." ++ String c r)%string /\ is_digit c = true.
Lemma white_all s : white s <-> all_chars is_white s = true.
Proof. induction s as [|a s IH]; [cbn; tauto|]. cbn [white all_chars]. rewrite IH, andb_true_iff, is_white_iff. tauto. Qed.
Lemma span_split f s : let (u, v) := span f s in s = (u ++ v)%string /\ all_chars f u = true.
Proof. induction s as [|a s IH]; cbn; [auto|]. destruct (f a) eqn:F; [|auto]. destruct (span f s) as [u v]. destruct IH as [-> H]. cbn. rewrite F. auto. Qed.
Lemma core_at_iff s : core_at s = true <-> exists c w d b, s = (c ++ w ++ d ++ b)%string /\ In c ["core"; "Core"] /\ white w /\ w <> "" /\ In d ["dump"; "Dump"].
Proof.
  unfold core_at. split.
  - cbn [strip_any fold_right]. intros H.
    assert (X : exists c r, s = (c ++ r)%string /\ In c ["core"; "Core"] /\ (let (w, t) := span is_white r in negb (String.eqb w "") && match strip_any ["dump"; "Dump"] t with Some _ => true | None => false end) = true).
    { destruct (strip_prefix "core" s) as [r|] eqn:E1; [apply strip_iff in E1; exists "core", r; cbn; auto|]. destruct (strip_prefix "Core" s) as [r|] eqn:E2; [apply strip_iff in E2; exists "Core", r; cbn; auto|discriminate]. }
    destruct X as (c & r & -> & Hc & X). pose proof (span_split is_white r) as Sp. destruct (span is_white r) as [w t]. destruct Sp as [-> Hw]. apply andb_true_iff in X as [X1 X2].
    assert (Y : exists d b, t = (d ++ b)%string /\ In d ["dump"; "Dump"]).
    { cbn [strip_any fold_right] in X2. destruct (strip_prefix "dump" t) as [b|] eqn:E1; [apply strip_iff in E1; exists "dump", b; cbn; auto|]. destruct (strip_prefix "Dump" t) as [b|] eqn:E2; [apply strip_iff in E2; exists "Dump", b; cbn; auto|discriminate]. }
    destruct Y as (d & b & -> & Hd). exists c, w, d, b. split; [reflexivity|]. split; [exact Hc|]. split; [apply white_all; exact Hw|]. split; [intros ->; discriminate|exact Hd].
  - intros (c & w & d & b & -> & Hc & Hw & Nw & Hd).
    assert (E : strip_any ["core"; "Core"] (c ++ w ++ d ++ b) = Some (w ++ d ++ b)%string).
    { destruct Hc as [<-|[<-|[]]]; reflexivity. }
    rewrite E. rewrite span_app; [|apply white_all; exact Hw|destruct Hd as [<-|[<-|[]]]; reflexivity]. destruct (String.eqb_spec w ""); [congruence|]. destruct Hd as [<-|[<-|[]]]; reflexivity.
Qed.
Lemma search_core_iff s : search_core s = true <-> mentions_core s.
Proof.
  induction s as [|a s IH].
  - cbn [search_core]. rewrite orb_false_r, core_at_iff. split; [intros (c & w & d & b & H); exists "", c, w, d, b; exact H|]. intros (x & c & w & d & b & E & H). destruct x; [exists c, w, d, b; split; [exact E|exact H]|discriminate].
  - cbn [search_core]. rewrite orb_true_iff, IH, core_at_iff. split.
    + intros [(c & w & d & b & H)|(x & c & w & d & b & -> & H)]; [exists "", c, w, d, b; exact H|exists (String a x), c, w, d, b; split; [reflexivity|exact H]].
    + intros (x & c & w & d & b & E & H). destruct x as [|y x]; [left; exists c, w, d, b; split; [exact E|exact H]|]. right. injection E as _ E. exists x, c, w, d, b. split; [exact E|exact H].
Qed.
Lemma core_file_iff n : core_file n = true <-> dump_file n.
Proof.
  unfold core_file, dump_file. destruct (strip_prefix "core." n) as [r|] eqn:E.
  - apply strip_iff in E. subst n. destruct r as [|c r]; [split; [discriminate|intros (c & r & H & _); discriminate]|]. split; [intros H; exists c, r; auto|]. intros (c' & r' & H & D). apply sapp_inj_l in H. congruence.
  - split; [discriminate|]. intros (c & r & -> & _). rewrite strip_prefix_app in E. discriminate.
Qed.

Section Props.
  Variable read_out : string -> res (Z * option string * list string).

  (** What is reported of a job, from the files in its directory. *)
  Theorem C114_job suf d l r : job_report read_out suf (d, l) = Ok r ->
    r_dir r = d /\
    (r_status r = NotExecuted <-> no_file "job" ".err" l /\ no_file "job" ".out" l) /\
    (r_status r = Failure <-> exists e, chosen "job" ".err" l e /\ ftext e <> "") /\
    (r_status r = Success <-> exists e o, chosen "job" ".err" l e /\ ftext e = "" /\ chosen "" suf l o) /\
    r_status r <> NotCompleted /\
    (r_core r = true <-> exists e, chosen "job" ".err" l e /\ ftext e <> "" /\ (mentions_core (ftext e) \/ exists f, In f l /\ dump_file (fname f))) /\
    (forall o, r_status r = Success -> chosen "" suf l o -> r_size r = fsize o) /\ (r_status r <> Success -> r_size r = 0).
  Proof.
    unfold job_report. destruct (job_status suf l) as [[st core] size] eqn:J. intros H.
    assert (E : r_dir r = d /\ r_status r = st /\ r_core r = core /\ r_size r = size).
    { destruct (first_file "job" ".out" l) as [o|]; [|injection H as <-; auto]. destruct (read_out (ftext o)) as [[[t i] hs]|]; cbn [rbind] in H; [|discriminate]. injection H as <-. auto. }
    destruct E as (Ed & Es & Ec & Ez). rewrite Es, Ec, Ez. split; [exact Ed|]. clear H Ed Es Ec Ez r. unfold job_status in J.
    setoid_rewrite <- chosen_iff. rewrite <- !none_iff.
    destruct (first_file "job" ".err" l) as [e|].
    - assert (X : (0 <? String.length (ftext e))%nat = true <-> ftext e <> "") by (rewrite Nat.ltb_lt; destruct (ftext e); cbn; split; [lia|congruence|discriminate|lia]).
      destruct (0 <? String.length (ftext e))%nat.
      + injection J as <- <- <-. assert (N : ftext e <> "") by (apply X; reflexivity). repeat split; try discriminate; try (intros [? ?]; discriminate).
        * intros _. exists e. auto.
        * intros (e' & o & [= <-] & E & _). congruence.
        * intros C. exists e. split; [reflexivity|]. split; [exact N|]. apply orb_true_iff in C. destruct C as [C|C]; [left; apply search_core_iff; exact C|right]. apply existsb_exists in C. destruct C as (f & If & C). exists f. split; [exact If|apply core_file_iff; exact C].
        * intros (e' & [= <-] & _ & [C|(f & If & C)]); apply orb_true_iff; [left; apply search_core_iff; exact C|right; apply existsb_exists; exists f; split; [exact If|apply core_file_iff; exact C]].
      + assert (N : ftext e = "") by (destruct (ftext e) eqn:T; [reflexivity|]; assert (Z : false = true) by (apply X; discriminate); discriminate).
        destruct (first_file "" suf l) as [o|]; injection J as <- <- <-; repeat split; try discriminate; try congruence; try (intros [? ?]; discriminate); try (intros (e' & [= <-] & Ne & _); congruence); try (intros (e' & [= <-] & Ne); congruence).
        * intros _. exists e, o. auto.
        * intros (e' & o & _ & _ & Z). discriminate.
    - destruct (first_file "job" ".out" l) as [o|]; injection J as <- <- <-; repeat split; try discriminate; try congruence; try (intros [? ?]; discriminate); try (intros (e' & Z & _); discriminate); try (intros (e' & o' & Z & _); discriminate); auto.
  Qed.
  (** Several error files, as of a job that was submitted again: the order in which the
      file system lists them decides. *)
  Theorem C114_resubmitted_refuted : exists l l' r r', Permutation l l' /\ job_report read_out ".h5" ("d", l) = Ok r /\ job_report read_out ".h5" ("d", l') = Ok r' /\ r_status r = Failure /\ r_status r' = Success.
  Proof.
    pose (a := mkFile "job_1.err" "error" 5). pose (b := mkFile "job_2.err" "" 0). pose (c := mkFile "x.h5" "" 7). exists [a; b; c], [b; a; c]. do 2 eexists. split; [apply perm_swap|]. split; [reflexivity|]. split; [reflexivity|]. split; reflexivity.
  Qed.
  (** The log files that submitJob names are never found: all jobs of a stage are
      reported as not executed, whatever they did. *)
  Definition is_log (now : moment) (f : jfile) : Prop := fname f = fst (log_names "job" now) \/ fname f = snd (log_names "job" now).
  Theorem C114_batch_refuted suf d l : (forall f, In f l -> (exists now, is_log now f) \/ ends ".err" (fname f) = false /\ ends ".out" (fname f) = false) ->
    exists r, job_report read_out suf (d, l) = Ok r /\ r_status r = NotExecuted /\ r_time r = 0%Z /\ r_id r = None.
  Proof.
    intros H. assert (Ne : no_file "job" ".err" l /\ no_file "job" ".out" l).
    { assert (W : forall s f, In s [".err"; ".out"] -> In f l -> ~ called "job" s (fname f)).
      { intros s f Hs If [m E]. destruct (H f If) as [[now [N|N]]|[N1 N2]].
        - rewrite N in E. cbn in E. discriminate.
        - rewrite N in E. cbn in E. discriminate.
        - destruct Hs as [<-|[<-|[]]]; [assert (T : ends ".err" (fname f) = true)|assert (T : ends ".out" (fname f) = true)]; try congruence; apply ends_iff; exists ("job" ++ m)%string; rewrite E; cbn; reflexivity. }
      split; intros f If; apply (W _ f); cbn; auto. }
    destruct Ne as [N1 N2]. apply none_iff in N1, N2. unfold job_report, job_status. rewrite N1, N2. eexists. split; [reflexivity|auto].
  Qed.

  (** The jobs of a stage: all of them, in the order of their identifiers as texts if all
      have one, otherwise as listed; with the mean of their times and the sum of their
      sizes.  A stage without jobs is a ZeroDivisionError. *)
  Definition suffix (dir : string) : string := if String.eqb dir "Fisher" then ".csv" else ".h5".
  Lemma sum_left {A} (f : A -> nat) l n : fold_left (fun s r => (s + f r)%nat) l n = (n + list_sum (map f l))%nat.
  Proof. revert n. induction l as [|x l IH]; intros n; cbn [fold_left map]; [cbn; lia|]. rewrite IH. change (list_sum (f x :: map f l)) with (f x + list_sum (map f l))%nat. lia. Qed.
  Fixpoint zsum (l : list Z) : Z := match l with [] => 0%Z | x :: l => (x + zsum l)%Z end.
  Lemma zsum_left l q : (fold_left (fun s r => s + inject_Z (r_time r)) l q == q + inject_Z (zsum (map r_time l)))%Q.
  Proof.
    revert q. induction l as [|x l IH]; intros q; cbn [fold_left map zsum]; [change (inject_Z 0) with 0%Q; ring|]. rewrite IH, inject_Z_plus. ring.
  Qed.
  Theorem C114_jobs dir jobdirs t : build_jobs read_out dir jobdirs = Ok t -> exists jobs,
    Forall2 (fun d r => job_report read_out (suffix dir) d = Ok r) jobdirs jobs /\ Permutation (t_jobs t) jobs /\ jobs <> [] /\
    t_n t = length jobdirs /\ t_n t = length (t_jobs t) /\ t_size t = list_sum (map r_size jobs) /\ (t_mean t * inject_Z (Z.of_nat (t_n t)) == inject_Z (zsum (map r_time jobs)))%Q /\
    ((forall r, In r jobs -> r_id r <> None) -> StronglySorted (fun a b => String.leb (id_of a) (id_of b) = true) (t_jobs t)) /\
    (forall r, In r jobs -> r_id r = None -> t_jobs t = jobs) /\ t_dir t = dir /\ t_count t = no_counters /\ t_status t = None.
  Proof.
    unfold build_jobs. fold (suffix dir). destruct (rmapM (job_report read_out (suffix dir)) jobdirs) as [jobs|e] eqn:E; cbn [rbind]; [|discriminate].
    assert (F : Forall2 (fun d r => job_report read_out (suffix dir) d = Ok r) jobdirs jobs).
    { clear -E. revert jobs E. induction jobdirs as [|x l IH]; intros jobs E; cbn [rmapM] in E; [injection E as <-; constructor|]. destruct (job_report read_out (suffix dir) x) eqn:J; cbn [rbind] in E; [|discriminate]. destruct (rmapM _ l) eqn:M; cbn [rbind] in E; [|discriminate]. injection E as <-. constructor; auto. }
    assert (N : length jobs = length jobdirs) by (symmetry; clear -F; induction F; cbn; congruence).
    destruct jobs as [|j jobs']; [discriminate|]. remember (j :: jobs') as jobs eqn:Ej. intros [= <-]. exists jobs. cbn [t_jobs t_n t_mean t_size t_dir t_count t_status].
    set (all := forallb (fun r => match r_id r with Some _ => true | None => false end) jobs). split; [exact F|].
    assert (P : Permutation (if all then isort (fun a b => String.leb (id_of a) (id_of b)) jobs else jobs) jobs) by (destruct all; [apply isort_perm|reflexivity]).
    split; [exact P|]. split; [rewrite Ej; discriminate|]. split; [exact N|]. split; [rewrite (Permutation_length P); reflexivity|]. split; [rewrite sum_left; reflexivity|]. split; [|split; [|split; [|auto]]].
    - rewrite zsum_left. field. intros Z. apply (f_equal (fun x => x)) in Z. unfold Qeq in Z. cbn in Z. rewrite Ej in Z. cbn in Z. lia.
    - intros H. assert (A : all = true) by (apply forallb_forall; intros r Hr; specialize (H r Hr); destruct (r_id r); congruence). rewrite A.
      apply isort_ssorted; [intros a b; apply String.leb_total|intros a b c; apply str_leb_trans].
    - intros r Hr Nr. assert (A : all = false); [|rewrite A; reflexivity]. destruct all eqn:A; [|reflexivity]. unfold all in A. rewrite forallb_forall in A. specialize (A r Hr). rewrite Nr in A. discriminate.
  Qed.
  Theorem C114_no_jobs dir : build_jobs read_out dir [] = Err EZeroDivision.
  Proof. reflexivity. Qed.
  (** The identifiers are compared as texts: job 10 comes before job 9. *)
  Theorem C114_order_refuted : read_out "nine" = Ok (1%Z, Some "9", []) -> read_out "ten" = Ok (1%Z, Some "10", []) ->
    rmap (fun t => map id_of (t_jobs t)) (build_jobs read_out "Angular" [("a", [mkFile "job.out" "nine" 0]); ("b", [mkFile "job.out" "ten" 0])]) = Ok ["10"; "9"].
  Proof. intros A B. unfold build_jobs. cbn. rewrite A. cbn. rewrite B. reflexivity. Qed.

  (** The numbers of jobs of each kind, and the status of the stage. *)
  Definition number (st : status) (l : list report) : nat := length (filter (fun r => status_eqb (r_status r) st) l).
  Definition dumped (l : list report) : nat := length (filter r_core l).
  Definition hosts_of (st : status) (l : list report) : list string := flat_map r_hosts (filter (fun r => status_eqb (r_status r) st) l).
  Lemma counted l c : let e := fold_left count_job l c in
    c_fail e = (c_fail c + number Failure l)%nat /\ c_succ e = (c_succ c + number Success l)%nat /\ c_none e = (c_none c + number NotExecuted l)%nat /\ c_undef e = (c_undef c + number Undefined l)%nat /\
    c_core e = (c_core c + dumped l)%nat /\ c_good e = c_good c ++ hosts_of Success l /\ c_bad e = c_bad c ++ hosts_of Failure l.
  Proof.
    cbv zeta. revert c. induction l as [|r l IH]; intros c; cbn [fold_left].
    - unfold number, dumped, hosts_of. cbn. rewrite !app_nil_r. repeat split; lia.
    - destruct (IH (count_job c r)) as (H1 & H2 & H3 & H4 & H5 & H6 & H7). rewrite H1, H2, H3, H4, H5, H6, H7. unfold number, dumped, hosts_of, count_job. cbn [filter].
      destruct (r_status r) eqn:S, (r_core r) eqn:C; cbn [c_fail c_succ c_none c_undef c_core c_good c_bad status_eqb length flat_map]; rewrite <- ?app_assoc; repeat split; lia.
  Qed.
  Lemma numbers_sum l : (forall r, In r l -> r_status r <> NotCompleted) -> (number Failure l + number Success l + number NotExecuted l + number Undefined l = length l)%nat.
  Proof.
    unfold number. induction l as [|r l IH]; intros H; [reflexivity|]. cbn [filter length]. specialize (IH (fun x Hx => H x (or_intror Hx))). pose proof (H r (or_introl eq_refl)). destruct (r_status r); cbn [status_eqb length]; try lia. congruence.
  Qed.
  Lemma number_all st l : number st l = length l <-> forall r, In r l -> r_status r = st.
  Proof.
    unfold number. induction l as [|r l IH]; [cbn; tauto|]. cbn [filter]. destruct (status_eqb_spec (r_status r) st) as [E|N]; cbn [length].
    - split; [intros H x [<-|Hx]; [exact E|apply IH; [lia|exact Hx]]|]. intros H. f_equal. apply IH. intros x Hx. apply H. right. exact Hx.
    - assert (L : (length (filter (fun r => status_eqb (r_status r) st) l) <= length l)%nat) by (clear; induction l as [|x l IH]; cbn; [lia|]; destruct (status_eqb (r_status x) st); cbn; lia).
      split; [lia|]. intros H. destruct N. apply H. left. reflexivity.
  Qed.
  Lemma number_pos st l : (0 < number st l)%nat <-> exists r, In r l /\ r_status r = st.
  Proof.
    unfold number. split.
    - intros H. destruct (filter (fun r => status_eqb (r_status r) st) l) as [|r m] eqn:E; [cbn in H; lia|]. assert (I : In r (filter (fun r => status_eqb (r_status r) st) l)) by (rewrite E; left; reflexivity). apply filter_In in I as [I S]. exists r. split; [exact I|]. destruct (status_eqb_spec (r_status r) st); [assumption|discriminate].
    - intros (r & I & S). assert (X : In r (filter (fun r => status_eqb (r_status r) st) l)) by (apply filter_In; split; [exact I|]; destruct (status_eqb_spec (r_status r) st); congruence). destruct (filter _ l); [destruct X|cbn; lia].
  Qed.
  (** A stage as made from its directory. *)
  Definition made (t : task) : Prop := exists dir jobdirs, build_jobs read_out dir jobdirs = Ok t.
  Lemma job_ok suf d r : job_report read_out suf d = Ok r -> r_status r <> NotCompleted /\ (r_core r = true -> r_status r = Failure) /\ (r_status r = Success -> r_output r <> None).
  Proof.
    destruct d as [d l]. intros H. destruct (C114_job suf d l r H) as (_ & _ & F & S & N & C & _). split; [exact N|]. split.
    - intros K. apply C in K. destruct K as (e & A & B & _). apply F. exists e. auto.
    - intros K. apply S in K. destruct K as (e & o & _ & _ & O). apply chosen_iff in O. unfold job_report in H. destruct (job_status suf l) as [[st core] size]. destruct (first_file "job" ".out" l) as [x|].
      + destruct (read_out (ftext x)) as [[[? ?] ?]|]; cbn [rbind] in H; [|discriminate]. injection H as <-. cbn. congruence.
      + injection H as <-. cbn. congruence.
  Qed.
  Lemma made_jobs t : made t -> t_n t = length (t_jobs t) /\ t_jobs t <> [] /\ t_count t = no_counters /\ forall r, In r (t_jobs t) -> r_status r <> NotCompleted /\ (r_core r = true -> r_status r = Failure) /\ (r_status r = Success -> r_output r <> None).
  Proof.
    intros (dir & ds & H). destruct (C114_jobs dir ds t H) as (jobs & F & P & Ne & N1 & N2 & _ & _ & _ & _ & _ & C & _). split; [exact N2|]. split; [intros E; rewrite E in P; apply Permutation_nil in P; congruence|]. split; [exact C|].
    intros r Hr. apply (Permutation_in _ P) in Hr. clear -F Hr. induction F as [|d x ds js E F IH]; [destruct Hr|]. destruct Hr as [<-|Hr]; [exact (job_ok _ _ _ E)|exact (IH Hr)].
  Qed.
  Theorem C114_counts t : made t -> let e := evaluate_status t in let c := t_count e in let l := t_jobs t in
    t_jobs e = l /\ t_n e = t_n t /\ c_fail c = number Failure l /\ c_succ c = number Success l /\ c_none c = number NotExecuted l /\ c_undef c = number Undefined l /\
    (c_fail c + c_succ c + c_none c + c_undef c = t_n t)%nat /\ c_core c = dumped l /\ (c_core c <= c_fail c)%nat /\
    (forall h, In h (c_bad c) <-> exists r, In r l /\ r_status r = Failure /\ In h (r_hosts r)) /\ (forall h, In h (c_good c) <-> exists r, In r l /\ r_status r = Success /\ In h (r_hosts r)).
  Proof.
    intros M. destruct (made_jobs t M) as (N & _ & C0 & J). cbv zeta. unfold evaluate_status. cbn [t_jobs t_n t_count]. rewrite C0. cbn [c_fail c_succ c_none c_undef c_core no_counters].
    destruct (counted (t_jobs t) (mkCounters 0 0 0 0 0 [] [])) as (H1 & H2 & H3 & H4 & H5 & H6 & H7). rewrite H1, H2, H3, H4, H5, H6, H7. cbn [c_fail c_succ c_none c_undef c_core c_good c_bad app plus].
    pose proof (numbers_sum (t_jobs t) (fun r Hr => proj1 (J r Hr))) as Sm.
    assert (Ho : forall st h, In h (hosts_of st (t_jobs t)) <-> exists r, In r (t_jobs t) /\ r_status r = st /\ In h (r_hosts r)).
    { intros st h. unfold hosts_of. rewrite in_flat_map. split.
      - intros (r & I & Hh). apply filter_In in I as [I S]. exists r. destruct (status_eqb_spec (r_status r) st); [auto|discriminate].
      - intros (r & I & S & Hh). exists r. split; [apply filter_In; split; [exact I|]; destruct (status_eqb_spec (r_status r) st); congruence|exact Hh]. }
    repeat split; try lia; try (apply Ho).
    unfold dumped, number. clear -J. induction (t_jobs t) as [|r l IH]; [cbn; lia|]. cbn [filter]. specialize (IH (fun x Hx => J x (or_intror Hx))). destruct (J r (or_introl eq_refl)) as (_ & K & _). destruct (r_core r); [rewrite (K eq_refl); cbn; lia|]. destruct (status_eqb (r_status r) Failure); cbn; lia.
  Qed.
  Theorem C114_stage t : made t -> let l := t_jobs t in exists st, t_status (evaluate_status t) = Some st /\
    (st = Failure <-> exists r, In r l /\ r_status r = Failure) /\
    (st = Success <-> forall r, In r l -> r_status r = Success) /\
    (st = NotExecuted <-> forall r, In r l -> r_status r = NotExecuted) /\
    (st = NotCompleted <-> (forall r, In r l -> r_status r = Success \/ r_status r = NotExecuted) /\ (exists r, In r l /\ r_status r = Success) /\ exists r, In r l /\ r_status r = NotExecuted) /\
    (st = Undefined <-> (forall r, In r l -> r_status r <> Failure) /\ exists r, In r l /\ r_status r = Undefined).
  Proof.
    intros M. destruct (made_jobs t M) as (N & Ne & C0 & J). cbv zeta. unfold evaluate_status. cbn [t_status]. rewrite C0. cbn [c_fail c_succ c_none c_undef c_core no_counters].
    destruct (counted (t_jobs t) (mkCounters 0 0 0 0 0 [] [])) as (H1 & H2 & H3 & _). cbn [c_fail c_succ c_none plus] in H1, H2, H3. rewrite H1, H2, H3, N. set (l := t_jobs t) in *.
    assert (Hd : exists r0, In r0 l) by (destruct l as [|r0 l']; [congruence|exists r0; left; reflexivity]). destruct Hd as [r0 Hr0]. eexists. split; [reflexivity|].
    destruct (Nat.ltb_spec 0 (number Failure l)) as [F|F].
    { apply number_pos in F. destruct F as (r & I & S). repeat split; try discriminate; eauto.
      - intros H. rewrite (H r I) in S. discriminate.
      - intros H. rewrite (H r I) in S. discriminate.
      - intros [H _]. destruct (H r I); congruence.
      - intros [H _]. destruct (H r I S). }
    assert (Nf : forall r, In r l -> r_status r <> Failure) by (intros r I S; assert (0 < number Failure l)%nat by (apply number_pos; eauto); lia).
    assert (Fx : ~ exists r, In r l /\ r_status r = Failure) by (intros (r & I & S); exact (Nf r I S)).
    destruct (Nat.eqb_spec (number Success l) (length l)) as [S|S].
    { pose proof (proj1 (number_all Success l) S) as S'. clear S. rename S' into S. repeat split; try discriminate; try tauto.
      - intros H. rewrite <- (S r0 Hr0). apply H. exact Hr0.
      - intros (_ & _ & r & I & K). rewrite (S r I) in K. discriminate.
      - intros (_ & r & I & K). rewrite (S r I) in K. discriminate. }
    destruct (Nat.eqb_spec (number NotExecuted l) (length l)) as [X|X].
    { pose proof (proj1 (number_all NotExecuted l) X) as X'. clear X. rename X' into X. repeat split; try discriminate; try tauto.
      - intros H. destruct S. apply (proj2 (number_all Success l)). exact H.
      - intros (_ & (r & I & K) & _). rewrite (X r I) in K. discriminate.
      - intros (_ & r & I & K). rewrite (X r I) in K. discriminate. }
    assert (Ss : ~ forall r, In r l -> r_status r = Success) by (intros H; apply S, (proj2 (number_all _ _)); exact H). assert (Sx : ~ forall r, In r l -> r_status r = NotExecuted) by (intros H; apply X, (proj2 (number_all _ _)); exact H).
    destruct (forallb (fun r => status_eqb (r_status r) Success || status_eqb (r_status r) NotExecuted) l) eqn:A.
    - assert (A2 : forall r, In r l -> r_status r = Success \/ r_status r = NotExecuted).
      { intros r I. rewrite forallb_forall in A. specialize (A r I). apply orb_true_iff in A. destruct (status_eqb_spec (r_status r) Success), (status_eqb_spec (r_status r) NotExecuted); destruct A; auto; discriminate. }
      assert (G : forall st st', (st = Success /\ st' = NotExecuted) \/ (st = NotExecuted /\ st' = Success) -> ~ (forall r, In r l -> r_status r = st) -> exists r, In r l /\ r_status r = st').
      { intros st st' H K. assert (P : (0 < number st' l)%nat \/ number st' l = 0%nat) by lia. destruct P as [P|P]; [apply number_pos; exact P|]. destruct K. intros r I. destruct (A2 r I) as [B|B]; destruct H as [[-> ->]|[-> ->]]; try exact B; exfalso; assert (0 < number _ l)%nat by (apply number_pos; exists r; split; [exact I|exact B]); lia. }
      repeat split; try discriminate; try tauto.
      + apply (G NotExecuted Success); auto.
      + apply (G Success NotExecuted); auto.
      + intros (_ & r & I & K). destruct (A2 r I); congruence.
    - assert (A2 : exists r, In r l /\ r_status r = Undefined).
      { assert (B : exists r, In r l /\ (status_eqb (r_status r) Success || status_eqb (r_status r) NotExecuted) = false).
        { clear -A. induction l as [|r l IH]; [discriminate|]. cbn [forallb] in A. apply andb_false_iff in A. destruct A as [A|A]; [exists r; split; [left; reflexivity|exact A]|]. destruct (IH A) as (x & I & K). exists x. split; [right; exact I|exact K]. }
        destruct B as (r & I & B). exists r. split; [exact I|]. pose proof (Nf r I). pose proof (proj1 (J r I)). destruct (r_status r); try discriminate; congruence. }
      repeat split; try discriminate; try tauto.
      intros (H & _). destruct A2 as (r & I & K). destruct (H r I); congruence.
  Qed.
  (** Evaluating the status of a successful stage a second time changes it. *)
  Theorem C114_again_refuted t : made t -> t_status (evaluate_status t) = Some Success -> t_status (evaluate_status (evaluate_status t)) = Some NotCompleted.
  Proof.
    intros M S. destruct (made_jobs t M) as (N & Ne & C0 & J). destruct (C114_stage t M) as (st & E & _ & Hs & _). rewrite S in E. injection E as <-. assert (A : forall r, In r (t_jobs t) -> r_status r = Success) by (apply Hs; reflexivity).
    destruct (C114_counts t M) as (Ej & En & Cf & Cs & Cn & _). assert (Nf : number Failure (t_jobs t) = 0%nat /\ number NotExecuted (t_jobs t) = 0%nat).
    { split; unfold number; replace (filter _ (t_jobs t)) with (@nil report); try reflexivity; symmetry; clear -A; induction (t_jobs t) as [|r l IH]; try reflexivity; cbn [filter]; rewrite (A r (or_introl eq_refl)); cbn [status_eqb]; apply IH; intros x Hx; apply A; right; exact Hx. }
    destruct Nf as [F0 X0]. set (e := evaluate_status t) in *. unfold evaluate_status at 1. cbn [t_status]. rewrite Ej, En.
    match goal with |- context [fold_left count_job _ ?c] => destruct (counted (t_jobs t) c) as (H1 & H2 & H3 & _) end. cbn [c_fail c_succ c_none] in H1, H2, H3. rewrite H1, H2, H3, Cf, Cs, Cn, F0, X0, (proj2 (number_all Success (t_jobs t)) A), N.
    assert (L : (0 < length (t_jobs t))%nat) by (destruct (t_jobs t); [congruence|cbn; lia]). cbn [Nat.ltb Nat.leb plus]. destruct (Nat.eqb_spec (length (t_jobs t) + length (t_jobs t)) (length (t_jobs t))); [lia|]. destruct (Nat.eqb_spec 0 (length (t_jobs t))); [lia|].
    replace (forallb _ (t_jobs t)) with true; [reflexivity|]. symmetry. apply forallb_forall. intros r I. rewrite (A r I). reflexivity.
  Qed.

  (** The counters go on from where they were. *)
  Theorem C114_again_counts t : made t -> let c := t_count (evaluate_status (evaluate_status t)) in let l := t_jobs t in
    c_fail c = (2 * number Failure l)%nat /\ c_succ c = (2 * number Success l)%nat /\ c_none c = (2 * number NotExecuted l)%nat /\ c_undef c = (2 * number Undefined l)%nat /\ c_core c = (2 * dumped l)%nat /\
    c_good c = c_good (t_count (evaluate_status t)) /\ c_bad c = c_bad (t_count (evaluate_status t)).
  Proof.
    intros M. destruct (made_jobs t M) as (N & _ & C0 & _). destruct (C114_counts t M) as (Ej & _ & Cf & Cs & Cn & Cu & _ & Cc & _). cbv zeta in *. set (e := evaluate_status t) in *.
    unfold evaluate_status. cbn [t_count]. rewrite Ej, Cf, Cs, Cn, Cu, Cc.
    match goal with |- context [fold_left count_job _ ?c] => destruct (counted (t_jobs t) c) as (H1 & H2 & H3 & H4 & H5 & H6 & H7) end. rewrite H1, H2, H3, H4, H5, H6, H7. cbn [c_fail c_succ c_none c_undef c_core c_good c_bad].
    unfold e, evaluate_status. cbn [t_count]. rewrite C0. cbn [c_fail c_succ c_none c_undef c_core no_counters].
    destruct (counted (t_jobs t) (mkCounters 0 0 0 0 0 [] [])) as (_ & _ & _ & _ & _ & G6 & G7). rewrite G6, G7. cbn [c_good c_bad]. repeat split; try reflexivity; lia.
  Qed.

  (** The stages of a run: those with a directory that is no link, in the order given. *)
  Definition evaluated (t : task) : Prop := exists t0, made t0 /\ t = evaluate_status t0.
  Theorem C114_stages ws ts : build_tasks read_out ws = Ok ts ->
    Forall2 (fun w t => exists t0, build_jobs read_out (w_name w) (w_jobs w) = Ok t0 /\ t = evaluate_status t0) (filter (fun w => w_exists w && negb (w_link w)) ws) ts /\ Forall evaluated ts.
  Proof.
    unfold build_tasks. generalize (filter (fun w => w_exists w && negb (w_link w)) ws). intros l. revert ts. induction l as [|w l IH]; intros ts E; cbn [rmapM] in E; [injection E as <-; split; constructor|].
    destruct (build_jobs read_out (w_name w) (w_jobs w)) as [t0|e] eqn:B; cbn [rmap rbind] in E; [|discriminate]. destruct (rmapM _ l) as [ts'|e] eqn:M; cbn [rbind] in E; [|discriminate]. injection E as <-. destruct (IH ts' eq_refl) as [A C]. split; constructor; eauto.
    exists t0. split; [exists (w_name w), (w_jobs w); exact B|reflexivity].
  Qed.
  Definition has (st : status) (t : task) : Prop := t_status t = Some st.
  Theorem C114_run l :
    (run_status l = Success <-> Forall (has Success) l) /\
    (run_status l = Failure <-> Exists (has Failure) l) /\
    (run_status l = NotCompleted <-> Forall (fun t => has Success t \/ has NotExecuted t) l /\ Exists (has NotExecuted) l) /\
    run_status l <> NotExecuted.
  Proof.
    unfold run_status.
    assert (B : forall s t, (match t_status t with Some x => status_eqb x s | None => false end) = true <-> has s t).
    { intros s t. unfold has. destruct (t_status t) as [x|]; [|split; discriminate]. destruct (status_eqb_spec x s); split; congruence. }
    destruct (forallb _ l) eqn:A.
    - assert (A2 : Forall (has Success) l) by (apply Forall_forall; intros t I; rewrite forallb_forall in A; apply B, A; exact I). rewrite Forall_forall in A2.
      repeat split; try discriminate; try (intros _; apply Forall_forall; exact A2); try (intros H; apply Exists_exists in H; destruct H as (t & I & K); specialize (A2 t I); unfold has in *; congruence).
      intros [_ H]. apply Exists_exists in H. destruct H as (t & I & K). specialize (A2 t I). unfold has in *. congruence.
    - assert (A2 : ~ Forall (has Success) l) by (intros H; assert (X : forallb (fun t => match t_status t with Some x => status_eqb x Success | None => false end) l = true) by (apply forallb_forall; intros t I; apply B; rewrite Forall_forall in H; exact (H t I)); congruence).
      destruct (existsb _ l) eqn:E.
      + apply existsb_exists in E. destruct E as (t & I & K). apply B in K. repeat split; try discriminate; try tauto; try (intros _; apply Exists_exists; eauto).
        intros [H _]. rewrite Forall_forall in H. destruct (H t I) as [X|X]; unfold has in *; congruence.
      + assert (E2 : ~ Exists (has Failure) l) by (intros H; apply Exists_exists in H; destruct H as (t & I & K); assert (X : existsb (fun t => match t_status t with Some x => status_eqb x Failure | None => false end) l = true) by (apply existsb_exists; exists t; split; [exact I|apply B; exact K]); congruence).
        match goal with |- context [forallb ?f l] => destruct (forallb f l) eqn:C end.
        * assert (C2 : Forall (fun t => has Success t \/ has NotExecuted t) l) by (apply Forall_forall; intros t I; rewrite forallb_forall in C; specialize (C t I); apply orb_true_iff in C; rewrite !B in C; exact C).
          repeat split; try discriminate; try tauto.
          clear -A2 C2. induction C2 as [|t l H C2 IH]; [destruct A2; constructor|]. destruct H as [H|H]; [right; apply IH; intros X; apply A2; constructor; assumption|left; exact H].
        * assert (C2 : ~ Forall (fun t => has Success t \/ has NotExecuted t) l) by (intros H; match type of C with forallb ?f l = _ => assert (X : forallb f l = true) end; [|congruence]; apply forallb_forall; intros t I; apply orb_true_iff; rewrite !B; rewrite Forall_forall in H; exact (H t I)).
          repeat split; try discriminate; tauto.
  Qed.
  (** Without any stage a run is reported as a success; with a stage that is not completed
      as undefined. *)
  Theorem C114_nothing_refuted ws : (forall w, In w ws -> w_exists w = false \/ w_link w = true) -> build_tasks read_out ws = Ok [] /\ run_status [] = Success.
  Proof.
    intros H. split; [|reflexivity]. unfold build_tasks. replace (filter _ ws) with (@nil workdir); [reflexivity|]. symmetry. induction ws as [|w ws IH]; [reflexivity|]. cbn [filter]. destruct (H w (or_introl eq_refl)) as [E|E]; rewrite E; cbn [negb andb]; rewrite ?andb_false_r; apply IH; intros x Hx; apply H; right; exact Hx.
  Qed.
  Theorem C114_not_completed_refuted l : Exists (has NotCompleted) l -> (forall t, In t l -> ~ has Failure t) -> run_status l = Undefined.
  Proof.
    intros X N. destruct (C114_run l) as (A & B & C & D). apply Exists_exists in X. destruct X as (t & I & K). destruct (run_status l) eqn:R; try reflexivity; exfalso.
    - assert (F : Forall (has Success) l) by (apply A; reflexivity). rewrite Forall_forall in F. specialize (F t I). unfold has in *. congruence.
    - assert (F : Exists (has Failure) l) by (apply B; reflexivity). apply Exists_exists in F. destruct F as (u & J & F). exact (N u J F).
    - congruence.
    - assert (F : Forall (fun t => has Success t \/ has NotExecuted t) l) by (apply C; reflexivity). rewrite Forall_forall in F. destruct (F t I); unfold has in *; congruence.
  Qed.

  (** The report: the status, then each stage with all its jobs; the summary: the status and
      the stages.  A job with an output of the batch system but no error file ends it with
      AttributeError, after what was written before. *)
  Definition unreportable (r : report) : Prop := r_status r = Undefined /\ r_err r = None.
  Definition full_report (l : list task) : list piece := flat_map (fun t => PTask (t_dir t) :: map (fun r => PJob (r_dir r)) (t_jobs t)) l.
  Lemma job_text_spec suf d r : job_report read_out suf d = Ok r -> (job_text r = Ok tt /\ ~ unreportable r) \/ (job_text r = Err EAttributeError /\ unreportable r).
  Proof.
    intros H. destruct (job_ok suf d r H) as (N & _ & O). unfold job_text, unreportable. destruct d as [d l]. destruct (C114_job suf d l r H) as (_ & _ & F & _ & _).
    assert (Ee : r_err r = first_file "job" ".err" l).
    { unfold job_report in H. destruct (job_status suf l) as [[st core] size]. destruct (first_file "job" ".out" l) as [x|]; [destruct (read_out (ftext x)) as [[[? ?] ?]|]; cbn [rbind] in H; [|discriminate]|]; injection H as <-; reflexivity. }
    destruct (r_status r) eqn:S; try congruence.
    - left. specialize (O eq_refl). destruct (r_output r); [split; [reflexivity|intros [X _]; discriminate]|congruence].
    - left. destruct (proj1 F eq_refl) as (e & C & _). apply chosen_iff in C. rewrite Ee, C. split; [reflexivity|]. intros [X _]. discriminate.
    - destruct (r_err r); [left; split; [reflexivity|]; intros [_ X]; discriminate|right; auto].
    - left. split; [reflexivity|]. intros [X _]. discriminate.
  Qed.
  Lemma jobs_text t : evaluated t -> forall r, In r (t_jobs t) -> (job_text r = Ok tt /\ ~ unreportable r) \/ (job_text r = Err EAttributeError /\ unreportable r).
  Proof.
    intros (t0 & (dir & ds & H) & ->) r Hr. change (t_jobs (evaluate_status t0)) with (t_jobs t0) in Hr. destruct (C114_jobs dir ds t0 H) as (jobs & F & P & _). apply (Permutation_in _ P) in Hr. clear -F Hr. induction F as [|d x ds js E F IH]; [destruct Hr|]. destruct Hr as [<-|Hr]; [exact (job_text_spec _ _ _ E)|exact (IH Hr)].
  Qed.
  Theorem C114_report l : Forall evaluated l -> (forall t r, In t l -> In r (t_jobs t) -> ~ unreportable r) ->
    write_report l = (PRun (run_status l) :: full_report l, PRun (run_status l) :: map (fun t => PTask (t_dir t)) l, Ok tt).
  Proof.
    intros E H. unfold write_report. assert (W : write_tasks l = (full_report l, map (fun t => PTask (t_dir t)) l, Ok tt)); [|rewrite W; reflexivity].
    induction E as [|t l Et E IH]; [reflexivity|]. cbn [write_tasks full_report flat_map map].
    assert (J : write_jobs (t_jobs t) = (map (fun r => PJob (r_dir r)) (t_jobs t), Ok tt)).
    { assert (X : forall r, In r (t_jobs t) -> job_text r = Ok tt) by (intros r Hr; destruct (jobs_text t Et r Hr) as [[A _]|[_ A]]; [exact A|destruct (H t r (or_introl eq_refl) Hr A)]).
      clear -X. induction (t_jobs t) as [|r js IH]; [reflexivity|]. cbn [write_jobs map]. rewrite (X r (or_introl eq_refl)). rewrite IH by (intros x Hx; apply X; right; exact Hx). reflexivity. }
    rewrite J. rewrite IH by (intros u r Hu Hr; apply (H u r (or_intror Hu) Hr)). reflexivity.
  Qed.
  Lemma jobs_stop l1 r l2 : (forall x, In x l1 -> job_text x = Ok tt) -> job_text r = Err EAttributeError -> write_jobs (l1 ++ r :: l2) = (map (fun r => PJob (r_dir r)) l1, Err EAttributeError).
  Proof. intros H E. induction l1 as [|x l1 IH]; cbn [app write_jobs map]; [rewrite E; reflexivity|]. rewrite (H x (or_introl eq_refl)). rewrite IH by (intros y Hy; apply H; right; exact Hy). reflexivity. Qed.
  Theorem C114_report_refuted l1 t l2 j1 r j2 : Forall evaluated (l1 ++ t :: l2) -> t_jobs t = j1 ++ r :: j2 -> (forall u x, In u l1 -> In x (t_jobs u) -> ~ unreportable x) -> (forall x, In x j1 -> ~ unreportable x) -> unreportable r ->
    let st := PRun (run_status (l1 ++ t :: l2)) in
    write_report (l1 ++ t :: l2) = (st :: full_report l1 ++ PTask (t_dir t) :: map (fun r => PJob (r_dir r)) j1, st :: map (fun t => PTask (t_dir t)) (l1 ++ [t]), Err EAttributeError).
  Proof.
    intros E T H1 H2 U. cbv zeta. unfold write_report. assert (Et : evaluated t) by (rewrite Forall_forall in E; apply E, in_elt).
    assert (W : write_tasks (l1 ++ t :: l2) = (full_report l1 ++ PTask (t_dir t) :: map (fun r => PJob (r_dir r)) j1, map (fun t => PTask (t_dir t)) (l1 ++ [t]), Err EAttributeError)); [|rewrite W; reflexivity].
    revert E H1. induction l1 as [|u l1 IH]; intros E H1; cbn [app write_tasks full_report flat_map map].
    - rewrite T. rewrite jobs_stop; [reflexivity| |].
      + intros x Hx. assert (I : In x (t_jobs t)) by (rewrite T; apply in_or_app; left; exact Hx). destruct (jobs_text t Et x I) as [[A _]|[_ A]]; [exact A|destruct (H2 x Hx A)].
      + assert (I : In r (t_jobs t)) by (rewrite T; apply in_elt). destruct (jobs_text t Et r I) as [[_ A]|[A _]]; [destruct (A U)|exact A].
    - inversion E as [|? ? Eu E']; subst. assert (J : write_jobs (t_jobs u) = (map (fun r => PJob (r_dir r)) (t_jobs u), Ok tt)).
      { assert (X : forall x, In x (t_jobs u) -> job_text x = Ok tt) by (intros x Hx; destruct (jobs_text u Eu x Hx) as [[A _]|[_ A]]; [exact A|destruct (H1 u x (or_introl eq_refl) Hx A)]).
        clear -X. induction (t_jobs u) as [|x js IH]; [reflexivity|]. cbn [write_jobs map]. rewrite (X x (or_introl eq_refl)). rewrite IH by (intros y Hy; apply X; right; exact Hy). reflexivity. }
      rewrite J. rewrite IH; [|exact E'|intros v x Hv Hx; apply (H1 v x (or_intror Hv) Hx)]. cbn [app]. rewrite <- app_assoc. reflexivity.
  Qed.
End Props.
(** The submitter of jobs never writes a report. *)
Theorem C114_never_refuted tasks : report_wanted tasks <> Ok true.
Proof.
  unfold report_wanted, dgetr. destruct (dget String.eqb tasks "Fisher") as [b|] eqn:E; cbn [rbind]; [|discriminate]. intros [= H]. apply andb_true_iff in H as [-> H].
  assert (X : existsb (fun kv : string * bool => snd kv) tasks = true); [|rewrite X in H; discriminate]. apply existsb_exists. exists ("Fisher", true). split; [apply (dget_In _ String.eqb_spec); exact E|reflexivity].
Qed.

Definition ex_read (s : string) : res (Z * option string * list string) :=
  if String.eqb s "nine" then Ok (1%Z, Some "9", ["h1"]) else if String.eqb s "ten" then Ok (3%Z, Some "10", ["h2"]) else Err EValueError.
Definition ex_dirs := [("a", [mkFile "job.err" "" 0; mkFile "job.out" "nine" 4; mkFile "cl.h5" "x" 100]); ("b", [mkFile "job.err" "Core  dumped" 5; mkFile "job.out" "ten" 0])].
Definition ex_moment := mkMoment 2021 3 28 23 5 59 0%Z.
Example C114_instance : exists t, build_jobs ex_read "Angular" ex_dirs = Ok t /\ made ex_read t /\ map r_status (t_jobs t) = [Failure; Success] /\ t_mean t = (4 # 2)%Q /\ t_size t = 100 /\ map r_core (t_jobs t) = [true; false] /\
  t_status (evaluate_status t) = Some Failure /\ c_bad (t_count (evaluate_status t)) = ["h2"] /\ evaluated ex_read (evaluate_status t) /\ run_status [evaluate_status t] = Failure /\
  fst (fst (write_report [evaluate_status t])) = [PRun Failure; PTask "Angular"; PJob "b"; PJob "a"] /\ log_names "job" ex_moment = ("out_job_2021-03-28T23-05-59.out", "err_job_2021-03-28T23-05-59.err").
Proof.
  eexists. split; [reflexivity|]. split; [exists "Angular", ex_dirs; reflexivity|]. repeat (split; [reflexivity|]). split; [eexists; split; [exists "Angular", ex_dirs; reflexivity|reflexivity]|]. repeat split; reflexivity.
Qed.
Example C114_stop_instance : exists t, build_jobs ex_read "Angular" [("a", [mkFile "job.out" "nine" 4])] = Ok t /\ map r_status (t_jobs t) = [Undefined] /\ Forall unreportable (t_jobs t) /\ snd (write_report [evaluate_status t]) = Err EAttributeError.
Proof. eexists. split; [reflexivity|]. split; [reflexivity|]. split; [repeat constructor|reflexivity]. Qed.

Print Assumptions C114_job.
Print Assumptions C114_resubmitted_refuted.
Print Assumptions C114_batch_refuted.
Print Assumptions C114_jobs.
Print Assumptions C114_no_jobs.
Print Assumptions C114_order_refuted.
Print Assumptions C114_counts.
Print Assumptions C114_stage.
Print Assumptions C114_again_refuted.
Print Assumptions C114_again_counts.
Print Assumptions C114_stages.
Print Assumptions C114_run.
Print Assumptions C114_nothing_refuted.
Print Assumptions C114_not_completed_refuted.
Print Assumptions C114_report.
Print Assumptions C114_report_refuted.
Print Assumptions C114_never_refuted.
