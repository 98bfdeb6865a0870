(** C120: the options of job_submitter. *)
From Verif Require Import Base SortLib StrLib FrameModel NameModel NameLemmas TimeModel WsModel WsProps BatchModel BatchProps ParamProps2 SubmitModel.
Open Scope string_scope.
Open Scope list_scope.

Lemma items_get (f : string -> value -> res value) d : forall d', rmapM (fun kv => v <- f (fst kv) (snd kv) ;; Ok (fst kv, v)) d = Ok d' ->
  dkeys d' = dkeys d /\ forall k, match dget String.eqb d k with Some v => exists v', f k v = Ok v' /\ dget String.eqb d' k = Some v' | None => dget String.eqb d' k = None end.
Proof.
  induction d as [|[n v] d IH]; intros d' H; cbn [rmapM] in H.
  - injection H as <-. split; [reflexivity|]. intros k. reflexivity.
  - cbn [fst snd] in H. destruct (f n v) as [v'|] eqn:E; cbn [rbind] in H; [|discriminate]. destruct (rmapM _ d) as [d1|] eqn:M; cbn [rbind] in H; [|discriminate]. injection H as <-.
    destruct (IH d1 eq_refl) as [K G]. split; [unfold dkeys in *; cbn [map fst]; f_equal; exact K|]. intros k. cbn [dget]. destruct (String.eqb_spec n k) as [->|N]; [exists v'; auto|apply G].
Qed.
Lemma submit_parts files args d : submit files args = Ok d -> exists a b, convert args = Ok a /\ apply_ini files a = Ok b /\ check_options b = Ok tt /\ cast b = Ok d.
Proof.
  unfold submit. destruct (convert args) as [a|]; cbn [rbind]; [|discriminate]. destruct (apply_ini files a) as [b|] eqn:E; cbn [rbind]; [|discriminate]. destruct (check_options b) as [[]|] eqn:C; cbn [rbind]; [|discriminate]. intros H. exists a, b. auto.
Qed.
Lemma convert_get args a k : convert args = Ok a -> match dget String.eqb args k with Some v => exists v', convert_value v = Ok v' /\ dget String.eqb a k = Some v' | None => dget String.eqb a k = None end.
Proof. intros H. exact (proj2 (items_get (fun _ => convert_value) args a H) k). Qed.
Lemma cast_get b d k : cast b = Ok d -> match dget String.eqb b k with Some v => exists v', (if path_like k then to_path_value v else Ok v) = Ok v' /\ dget String.eqb d k = Some v' | None => dget String.eqb d k = None end.
Proof. intros H. exact (proj2 (items_get (fun n v => if path_like n then to_path_value v else Ok v) b d H) k). Qed.

(** What the text of an option becomes. *)
Definition digits (s : string) : Prop := s <> "" /\ all_chars is_digit s = true.
Lemma span_all s : all_chars is_digit (fst (span is_digit s)) = true /\ s = (fst (span is_digit s) ++ snd (span is_digit s))%string.
Proof. induction s as [|a s [IH1 IH2]]; cbn [span]; [auto|]. destruct (is_digit a) eqn:E; [|auto]. destruct (span is_digit s) as [u v]. cbn in *. rewrite E. split; [exact IH1|f_equal; exact IH2]. Qed.
Lemma span_digits w r : all_chars is_digit w = true -> r = "" \/ r = newline -> span is_digit (w ++ r) = (w, r).
Proof. intros H R. apply span_app; [exact H|]. destruct R as [-> | ->]; cbn; reflexivity || exact I. Qed.
Lemma int_text_iff s : int_text s = true <-> exists w, digits w /\ (s = w \/ s = (w ++ newline)%string).
Proof.
  unfold int_text. split.
  - destruct (span_all s) as [A E]. destruct (span is_digit s) as [w r]. cbn [fst snd] in *. intros H. apply andb_true_iff in H as [H1 H2]. exists w. split; [split; [intros ->; discriminate|exact A]|].
    apply orb_true_iff in H2. destruct H2 as [H2|H2]; apply String.eqb_eq in H2; subst r; [left; rewrite E; apply sapp_nil_r|right; exact E].
  - intros (w & [N A] & [->| ->]).
    + rewrite <- (sapp_nil_r w). rewrite span_digits by auto. destruct w; [congruence|reflexivity].
    + rewrite span_digits by auto. destruct w; [congruence|reflexivity].
Qed.
Lemma int_value w : digits w -> bool_text w = false /\ convert_value (VText w) = Ok (VInt (Z.of_nat (num (chars w)))) /\ convert_value (VText (w ++ newline)) = Ok (VInt (Z.of_nat (num (chars w)))).
Proof.
  intros D. assert (X : forall r, bool_text (w ++ r) = false).
  { intros r. destruct D as [N A]. destruct w as [|c w]; [congruence|]. cbn [all_chars] in A. apply andb_true_iff in A as [A _]. destruct (bool_text (String c w ++ r)) eqn:B; [|reflexivity]. unfold bool_text in B. apply smem_In in B. cbn [flat_map app append] in B.
    repeat (destruct B as [B|B]; [injection B as <- _; discriminate A|]). destruct B. }
  assert (I : forall r, r = "" \/ r = newline -> int_text (w ++ r) = true) by (intros r R; apply int_text_iff; exists w; split; [exact D|]; destruct R as [-> | ->]; [left; apply sapp_nil_r|right; reflexivity]).
  split; [rewrite <- (sapp_nil_r w); apply X|]. split.
  - pose proof (X "") as X0. pose proof (I "" (or_introl eq_refl)) as I0. pose proof (span_digits w "" (proj2 D) (or_introl eq_refl)) as S0. rewrite sapp_nil_r in X0, I0, S0. unfold convert_value. rewrite X0, I0, S0. reflexivity.
  - unfold convert_value. rewrite X, I by auto. rewrite span_digits by (apply D || auto). reflexivity.
Qed.
(** A plain text, neither a number nor true or false. *)
Definition word (s : string) : Prop := ~ In s ["True"; "true"; "False"; "false"] /\ ~ digits s /\ ~ exists r, s = (r ++ newline)%string.
Lemma word_value s : word s -> convert_value (VText s) = Ok (VText s).
Proof.
  intros (B & D & N). unfold convert_value. destruct (bool_text s) eqn:E.
  - unfold bool_text in E. apply smem_In in E. cbn [flat_map app In] in E. exfalso. cbn [In] in B.
    assert (X : forall w, s <> (w ++ newline)%string) by (intros w ->; apply N; eexists; reflexivity).
    destruct E as [E|[E|[E|[E|[E|[E|[E|[E|[]]]]]]]]]; first [exact (X _ (eq_sym E)) | tauto].
  - destruct (int_text s) eqn:I; [|reflexivity]. apply int_text_iff in I. destruct I as (w & Dw & [->| ->]); [contradiction|]. destruct N. eexists. reflexivity.
Qed.

(** ** Options given on the command line *)
Definition no_ini (args : options) : Prop := dget String.eqb args "ini_file" = Some VNone.
Lemma no_ini_eq files args a : no_ini args -> convert args = Ok a -> apply_ini files a = Ok a.
Proof. intros N C. pose proof (convert_get args a "ini_file" C) as G. unfold no_ini in N. rewrite N in G. destruct G as (v & E & G). injection E as <-. unfold apply_ini, opt. rewrite G. reflexivity. Qed.
Lemma plain_get files args d k : no_ini args -> submit files args = Ok d -> path_like k = false ->
  match dget String.eqb args k with Some v => exists v', convert_value v = Ok v' /\ dget String.eqb d k = Some v' | None => dget String.eqb d k = None end.
Proof.
  intros N S P. destruct (submit_parts files args d S) as (a & b & C & I & _ & X). rewrite (no_ini_eq files args a N C) in I. injection I as <-.
  pose proof (convert_get args a k C) as G. pose proof (cast_get a d k X) as G'. rewrite P in G'. destruct (dget String.eqb args k) as [v|].
  - destruct G as (v' & E & G). rewrite G in G'. destruct G' as (v2 & E2 & G'). injection E2 as <-. exists v'. auto.
  - rewrite G in G'. exact G'.
Qed.
(** When a flag of the command line is on: the option alone, or with a text that is
    neither false nor zero. *)
Definition zeros (s : string) : Prop := exists w, digits w /\ num (chars w) = 0%nat /\ (s = w \/ s = (w ++ newline)%string).
Definition on (v : value) : Prop :=
  match v with VNone => False | VBool b => b = true | VInt z => z <> 0%Z | VPath _ => True | VText s => s <> "" /\ s <> "False" /\ s <> "false" /\ ~ zeros s end.
Lemma on_iff v v' : convert_value v = Ok v' -> (truthy v' = true <-> on v).
Proof.
  intros H. pose proof H as H0. destruct v as [|b|z|s|p]; cbn [convert_value] in H; try (injection H as <-; cbn; (tauto || (split; [discriminate|intros []]) || (split; [intros _; exact I|reflexivity]))).
  - injection H as <-. cbn. destruct (Z.eqb_spec z 0); cbn; split; congruence.
  - cbn [on]. destruct (bool_text s) eqn:B.
    + assert (Z : ~ zeros s). { intros (w & D & _ & E). destruct (int_value w D) as (Bw & V1 & V2). destruct E as [->| ->]; [congruence|]. cbn [convert_value] in V2. rewrite B in V2. destruct (str_to_bool _); discriminate. }
      unfold bool_text in B. apply smem_In in B. cbn [flat_map app In] in B.
      destruct B as [B|[B|[B|[B|[B|[B|[B|[B|[]]]]]]]]]; subst s; cbn in H; try discriminate; injection H as <-; cbn; (split; [intros X; try discriminate X; repeat split; try discriminate; exact Z|intros (_ & X & Y & _); congruence]).
    + destruct (int_text s) eqn:I.
      * apply int_text_iff in I. destruct I as (w & D & E). destruct (int_value w D) as (Bw & V1 & V2). assert (V : v' = VInt (Z.of_nat (num (chars w)))).
        { destruct E as [->| ->]; [rewrite V1 in H0|rewrite V2 in H0]; congruence. }
        subst v'. cbn [truthy]. assert (F : s <> "" /\ s <> "False" /\ s <> "false") by (destruct D as [Nw A]; destruct w as [|c w]; [congruence|]; cbn [all_chars] in A; apply andb_true_iff in A as [A _]; destruct E as [->| ->]; cbn [append]; (repeat split; [discriminate|intros Q; injection Q as -> _; discriminate A|intros Q; injection Q as -> _; discriminate A])).
        assert (Zw : forall w', digits w' -> (s = w' \/ s = (w' ++ newline)%string) -> num (chars w') = num (chars w)).
        { intros w' D' E'. destruct (int_value w' D') as (Bw' & V1' & V2'). assert (Q : convert_value (VText s) = Ok (VInt (Z.of_nat (num (chars w'))))) by (destruct E' as [->| ->]; assumption). assert (Q' : convert_value (VText s) = Ok (VInt (Z.of_nat (num (chars w))))) by (destruct E as [->| ->]; assumption). rewrite Q in Q'. injection Q' as Q'. lia. }
        destruct (Z.eqb_spec (Z.of_nat (num (chars w))) 0) as [Q|Q]; cbn [negb]; split; try discriminate.
        -- intros (_ & _ & _ & X). destruct X. exists w. repeat split; try apply D; [lia|exact E].
        -- intros _. split; [apply F|]. split; [apply F|]. split; [apply F|]. intros (w' & D' & N' & E'). rewrite (Zw w' D' E') in N'. lia.
        -- reflexivity.
      * injection H as <-. cbn [truthy]. assert (Z : ~ zeros s) by (intros (w & D & _ & E); assert (int_text s = true) by (apply int_text_iff; exists w; auto); congruence).
        assert (F : s <> "False" /\ s <> "false") by (split; intros ->; discriminate B). destruct s as [|c s]; cbn; split; try discriminate; [tauto| |reflexivity]. intros _. split; [discriminate|]. tauto.
Qed.
Theorem C120_flags files args d t n k : no_ini args -> submit files args = Ok d -> tasks d = Ok t -> In (n, k) stages ->
  exists v, dget String.eqb args k = Some v /\ (dget String.eqb t n = Some true <-> on v) /\ (dget String.eqb t n = Some false <-> ~ on v).
Proof.
  intros N S T I.
  assert (P : path_like k = false) by (cbn in I; repeat (destruct I as [I|I]; [injection I as <- <-; reflexivity|]); destruct I).
  pose proof (plain_get files args d k N S P) as G.
  assert (Q : exists v, dget String.eqb d k = Some v /\ dget String.eqb t n = Some (truthy v)).
  { unfold tasks in T. cbn [rmapM stages fst snd] in T. unfold opt in T. repeat match type of T with context [dget String.eqb d ?x] => let E := fresh "E" in destruct (dget String.eqb d x) eqn:E; cbn [rbind] in T; [|discriminate] end. injection T as <-.
    cbn in I. repeat (destruct I as [I|I]; [injection I as <- <-; eexists; split; [eassumption|reflexivity]|]). destruct I. }
  destruct Q as (v & Gv & ->). destruct (dget String.eqb args k) as [u|]; [|congruence]. destruct G as (v' & C & G). assert (v' = v) by congruence. subst v'. exists u. split; [reflexivity|]. pose proof (on_iff u v C) as O.
  destruct (truthy v) eqn:Tv; split; split; intros X; try discriminate; try reflexivity; try (apply O; reflexivity); try (destruct X; apply O; reflexivity).
  - apply O in X. discriminate.
  - intros Y. apply O in Y. discriminate.
Qed.
(** no, off or FALSE start the stage. *)
Theorem C120_word_refuted files args d t n k s : no_ini args -> submit files args = Ok d -> tasks d = Ok t -> In (n, k) stages ->
  dget String.eqb args k = Some (VText s) -> word s -> s <> "" -> dget String.eqb t n = Some true.
Proof.
  intros N S T I G W Ns. destruct (C120_flags files args d t n k N S T I) as (v & E & O & _). apply O. rewrite G in E. injection E as <-. destruct W as (B & D & L). cbn. split; [exact Ns|]. cbn [In] in B. split; [intros ->; tauto|]. split; [intros ->; tauto|].
  intros (w & Dw & _ & [->| ->]); [contradiction|]. apply L. eexists. reflexivity.
Qed.

(** ** The ini file *)
Definition ini_of files (args : options) (kv : dict string string) : Prop :=
  exists p secs, dget String.eqb args "ini_file" = Some (VPath p) /\ files p = Some secs /\ dget String.eqb secs "config" = Some kv.
Lemma ini_eq files args a kv : ini_of files args kv -> convert args = Ok a ->
  apply_ini files a = if forallb (fun k => dmem String.eqb a k) (dkeys kv) then Ok (dupdate String.eqb a (map (fun kv => (fst kv, VText (snd kv))) kv)) else Err EKeyError.
Proof.
  intros (p & secs & G & F & S) C. pose proof (convert_get args a "ini_file" C) as H. rewrite G in H. destruct H as (v & E & H). injection E as <-. unfold apply_ini, opt. rewrite H. cbn [rbind]. rewrite F, S. reflexivity.
Qed.
Lemma texts_get (kv : dict string string) k : dget String.eqb (map (fun kv => (fst kv, VText (snd kv))) kv) k = option_map VText (dget String.eqb kv k).
Proof. induction kv as [|[n t] kv IH]; cbn; [reflexivity|]. destruct (String.eqb n k); [reflexivity|exact IH]. Qed.
Lemma texts_keys (kv : dict string string) : dkeys (map (fun kv => (fst kv, VText (snd kv))) kv) = dkeys kv.
Proof. unfold dkeys. rewrite map_map. reflexivity. Qed.
Theorem C120_ini files args kv d k : ini_of files args kv -> NoDup (dkeys kv) -> submit files args = Ok d ->
  (forall n, In n (dkeys kv) -> In n (dkeys args)) /\
  match dget String.eqb kv k with
  | Some t => dget String.eqb d k = Some (if path_like k then VPath t else VText t)
  | None => match dget String.eqb args k with
            | Some v => exists v' v2, convert_value v = Ok v' /\ (if path_like k then to_path_value v' else Ok v') = Ok v2 /\ dget String.eqb d k = Some v2
            | None => dget String.eqb d k = None
            end
  end.
Proof.
  intros H N S. destruct (submit_parts files args d S) as (a & b & C & I & _ & X). rewrite (ini_eq files args a kv H C) in I. destruct (forallb _ (dkeys kv)) eqn:F; [|discriminate]. injection I as <-.
  split.
  - intros n Hn. rewrite forallb_forall in F. specialize (F n Hn). destruct (items_get (fun _ => convert_value) args a C) as [K _]. rewrite <- K. unfold dmem in F. destruct (dget String.eqb a n) as [v|] eqn:G; [|discriminate]. apply (dget_In _ String.eqb_spec) in G. apply in_map_iff. exists (n, v). auto.
  - pose proof (cast_get _ d k X) as G. rewrite (dget_dupdate (map (fun kv => (fst kv, VText (snd kv))) kv) a k) in G by (rewrite texts_keys; exact N). rewrite texts_get in G. destruct (dget String.eqb kv k) as [t|]; cbn [option_map] in G.
    + destruct G as (v & E & G). rewrite G. destruct (path_like k); cbn in E; congruence.
    + pose proof (convert_get args a k C) as Q. destruct (dget String.eqb args k) as [v|].
      * destruct Q as (v' & E & Q). rewrite Q in G. destruct G as (v2 & E2 & G). exists v', v2. auto.
      * rewrite Q in G. exact G.
Qed.
(** Its texts stay texts: False in an ini file starts the stage, a number of cores
    ends in an error. *)
Theorem C120_ini_false_refuted files args kv d t n k s : ini_of files args kv -> NoDup (dkeys kv) -> submit files args = Ok d -> tasks d = Ok t -> In (n, k) stages ->
  dget String.eqb kv k = Some s -> s <> "" -> dget String.eqb t n = Some true.
Proof.
  intros H N S T I G Ns. pose proof (proj2 (C120_ini files args kv d k H N S)) as Q. rewrite G in Q.
  assert (P : path_like k = false) by (cbn in I; repeat (destruct I as [I|I]; [injection I as <- <-; reflexivity|]); destruct I). rewrite P in Q.
  unfold tasks in T. cbn [rmapM stages fst snd] in T. unfold opt in T. repeat match type of T with context [dget String.eqb d ?x] => let E := fresh "E" in destruct (dget String.eqb d x) eqn:E; cbn [rbind] in T; [|discriminate] end. injection T as <-.
  cbn in I. repeat (destruct I as [I|I]; [injection I as <- <-; match goal with E1 : dget _ d ?x = Some ?v, E2 : dget _ d ?x = Some (VText s) |- _ => rewrite E1 in E2; injection E2 as -> end; cbn; destruct s; [congruence|reflexivity]|]). destruct I.
Qed.
Theorem C120_ini_cores_refuted files args kv s d : ini_of files args kv -> NoDup (dkeys kv) -> dget String.eqb kv "n_cores_per_job" = Some s -> submit files args <> Ok d.
Proof.
  intros H N G S. destruct (submit_parts files args d S) as (a & b & C & I & K & X). rewrite (ini_eq files args a kv H C) in I. destruct (forallb _ (dkeys kv)); [|discriminate]. injection I as <-.
  unfold check_options, opt in K. destruct (dget String.eqb _ "execution") as [e|]; cbn [rbind] in K; [|discriminate]. destruct (match e with VText _ => _ | _ => _ end); [|discriminate].
  rewrite (dget_dupdate (map (fun kv => (fst kv, VText (snd kv))) kv) a "n_cores_per_job") in K by (rewrite texts_keys; exact N). rewrite texts_get, G in K. discriminate.
Qed.
Theorem C120_ini_errors files args a p : convert args = Ok a -> dget String.eqb args "ini_file" = Some (VPath p) ->
  (files p = None -> submit files args = Err EFileNotFound) /\
  (forall secs, files p = Some secs -> dget String.eqb secs "config" = None -> submit files args = Err EKeyError) /\
  (forall secs kv n, files p = Some secs -> dget String.eqb secs "config" = Some kv -> In n (dkeys kv) -> ~ In n (dkeys args) -> submit files args = Err EKeyError).
Proof.
  intros C G. unfold submit. rewrite C. cbn [rbind]. pose proof (convert_get args a "ini_file" C) as H. rewrite G in H. destruct H as (v & E & H). injection E as <-. unfold apply_ini, opt. rewrite H. cbn [rbind]. split; [|split].
  - intros ->. reflexivity.
  - intros secs -> ->. reflexivity.
  - intros secs kv n -> -> I N. replace (forallb _ (dkeys kv)) with false; [reflexivity|]. symmetry. apply not_true_is_false. intros F. rewrite forallb_forall in F. specialize (F n I). unfold dmem in F. destruct (dget String.eqb a n) as [v|] eqn:Q; [|discriminate].
    apply N. destruct (items_get (fun _ => convert_value) args a C) as [K _]. rewrite <- K. apply (dget_In _ String.eqb_spec) in Q. apply in_map_iff. exists (n, v). auto.
Qed.

(** ** Checks *)
Theorem C120_checks files args d : submit files args = Ok d ->
  (exists s, dget String.eqb d "execution" = Some (VText s) /\ In s ["no"; "interactive"; "batch"]) /\
  (exists v, dget String.eqb d "n_cores_per_job" = Some v /\ (v = VBool true \/ exists z, v = VInt z /\ (0 < z)%Z)) /\
  (forall k v, path_like k = true -> dget String.eqb d k = Some v -> v = VNone \/ exists p, v = VPath p) /\ dkeys args = dkeys d.
Proof.
  intros S. destruct (submit_parts files args d S) as (a & b & C & I & K & X).
  assert (Ka : dkeys b = dkeys a).
  { unfold apply_ini in I. destruct (opt a "ini_file") as [i|]; cbn [rbind] in I; [|discriminate]. destruct i; try discriminate; [injection I as <-; reflexivity|]. destruct (files s) as [secs|]; [|discriminate]. destruct (dget String.eqb secs "config") as [kv|]; [|discriminate]. destruct (forallb _ (dkeys kv)) eqn:F; [|discriminate]. injection I as <-.
    rewrite forallb_forall in F. clear -F. unfold dupdate. revert a F. induction kv as [|[n t] kv IH]; intros a F; [reflexivity|]. cbn [map fold_left fst snd].
    assert (E : dkeys (dset String.eqb a n (VText t)) = dkeys a).
    { rewrite (dkeys_dset _ String.eqb_spec). rewrite (F n (or_introl eq_refl)). reflexivity. }
    rewrite <- E. apply IH. intros x Hx. specialize (F x (or_intror Hx)). unfold dmem in *. destruct (String.eqb_spec n x) as [->|Nx]; [rewrite (dget_dset_same _ String.eqb_spec); reflexivity|rewrite (dget_dset_other _ String.eqb_spec) by congruence; exact F]. }
  unfold check_options, opt in K. pose proof (cast_get b d "execution" X) as G1. pose proof (cast_get b d "n_cores_per_job" X) as G2.
  destruct (dget String.eqb b "execution") as [e|] eqn:E; cbn [rbind] in K; [|discriminate]. destruct G1 as (e' & Q1 & G1). change (path_like "execution") with false in Q1. injection Q1 as <-.
  destruct (match e with VText _ => _ | _ => _ end) eqn:M; [|discriminate]. destruct (dget String.eqb b "n_cores_per_job") as [n|] eqn:En; cbn [rbind] in K; [|discriminate]. destruct G2 as (n' & Q2 & G2). change (path_like "n_cores_per_job") with false in Q2. injection Q2 as <-.
  split; [destruct e; try discriminate; exists s; split; [exact G1|apply smem_In; exact M]|]. split; [|split].
  - exists n. split; [exact G2|]. destruct n; try discriminate; [destruct b0; [left; reflexivity|discriminate]|]. right. exists z. split; [reflexivity|]. destruct (Z.leb_spec z 0); [discriminate|assumption].
  - intros k v P G. pose proof (cast_get b d k X) as Q. rewrite P in Q. destruct (dget String.eqb b k) as [u|]; [|congruence]. destruct Q as (v' & Q & G'). assert (v' = v) by congruence. subst v'. destruct u; cbn in Q; try discriminate; injection Q as <-; eauto.
  - rewrite (proj1 (items_get (fun n v => if path_like n then to_path_value v else Ok v) b d X)), Ka. symmetry. apply (items_get (fun _ => convert_value) args a C).
Qed.
Theorem C120_refused files args a : no_ini args -> convert args = Ok a ->
  (forall s, dget String.eqb args "execution" = Some (VText s) -> ~ In s ["no"; "interactive"; "batch"] -> submit files args = Err EValueError) /\
  (forall s z, dget String.eqb args "execution" = Some (VText s) -> dget String.eqb args "n_cores_per_job" = Some (VInt z) -> (z <= 0)%Z -> submit files args = Err EValueError).
Proof.
  intros N C. unfold submit. rewrite C. cbn [rbind]. rewrite (no_ini_eq files args a N C). cbn [rbind]. unfold check_options, opt. pose proof (convert_get args a "execution" C) as G1. pose proof (convert_get args a "n_cores_per_job" C) as G2. split.
  - intros s E Ns. rewrite E in G1. destruct G1 as (v & Q & G1). rewrite G1. cbn [rbind]. replace (match v with VText s => _ | _ => _ end) with false; [reflexivity|]. symmetry. destruct v; try reflexivity. apply not_true_is_false. intros M. apply smem_In in M. apply Ns.
    cbn [convert_value] in Q. destruct (bool_text s); [destruct (str_to_bool s); discriminate|]. destruct (int_text s); [discriminate|]. injection Q as ->. exact M.
  - intros s z E E2 Hz. rewrite E in G1. destruct G1 as (v & _ & G1). rewrite G1. cbn [rbind]. rewrite E2 in G2. destruct G2 as (n & Q & G2). injection Q as <-. rewrite G2. cbn [rbind]. destruct (match v with VText _ => _ | _ => _ end); [|reflexivity]. destruct (Z.leb_spec z 0); [reflexivity|lia].
Qed.
(** A path of digits, or true or false, is no path. *)
Theorem C120_number_as_path_refuted files args k w d : no_ini args -> path_like k = true -> dget String.eqb args k = Some (VText w) -> digits w -> submit files args <> Ok d.
Proof.
  intros N P G D S. destruct (submit_parts files args d S) as (a & b & C & I & _ & X). rewrite (no_ini_eq files args a N C) in I. injection I as <-. pose proof (convert_get args a k C) as Q. rewrite G in Q. destruct Q as (v & E & Q). rewrite (proj1 (proj2 (int_value w D))) in E. injection E as <-.
  pose proof (cast_get a d k X) as Y. rewrite Q, P in Y. destruct Y as (v & Y & _). discriminate.
Qed.

(** ** The identifier *)
Theorem C120_run_id files args d version cid s : no_ini args -> submit files args = Ok d -> dget String.eqb args "run_id" = Some (VText s) ->
  (word s -> run_id version cid d = Ok (s ++ "_" ++ version)%string) /\ (forall n, s = dec n -> run_id version cid d = Ok (s ++ "_" ++ version)%string) /\
  (digits s -> run_id version cid d = Ok (dec (num (chars s)) ++ "_" ++ version)%string).
Proof.
  intros N S G. pose proof (plain_get files args d "run_id" N S eq_refl) as Q. rewrite G in Q. destruct Q as (v & E & Q). unfold run_id, opt. rewrite Q. cbn [rbind].
  assert (Dg : digits s -> run_id version cid d = Ok (dec (num (chars s)) ++ "_" ++ version)%string).
  { intros D. rewrite (proj1 (proj2 (int_value s D))) in E. injection E as <-. unfold run_id, opt. rewrite Q. cbn [rbind shown]. destruct (Z.ltb_spec (Z.of_nat (num (chars s))) 0); [lia|]. rewrite Z.abs_eq, Nat2Z.id by lia. reflexivity. }
  unfold run_id, opt in Dg. rewrite Q in Dg. cbn [rbind] in Dg. split; [|split; [|exact Dg]].
  - intros W. rewrite (word_value s W) in E. injection E as <-. reflexivity.
  - intros n ->. rewrite Dg; [rewrite num_dec; reflexivity|]. destruct (dec_digits n). split; assumption.
Qed.
Theorem C120_no_run_id files args d version cid : no_ini args -> submit files args = Ok d -> dget String.eqb args "run_id" = Some VNone ->
  run_id version cid d = Ok (match cid with Some c => c ++ "_" ++ version | None => "run_seyfert_" ++ version end)%string.
Proof. intros N S G. pose proof (plain_get files args d "run_id" N S eq_refl) as Q. rewrite G in Q. destruct Q as (v & E & Q). injection E as <-. unfold run_id, opt. rewrite Q. reflexivity. Qed.
(** Zeros in front are lost: 007 and 7 give the same run directory. *)
Theorem C120_zeros_refuted files args args' d d' version cid s : no_ini args -> no_ini args' -> submit files args = Ok d -> submit files args' = Ok d' -> digits s ->
  dget String.eqb args "run_id" = Some (VText s) -> dget String.eqb args' "run_id" = Some (VText (String "0" s)) -> run_id version cid d = run_id version cid d'.
Proof.
  intros N N' S S' D G G'. rewrite (proj2 (proj2 (C120_run_id files args d version cid s N S G)) D). rewrite (proj2 (proj2 (C120_run_id files args' d' version cid _ N' S' G'))); [reflexivity|]. destruct D as [_ A]. split; [discriminate|exact A].
Qed.

(** ** Cleaning the directory Angular *)
Lemma cl_dirs_keys D m : cl_dirs D = Ok m -> NoDup (dkeys m).
Proof.
  unfold cl_dirs. generalize (filter (starts "dvar_") (map fst D)) as ds.
  assert (H : forall ds m0, (forall m1, m0 = Ok m1 -> NoDup (dkeys m1)) -> forall m, fold_left (fun acc d => m <- acc ;; ds <- parse_jobdir d ;; Ok (if String.eqb (fst ds) "central" then m else dset sz_eqb m ds d)) ds m0 = Ok m -> NoDup (dkeys m)).
  { clear. induction ds as [|d ds IH]; intros m0 H m E; cbn [fold_left] in E; [exact (H m E)|]. refine (IH _ _ m E). intros m1 E1. destruct m0 as [m0|]; cbn [rbind] in E1; [|discriminate]. destruct (parse_jobdir d) as [x|]; cbn [rbind] in E1; [|discriminate]. injection E1 as <-. destruct (String.eqb (fst x) "central"); [exact (H m0 eq_refl)|]. apply (NoDup_dset _ sz_spec). exact (H m0 eq_refl). }
  intros ds E. refine (H ds (Ok []) _ m E). intros m1 Q. injection Q as <-. constructor.
Qed.
Lemma rm_fold (m : dict (string * Z) string) : forall D : entries, NoDup (map snd m) -> NoDup (map fst D) -> (forall n, In n (map snd m) -> exists l, In (n, Some l) D) ->
  exists D', fold_left (fun acc kv => E <- acc ;; rmtree E (snd kv)) m (Ok D) = Ok D' /\ forall e, In e D' <-> In e D /\ ~ In (fst e) (map snd m).
Proof.
  induction m as [|[k n] m IH]; intros D N ND H; [exists D; split; [reflexivity|]; cbn; tauto|]. cbn [map snd] in *. cbn [fold_left rbind]. inversion N as [|? ? N1 N2]; subst.
  destruct (H n (or_introl eq_refl)) as (l & Hl). unfold rmtree at 2. cbn [snd]. rewrite (dget_NoDup_In _ String.eqb_spec D n (Some l) ND Hl).
  destruct (IH (filter (fun e => negb (String.eqb (fst e) n)) D) N2) as (D' & E & HD).
  - clear -ND. induction D as [|e D IH]; cbn; [constructor|]. inversion ND as [|? ? A B]; subst. destruct (negb (String.eqb (fst e) n)); cbn; [|apply IH; exact B]. constructor; [|apply IH; exact B]. intros X. apply A. apply in_map_iff in X. destruct X as (y & <- & Y). apply filter_In in Y. apply in_map. apply Y.
  - intros x Hx. destruct (H x (or_intror Hx)) as (l' & Hl'). exists l'. apply filter_In. split; [exact Hl'|]. cbn. destruct (String.eqb_spec x n) as [->|]; [contradiction|reflexivity].
  - exists D'. split; [exact E|]. intros e. rewrite HD, filter_In. cbn [In]. split.
    + intros [[A B] C]. split; [exact A|]. intros [X|X]; [|contradiction]. rewrite X, String.eqb_refl in B. discriminate.
    + intros [A B]. split; [split; [exact A|]|tauto]. destruct (String.eqb_spec (fst e) n) as [X|]; [|reflexivity]. exfalso. apply B. left. symmetry. exact X.
Qed.
(** The entries of Angular are those written by the stage: every name beginning with
    dvar_ is the directory of a variation of at most nine steps. *)
Definition variations_only (D : entries) : Prop :=
  NoDup (map fst D) /\ forall d o, In (d, o) D -> (exists r, d = ("dvar_" ++ r)%string) -> (exists l, o = Some l) /\ exists v s, alnum v /\ (Z.abs s <= 9)%Z /\ d = jobdir_name v s.
Theorem C120_cleanup d D a k : variations_only D -> dget String.eqb d "angular" = Some a -> dget String.eqb d "keep_cl_variations" = Some k ->
  exists D', cleanup d D = Ok D' /\
    (truthy a = false \/ truthy k = true -> D' = D) /\
    (truthy a = true -> truthy k = false -> forall e, In e D' <-> In e D /\ ~ exists v s, alnum v /\ v <> "central" /\ (Z.abs s <= 9)%Z /\ fst e = jobdir_name v s).
Proof.
  intros [ND W] A K. unfold cleanup, opt. rewrite A. cbn [rbind]. destruct (truthy a); cbn [negb]; [|exists D; split; [reflexivity|]; split; [reflexivity|discriminate]]. rewrite K. cbn [rbind]. destruct (truthy k); [exists D; split; [reflexivity|]; split; [reflexivity|discriminate]|].
  destruct (C92_directories D) as (m & E & G). { intros n o I R. apply (W n o I R). } rewrite E. cbn [rbind]. pose proof (cl_dirs_keys D m E) as NK.
  assert (V : forall p, In p m -> alnum (fst (fst p)) /\ fst (fst p) <> "central" /\ (Z.abs (snd (fst p)) <= 9)%Z /\ snd p = jobdir_name (fst (fst p)) (snd (fst p)) /\ exists o, In (snd p, o) D).
  { intros [[v s] n] I. apply G. apply (dget_NoDup_In _ sz_spec); assumption. }
  assert (NS : NoDup (map snd m)).
  { clear -NK V. induction m as [|p m IH]; cbn; constructor; inversion NK as [|? ? N1 N2]; subst.
    - intros X. apply in_map_iff in X. destruct X as (q & Eq & Q). destruct (V p (or_introl eq_refl)) as (A1 & _ & S1 & E1 & _). destruct (V q (or_intror Q)) as (A2 & _ & S2 & E2 & _). rewrite E1, E2 in Eq. apply jobdir_inj in Eq; try assumption; try lia. apply N1. apply in_map_iff. exists q. split; [|exact Q]. destruct p as [[? ?] ?], q as [[? ?] ?]. cbn in *. destruct Eq; congruence.
    - apply IH; [exact N2|]. intros q Q. apply V. right. exact Q. }
  destruct (rm_fold m D NS ND) as (D' & F & HD).
  { intros n Hn. apply in_map_iff in Hn. destruct Hn as (p & <- & P). destruct (V p P) as (_ & _ & _ & Ep & o & Ho). destruct (W (snd p) o Ho) as [(l & ->) _]; [rewrite Ep; unfold jobdir_name; eexists; reflexivity|]. exists l. exact Ho. }
  exists D'. split; [exact F|]. split; [intros [X|X]; discriminate|]. intros _ _ e. rewrite HD. split; intros [I N]; (split; [exact I|]).
  - intros (v & s & Hv & Nc & Hs & Ee). apply N. assert (X : dget sz_eqb m (v, s) = Some (fst e)) by (apply G; split; [exact Hv|]; split; [exact Nc|]; split; [exact Hs|]; split; [exact Ee|]; exists (snd e); destruct e; exact I). apply (dget_In _ sz_spec) in X. apply in_map_iff. exists ((v, s), fst e). auto.
  - intros X. apply in_map_iff in X. destruct X as (p & Ep & P). apply N. destruct (V p P) as (A1 & A2 & A3 & A4 & _). exists (fst (fst p)), (snd (fst p)). rewrite <- Ep. auto.
Qed.
(** The same happens when nothing was executed: with execution no the spectra of an
    earlier run are removed. *)
Theorem C120_cleanup_not_executed_refuted files args d D v s l : no_ini args -> submit files args = Ok d -> dget String.eqb args "execution" = Some (VText "no") ->
  dget String.eqb args "angular" = Some (VBool true) -> dget String.eqb args "keep_cl_variations" = Some (VBool false) ->
  variations_only D -> In (jobdir_name v s, Some l) D -> alnum v -> v <> "central" -> (Z.abs s <= 9)%Z ->
  dget String.eqb d "execution" = Some (VText "no") /\ exists D', cleanup d D = Ok D' /\ ~ In (jobdir_name v s, Some l) D'.
Proof.
  intros N S X A K W I Hv Nc Hs. pose proof (plain_get files args d "execution" N S eq_refl) as Gx. rewrite X in Gx. destruct Gx as (x & Ex & Gx). injection Ex as <-.
  pose proof (plain_get files args d "angular" N S eq_refl) as Ga. rewrite A in Ga. destruct Ga as (a & Ea & Ga). injection Ea as <-. pose proof (plain_get files args d "keep_cl_variations" N S eq_refl) as Gk. rewrite K in Gk. destruct Gk as (k & Ek & Gk). injection Ek as <-.
  split; [exact Gx|]. destruct (C120_cleanup d D _ _ W Ga Gk) as (D' & E & _ & H). exists D'. split; [exact E|]. intros Q. apply (H eq_refl eq_refl) in Q. destruct Q as [_ Q]. apply Q. exists v, s. auto.
Qed.
(** Beyond nine steps some of them stay. *)
Definition twelve : entries := [("dvar_h_step_p_10", Some []); ("dvar_h_step_p_12", Some [])].
Theorem C120_cleanup_steps_refuted d k : dget String.eqb d "angular" = Some (VBool true) -> dget String.eqb d "keep_cl_variations" = Some k -> truthy k = false ->
  cleanup d twelve = Ok [("dvar_h_step_p_10", Some [])].
Proof. intros A K T. unfold cleanup, opt. rewrite A. cbn [rbind truthy negb]. rewrite K. cbn [rbind]. rewrite T. vm_compute. reflexivity. Qed.

(** ** An instance *)
Definition exArgs (run : value) (angular execution : string) (ini : value) : options :=
  [("run_id", run); ("rundir", VNone); ("forecast_config", VText "config.json"); ("ini_file", ini); ("execution", VText execution); ("n_cores_per_job", VInt 4);
   ("powerspectrum", VBool false); ("angular", VText angular); ("derivative", VText "True"); ("fisher", VText "0"); ("keep_cl_variations", VBool false)].
Definition exIni : string -> option (dict string (dict string string)) :=
  fun p => if String.eqb p "run.ini" then Some [("config", [("angular", "False"); ("execution", "batch"); ("forecast_config", "12")])] else if String.eqb p "cores.ini" then Some [("config", [("n_cores_per_job", "4")])] else None.
Example C120_instance :
  (exists d, submit exIni (exArgs (VText "007") "no" "interactive" VNone) = Ok d /\ dget String.eqb d "forecast_config" = Some (VPath "config.json") /\
     tasks d = Ok [("PowerSpectrum", false); ("Angular", true); ("Derivative", true); ("Fisher", false)] /\ run_id "1.0" None d = Ok "7_1.0") /\
  (exists d, submit exIni (exArgs (VText "optimistic") "false" "no" (VPath "run.ini")) = Ok d /\ dget String.eqb d "execution" = Some (VText "batch") /\ dget String.eqb d "forecast_config" = Some (VPath "12") /\
     tasks d = Ok [("PowerSpectrum", false); ("Angular", true); ("Derivative", true); ("Fisher", false)] /\ run_id "1.0" (Some "c") d = Ok "optimistic_1.0" /\
     cleanup d [("dvar_central_step_p_0", Some []); ("dvar_h_step_p_1", Some []); ("log", None)] = Ok [("dvar_central_step_p_0", Some []); ("log", None)]) /\
  submit exIni (exArgs VNone "False" "no" (VPath "cores.ini")) = Err ETypeError /\
  submit exIni (exArgs VNone "False" "yes" VNone) = Err EValueError /\
  submit exIni (exArgs VNone "False" "no" (VPath "absent.ini")) = Err EFileNotFound.
Proof. split; [|split]; [eexists; split; [vm_compute; reflexivity|]; vm_compute; repeat split; reflexivity|eexists; split; [vm_compute; reflexivity|]; vm_compute; repeat split; reflexivity|]. vm_compute. repeat split; reflexivity. Qed.
Example C120_word_instance : word "no" /\ word "FALSE" /\ word "optimistic" /\ digits "007" /\ zeros "00".
Proof.
  assert (W : forall s, s <> "" -> smem s ["True"; "true"; "False"; "false"] = false -> all_chars is_digit s = false -> (match String.get (String.length s - 1) s with Some c => Ascii.eqb c (ascii_of_nat 10) | None => false end) = false -> word s).
  { intros s N B D L. split; [intros X; apply smem_In in X; congruence|]. split; [intros [_ X]; congruence|]. intros (r & ->). clear N B D. exfalso. assert (E : String.get (String.length (r ++ newline) - 1) (r ++ newline) = Some (ascii_of_nat 10)).
    { clear. induction r as [|c r IH]; [reflexivity|]. cbn [append String.length]. replace (S (String.length (r ++ newline)) - 1) with (S (String.length (r ++ newline) - 1)) by (assert (1 <= String.length (r ++ newline)) by (clear; induction r; cbn; lia); lia). exact IH. }
    rewrite E in L. rewrite Ascii.eqb_refl in L. discriminate. }
  repeat split; try (apply W; [discriminate|reflexivity|reflexivity|reflexivity]); try discriminate; try reflexivity. exists "00". repeat split; [discriminate|left; reflexivity].
Qed.

Print Assumptions C120_flags.
Print Assumptions C120_word_refuted.
Print Assumptions C120_ini.
Print Assumptions C120_ini_false_refuted.
Print Assumptions C120_ini_cores_refuted.
Print Assumptions C120_ini_errors.
Print Assumptions C120_checks.
Print Assumptions C120_refused.
Print Assumptions C120_number_as_path_refuted.
Print Assumptions C120_run_id.
Print Assumptions C120_no_run_id.
Print Assumptions C120_zeros_refuted.
Print Assumptions C120_cleanup.
Print Assumptions C120_cleanup_not_executed_refuted.
Print Assumptions C120_cleanup_steps_refuted.
