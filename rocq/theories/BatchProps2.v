(** The identifiers of the runs of a batch (C64). *)
From Verif Require Import Base SortLib StrLib NameModel NameLemmas FsModel IniModel BatchModel BatchProps.
Open Scope list_scope.
Open Scope string_scope.

(** A file name without its last extension; a name that has none (no dot, a dot
    only in front or only at the end) is kept. *)
Definition extension_of (name s e : string) : Prop := name = s ++ "." ++ e /\ has "." e = false /\ s <> "" /\ e <> "".
Definition is_stem (name s : string) : Prop :=
  (exists e, extension_of name s e) \/ (s = name /\ forall s' e, ~ extension_of name s' e).

Lemma join_snoc l (x : string) : l <> [] -> join "." (l ++ [x])%list = join "." l ++ "." ++ x.
Proof.
  unfold join. induction l as [|a l IH]; intros N; [congruence|]. destruct l as [|b l]; [reflexivity|].
  change ((a :: b :: l) ++ [x])%list with (a :: (b :: l) ++ [x])%list.
  change (String.concat "." (a :: (b :: l) ++ [x])%list) with (a ++ ("." ++ String.concat "." ((b :: l) ++ [x])%list)).
  rewrite IH by discriminate. change (String.concat "." (a :: b :: l)) with (a ++ ("." ++ String.concat "." (b :: l))).
  rewrite !sapp_assoc. reflexivity.
Qed.
Lemma split_snoc s e : has "." e = false -> split_char "." (s ++ "." ++ e) = (split_char "." s ++ [e])%list.
Proof.
  intros H. transitivity (split_char "." (join "." (split_char "." s ++ [e])%list)).
  - rewrite join_snoc by apply split_nonempty. change "." with (cstr "."). rewrite join_split. reflexivity.
  - change "." with (cstr ".") at 1. apply split_join; [destruct (split_char "." s); discriminate|].
    intros x I. apply in_app_or in I as [I|[<-|[]]]; [exact (split_parts _ _ _ I)|exact H].
Qed.
Lemma nonempty_iff s : nonempty s = true <-> s <> "".
Proof. destruct s; cbn; split; congruence. Qed.

(** pathlib's stem of the model is the stem as described. *)
Lemma stem_spec p : is_stem (path_name p) (stem p).
Proof.
  unfold stem. set (n := path_name p). destruct (split_char "." n) as [|x [|y l]] eqn:E.
  - exfalso. exact (split_nonempty _ _ E).
  - right. split; [reflexivity|]. intros s e (En & He & _ & _). rewrite En, split_snoc in E by exact He.
    destruct (split_char "." s) as [|q qs] eqn:Q; [exact (split_nonempty _ _ Q)|]. destruct qs; discriminate.
  - assert (N : x :: y :: l <> []) by discriminate. pose proof (app_removelast_last "" N) as L.
    assert (R : removelast (x :: y :: l) <> []) by discriminate.
    assert (J : n = join "." (removelast (x :: y :: l)) ++ "." ++ last (x :: y :: l) "").
    { rewrite <- join_snoc by exact R. rewrite <- L, <- E. change "." with (cstr "."). rewrite join_split. reflexivity. }
    destruct (nonempty (last (x :: y :: l) "") && nonempty (join "." (removelast (x :: y :: l)))) eqn:T.
    + apply andb_true_iff in T as [T1 T2]. apply nonempty_iff in T1, T2. left. exists (last (x :: y :: l) "").
      split; [exact J|]. split; [|split; assumption]. apply (split_parts "." n). rewrite E. rewrite L. apply in_or_app. right. left. rewrite <- L. reflexivity.
    + right. split; [reflexivity|]. intros s e (En & He & Hs & Hne). rewrite En, split_snoc in E by exact He.
      rewrite <- E, last_last, removelast_last in T. change "." with (cstr ".") in T. rewrite join_split in T.
      apply nonempty_iff in Hs, Hne. rewrite Hs, Hne in T. discriminate.
Qed.

Section Names.
  Variable input_dir : string.
  Variable a : batch_args.
  Variable c : batch_cfg.
  Variable pmms : list (option path).
  Notation all := (combos (sort_configs (b_fcfg c)) (b_fish c) (b_cl c) pmms).
  Notation several l := (1 < length l)%nat.
  (** The part of a text that names a run: without a version and a date at its end. *)
  Definition run_name (s base : string) : Prop := exists r, split_run_id s = Ok (base, r).
  (** The identifier of a combination: the name of the forecast configuration, the
      names of the other two if there are several, the name of the run the power
      spectrum is from. *)
  Definition identifier_of (x : path * path * path * option path) (id : string) : Prop :=
    let '(f, g, l, p) := x in
    exists sf base sg sl, is_stem (path_name f) sf /\ run_name sf base /\ is_stem (path_name g) sg /\ is_stem (path_name l) sl /\
      exists ig il ip, (several (b_fish c) /\ ig = "_" ++ sg \/ ~ several (b_fish c) /\ ig = "") /\
        (several (b_cl c) /\ il = "_" ++ sl \/ ~ several (b_cl c) /\ il = "") /\
        match p with
        | None => ip = ""
        | Some p => exists b, run_name (source_name p) b /\ ip = "_" ++ b
        end /\ id = base ++ ig ++ il ++ ip.

  Lemma new_run_named x : names_ok c pmms -> In x all -> forall d, command_of a x d ->
    exists id d', new_run input_dir (1 <? length (b_fish c))%nat (1 <? length (b_cl c))%nat d = Ok (id, d') /\
      command_of a x d' /\ dget String.eqb d' "id" = Some id /\ dget String.eqb d' "i" = Some input_dir /\ identifier_of x id.
  Proof.
    intros (N1 & N2 & N3 & N4) Hx d Hd. destruct x as [[[f g] l] p]. apply combos_In in Hx as (Hf & Hg & Hl & Hp).
    apply sort_In in Hf. destruct (N1 f Hf) as (Wf & [base r] & Ef).
    pose proof Hd as (H1 & H2 & H3 & H4 & H5). unfold new_run. rewrite H1, H2, H3, H4. cbn [rbind]. rewrite to_path_text by exact Wf. rewrite Ef. cbn [rbind fst].
    rewrite !to_path_text by auto.
    assert (C : forall id, command_of a (f, g, l, p) (sset (sset d "id" id) "i" input_dir)).
    { intros id. unfold command_of. repeat (rewrite sset_other by reflexivity). exact Hd. }
    set (ig := if (1 <? length (b_fish c))%nat then "_" ++ stem g else "").
    set (il := if (1 <? length (b_cl c))%nat then "_" ++ stem l else "").
    assert (E1 : (if (1 <? length (b_fish c))%nat then Ok (base ++ "_" ++ stem g) else Ok base) = Ok (base ++ ig)).
    { unfold ig. destruct (1 <? length (b_fish c))%nat; [reflexivity|]. rewrite sapp_nil_r. reflexivity. }
    rewrite E1. cbn [rbind].
    assert (E2 : (if (1 <? length (b_cl c))%nat then Ok ((base ++ ig) ++ "_" ++ stem l) else Ok (base ++ ig)) = Ok (base ++ ig ++ il)).
    { unfold il. clear. destruct (1 <? length (b_cl c))%nat; rewrite ?sapp_nil_r, ?sapp_assoc; reflexivity. }
    rewrite E2. cbn [rbind].
    assert (S : exists id, (match option_map path_text p with
        | None => Ok (base ++ ig ++ il)
        | Some t => pid <- split_run_id (if String.eqb (path_name (to_path t)) "PowerSpectrum" then path_name (path_parent (to_path t)) else path_name (to_path t)) ;;
                    Ok ((base ++ ig ++ il) ++ "_" ++ fst pid) end) = Ok id /\ identifier_of (f, g, l, p) id).
    { assert (I : forall ip, match p with None => ip = "" | Some p => exists b, run_name (source_name p) b /\ ip = "_" ++ b end -> identifier_of (f, g, l, p) (base ++ ig ++ il ++ ip)).
      { intros ip Hip. exists (stem f), base, (stem g), (stem l). split; [apply stem_spec|]. split; [exists r; exact Ef|]. split; [apply stem_spec|]. split; [apply stem_spec|].
        exists ig, il, ip. unfold ig, il. split; [destruct (Nat.ltb_spec 1 (length (b_fish c))); [left|right]; split; try reflexivity; lia|].
        split; [destruct (Nat.ltb_spec 1 (length (b_cl c))); [left|right]; split; try reflexivity; lia|]. split; [exact Hip|reflexivity]. }
      destruct p as [p|]; cbn [option_map].
      - destruct (N2 p Hp) as (Wp & [b rp] & Ep). rewrite to_path_text by exact Wp. unfold source_name in Ep. rewrite Ep. cbn [rbind fst]. eexists. split; [reflexivity|].
        rewrite !sapp_assoc. apply I. exists b. split; [exists rp; exact Ep|reflexivity].
      - eexists. split; [reflexivity|]. specialize (I "" eq_refl). rewrite sapp_nil_r in I. exact I. }
    destruct S as (id & -> & I). cbn [rbind]. eexists _, _. split; [reflexivity|]. split; [apply C|].
    split; [rewrite sset_other by reflexivity; apply sset_same|]. split; [apply sset_same|exact I].
  Qed.

  (** Each command of a batch and each identifier it returns carry the names of the
      files of the combination, in order, and the input directory. *)
  Theorem C64_identifiers : b_fcfg c <> [] -> b_fish c <> [] -> b_cl c <> [] -> pmms <> [] -> a_ex a <> "no" -> names_ok c pmms ->
    (forall k, In k ["fcfg"; "fish_cfg"; "cl_cfg"; "pmm_dir"; "ex"] -> ~ overridden c k) ->
    exists ds ids, run_batch input_dir a c pmms = ((ds, ids), Ok tt) /\ Forall2 identifier_of all ids /\
      Forall2 (fun d id => dget String.eqb d "id" = Some id /\ dget String.eqb d "i" = Some input_dir) ds ids.
  Proof.
    intros H1 H2 H3 H4 E N O. rewrite batch_flat by auto.
    assert (G : forall l st, (forall x, In x l -> In x all) -> exists ds ids,
      for_each (fun x => let '(f, g, l, p) := x in launch input_dir (1 <? length (b_fish c))%nat (1 <? length (b_cl c))%nat (keyvals c a f g l p)) l st = ((fst st ++ ds, snd st ++ ids)%list, Ok tt) /\
      Forall2 identifier_of l ids /\ Forall2 (fun d id => dget String.eqb d "id" = Some id /\ dget String.eqb d "i" = Some input_dir) ds ids).
    { induction l as [|x l IH]; intros st H.
      - exists [], []. cbn. rewrite !app_nil_r. destruct st. auto.
      - cbn [for_each]. destruct x as [[[f g] cl] p].
        destruct (new_run_named (f, g, cl, p) N (H _ (or_introl eq_refl)) (keyvals c a f g cl p)) as (id & d' & R & C & Ci & Cd & I); [apply keyvals_spec, O|].
        unfold launch at 1. rewrite R. pose proof C as (_ & _ & _ & _ & C5). rewrite C5.
        destruct (String.eqb_spec (a_ex a) "no") as [|_]; [contradiction|].
        destruct (IH (fst st ++ [d'], snd st ++ [id])%list) as (ds & ids & R' & F1 & F2); [intros y Hy; apply H; right; exact Hy|].
        rewrite R'. cbn [fst snd]. exists (d' :: ds), (id :: ids). rewrite <- !app_assoc. cbn. split; [reflexivity|]. split; constructor; auto. }
    destruct (G all ([], [])) as (ds & ids & R & F1 & F2); [auto|]. exists ds, ids. auto.
  Qed.
End Names.

(** One name, one stem. *)
Theorem C64_stem name s s' : is_stem name s -> is_stem name s' -> s = s'.
Proof.
  assert (U : forall a b e e', has "." e = false -> has "." e' = false -> a ++ "." ++ e = b ++ "." ++ e' -> a = b).
  { intros x b e e' He He' Q. apply (f_equal (split_char ".")) in Q. rewrite !split_snoc in Q by assumption. apply app_inj_tail in Q as [Q _].
    rewrite <- (join_split "." x), <- (join_split "." b), Q. reflexivity. }
  intros [(e & E1 & E2 & E3 & E4)|[-> N]] [(e' & E1' & E2' & E3' & E4')|[-> N']].
  - apply (U _ _ e e'); congruence.
  - exfalso. apply (N' s e). repeat split; assumption.
  - exfalso. apply (N s' e'). repeat split; assumption.
  - reflexivity.
Qed.
Example C64_stem_instance : is_stem "opt_4.1_sp_bins.json" "opt_4.1_sp_bins" /\ is_stem ".hidden" ".hidden" /\ is_stem "plain" "plain" /\ is_stem "dot." "dot." /\
  snd (fst (run_batch "/i" (w_args "batch") {| b_fcfg := [["w"; "a.b.json"]]; b_fish := [["w"; "f.1.json"]; ["w"; "f.2.json"]]; b_cl := [["w"; "c.json"]];
     b_pmm_cfg := "/w/p.json"; b_der_cfg := "/w/d.json"; b_res_cfg := "/w/r.json"; b_ext := [] |} w_pmms)) = ["a.b_f.1_fid"; "a.b_f.1_fid"; "a.b_f.2_fid"; "a.b_f.2_fid"].
Proof.
  split; [exact (stem_spec ["opt_4.1_sp_bins.json"])|]. split; [exact (stem_spec [".hidden"])|]. split; [exact (stem_spec ["plain"])|]. split; [exact (stem_spec ["dot."])|].
  vm_compute. reflexivity.
Qed.

(** ** The text of a command *)
(** What a shell makes of a text without quotes: its words. *)
Definition words (s : string) : list string := filter nonempty (split_char " " s).
Lemma split_both c a b : split_char c (a ++ String c b) = (split_char c a ++ split_char c b)%list.
Proof.
  induction a as [|x a IH]; cbn [split_char append]; [rewrite Ascii.eqb_refl; reflexivity|]. rewrite IH. destruct (Ascii.eqb x c); [reflexivity|].
  destruct (split_char c a) as [|q qs] eqn:E; [destruct (split_nonempty c a E)|reflexivity].
Qed.
Lemma words_app a b : words (a ++ " " ++ b) = (words a ++ words b)%list.
Proof. unfold words. change (" " ++ b) with (String " " b). rewrite split_both, filter_app. reflexivity. Qed.
Lemma words_join l : words (join " " l) = flat_map words l.
Proof.
  induction l as [|a l IH]; [reflexivity|]. destruct l as [|b l]; [cbn; rewrite app_nil_r; reflexivity|]. change (join " " (a :: b :: l)) with (a ++ " " ++ join " " (b :: l)). rewrite words_app, IH. reflexivity.
Qed.
Definition a_word (s : string) : Prop := s <> "" /\ has " " s = false.
Lemma words_one s : a_word s -> words s = [s].
Proof. intros [N H]. unfold words. rewrite split_none by exact H. cbn. rewrite (proj2 (nonempty_iff s) N). reflexivity. Qed.
Lemma dashed s : has " " s = false -> a_word ("-" ++ s) /\ a_word ("--" ++ s).
Proof. intros H. repeat split; try discriminate; cbn; exact H. Qed.
(** The command: the requested tasks, the options with their values, the flags. *)
Theorem C64_command a d : (forall k v, In (k, v) d -> has " " k = false /\ a_word v) -> (forall f, In f (a_flags a) -> has " " f = false) ->
  words (build_cmd a d) = ("job_submitter" :: (if a_angular a then ["--angular"] else []) ++ (if a_derivative a then ["--derivative"] else []) ++ (if a_fisher a then ["--fisher"] else []) ++
    flat_map (fun kv => ["-" ++ fst kv; snd kv]%string) d ++ map (fun f => "--" ++ f)%string (a_flags a))%list.
Proof.
  intros Hd Hf. unfold build_cmd. change ("job_submitter " ++ ?x) with ("job_submitter" ++ " " ++ x). rewrite !words_app, !words_join. rewrite (words_one "job_submitter") by (split; [discriminate|reflexivity]).
  assert (E1 : flat_map words (map (fun kx : string * string => "-" ++ fst kx ++ " " ++ snd kx) d) = flat_map (fun kv => ["-" ++ fst kv; snd kv]) d).
  { induction d as [|[k v] d IH]; [reflexivity|]. cbn [map flat_map fst snd]. rewrite IH by (intros; apply Hd; right; assumption). destruct (Hd k v (or_introl eq_refl)) as [Hk Hv].
    rewrite <- sapp_assoc, words_app, (words_one ("-" ++ k)), (words_one v) by (try apply dashed; assumption). reflexivity. }
  assert (E2 : flat_map words (map (fun f => "--" ++ f) (a_flags a)) = map (fun f => "--" ++ f) (a_flags a)).
  { clear - Hf. induction (a_flags a) as [|f l IH]; [reflexivity|]. cbn [map flat_map]. rewrite IH by (intros; apply Hf; right; assumption). rewrite words_one by (apply dashed, Hf; left; reflexivity). reflexivity. }
  rewrite E1, E2. cbn [filter String.eqb Ascii.eqb Bool.eqb]. destruct (a_angular a), (a_derivative a), (a_fisher a); reflexivity.
Qed.

(** ** The options of the commands of a batch *)
Section Options.
  Variable input_dir : string.
  Variable a : batch_args.
  Variable c : batch_cfg.
  Variable pmms : list (option path).
  (** What the command line and the configuration directory say. *)
  Definition given : list (string * option string) :=
    [("ex", Some (a_ex a)); ("q", Some (a_queue a)); ("ncj", Some (a_cores a)); ("mem", Some (a_mem a)); ("ini", a_ini a);
     ("pmm_cfg", Some (b_pmm_cfg c)); ("der_cfg", Some (b_der_cfg c)); ("res_cfg", Some (b_res_cfg c))].
  Definition has_options (d : kv) : Prop :=
    (forall k v, In (k, v) given -> ~ overridden c k -> dget String.eqb d k = v) /\
    (forall k, overridden c k -> k <> "id" -> k <> "i" -> exists x, In (k, Some x) (b_ext c) /\ dget String.eqb d k = Some x) /\
    dget String.eqb d "i" = Some input_dir.
  Lemma ext_given k : forall d, overridden c k -> exists x, In (k, Some x) (b_ext c) /\
    dget String.eqb (fold_left (fun d kx => match snd kx with Some x => sset d (fst kx) x | None => d end) (b_ext c) d) k = Some x.
  Proof.
    unfold overridden. induction (b_ext c) as [|[k' o] l IH]; intros d (x & I); [destruct I|]. cbn [fold_left fst snd].
    destruct (existsb (fun kx => String.eqb (fst kx) k && match snd kx with Some _ => true | None => false end) l) eqn:E.
    - apply existsb_exists in E as ([k2 o2] & I2 & E). cbn in E. apply andb_true_iff in E as [E1 E2]. apply String.eqb_eq in E1. subst k2. destruct o2 as [y|]; [|discriminate].
      destruct (IH (match o with Some x => sset d k' x | None => d end)) as (z & Iz & Dz); [eauto|]. exists z. split; [right; exact Iz|exact Dz].
    - assert (N : ~ exists y, In (k, Some y) l).
      { intros (y & Iy). assert (X : existsb (fun kx => String.eqb (fst kx) k && match snd kx with Some _ => true | None => false end) l = true); [|congruence].
        apply existsb_exists. exists (k, Some y). split; [exact Iy|]. cbn. rewrite String.eqb_refl. reflexivity. }
      destruct I as [I|I]; [|destruct N; eauto]. injection I as -> ->. exists x. split; [left; reflexivity|].
      clear IH E. revert N. generalize (sset d k x), (sset_same d k x). induction l as [|[k2 o2] l IH]; intros d2 D2 N; [exact D2|]. cbn [fold_left fst snd]. apply IH; [|intros (y & Iy); apply N; exists y; right; exact Iy].
      destruct o2 as [y|]; [|exact D2]. unfold sset. rewrite (dget_dset_other _ String.eqb_spec); [exact D2|]. intros ->. apply N. exists y. left. reflexivity.
  Qed.
  Lemma new_run_options ub uc f g l p id d : new_run input_dir ub uc (keyvals c a f g l p) = Ok (id, d) -> has_options d.
  Proof.
    intros R. assert (E : d = sset (sset (keyvals c a f g l p) "id" id) "i" input_dir).
    { unfold new_run in R. repeat match type of R with (_ <- ?e ;; _) = _ => destruct e; [|discriminate]; cbn [rbind] in R end. injection R as <- <-. reflexivity. }
    subst d. split; [|split].
    - intros k v I NO. assert (X : dget String.eqb (keyvals c a f g l p) k = v).
      { unfold keyvals. rewrite ext_other by exact NO. unfold given in I. unfold cli_args. destruct p as [p|]; destruct (a_ini a) as [i|] eqn:Ei; cbn [In] in I;
          repeat (destruct I as [I|I]; [injection I as <- <-; repeat (rewrite sset_other by reflexivity); rewrite ?sset_same; reflexivity|]); destruct I. }
      rewrite <- X. assert (Y : String.eqb "i" k = false /\ String.eqb "id" k = false).
      { unfold given in I. cbn [In] in I. repeat (destruct I as [I|I]; [injection I as <- <-; split; reflexivity|]). destruct I. }
      rewrite !sset_other by apply Y. reflexivity.
    - intros k Ov N1 N2. destruct (ext_given k (sset (sset (sset (match p with Some p => sset (cli_args a [("fcfg", path_text f); ("cl_cfg", path_text l); ("fish_cfg", path_text g)]) "pmm_dir" (path_text p) | None => cli_args a [("fcfg", path_text f); ("cl_cfg", path_text l); ("fish_cfg", path_text g)] end) "pmm_cfg" (b_pmm_cfg c)) "der_cfg" (b_der_cfg c)) "res_cfg" (b_res_cfg c)) Ov) as (x & I & D).
      exists x. split; [exact I|]. rewrite !sset_other by (apply String.eqb_neq; congruence). exact D.
    - apply sset_same.
  Qed.
  Lemma for_each_all {A} (P : kv -> Prop) (body : A -> started -> started * res unit) : (forall x st, Forall P (fst st) -> Forall P (fst (fst (body x st)))) ->
    forall l st, Forall P (fst st) -> Forall P (fst (fst (for_each body l st))).
  Proof.
    intros B l. induction l as [|x l IH]; intros st H; [exact H|]. cbn [for_each]. pose proof (B x st H) as X. destruct (body x st) as [st' [u|e]]; [apply IH; exact X|exact X].
  Qed.
  (** All commands of a batch, whatever becomes of it. *)
  Theorem C64_options : Forall has_options (fst (fst (run_batch input_dir a c pmms))).
  Proof.
    unfold run_batch. repeat match goal with |- Forall _ (fst (fst (if ?b then _ else _))) => destruct b; [constructor|] end. cbv zeta.
    apply for_each_all; [|constructor]. intros f st Hst. apply for_each_all; [|exact Hst]. intros g st1 H1. apply for_each_all; [|exact H1]. intros l st2 H2. apply for_each_all; [|exact H2]. intros p st3 H3.
    unfold launch. destruct (new_run _ _ _ _) as [[id d]|e] eqn:R; [|exact H3]. destruct (dget String.eqb d "ex") as [x|]; [|exact H3]. cbn [fst]. destruct (String.eqb x "no"); [exact H3|].
    apply Forall_app. split; [exact H3|]. constructor; [|constructor]. exact (new_run_options _ _ _ _ _ _ _ _ R).
  Qed.
End Options.
Example C64_command_instance : let out := run_batch "/i" (w_args "batch") (w_cfg None) w_pmms in
  length (fst (fst out)) = 4 /\ (forall d, In d (fst (fst out)) -> forall k v, In (k, v) d -> has " " k = false /\ a_word v) /\ (forall f, In f (a_flags (w_args "batch")) -> has " " f = false) /\
  overridden (w_cfg (Some "/ext/PowerSpectrum")) "pmm_dir".
Proof.
  cbv zeta. split; [vm_compute; reflexivity|]. split; [|split].
  - assert (X : forallb (fun d => forallb (fun kx : string * string => negb (has " " (fst kx)) && nonempty (snd kx) && negb (has " " (snd kx))) d) (fst (fst (run_batch "/i" (w_args "batch") (w_cfg None) w_pmms))) = true) by (vm_compute; reflexivity).
    intros d Id k v I. rewrite forallb_forall in X. specialize (X d Id). rewrite forallb_forall in X. specialize (X _ I). cbn [fst snd] in X. apply andb_true_iff in X as [X X3]. apply andb_true_iff in X as [X1 X2].
    apply negb_true_iff in X1, X3. split; [exact X1|]. split; [apply nonempty_iff; exact X2|exact X3].
  - intros f [].
  - exists "/ext/PowerSpectrum". left. reflexivity.
Qed.

Print Assumptions C64_command. Print Assumptions C64_options.
Print Assumptions C64_identifiers. Print Assumptions C64_stem.
