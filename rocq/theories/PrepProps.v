(** Properties C93 (the run directory keeps the input files) and C94 (external
    directories are linked). *)
From Verif Require Import Base SortLib StrLib FrameModel FrameLemmas EvalModel FsModel FileLemmas2 LinkModel LinkLemmas PrepModel.
Open Scope string_scope.
Open Scope list_scope.

Section Prep.
  Context {T P : Type}.
  Notation content := (content T P).
  Notation lfs := (lfs content).
  Context (L : nat) (cwd : path).

  Lemma good_names : good "input_files_dir" /\ good "params.json" /\ good "input_files_dict.json" /\ good "delta_cls.h5".
  Proof. repeat split; discriminate. Qed.
  Lemma snoc2 (rd : path) a b : rd ++ [a; b] = (rd ++ [a]) ++ [b].
  Proof. rewrite <- app_assoc. reflexivity. Qed.
  Lemma snoc_neq {A} (l : list A) x : l ++ [x] <> [].
  Proof. destruct l; discriminate. Qed.
  Lemma last_In {A} (l : list A) d : l <> [] -> In (last l d) l.
  Proof.
    intros H. destruct (exists_last H) as (l' & x & ->). rewrite last_last. apply in_or_app. right. left. reflexivity.
  Qed.

  (** A run directory that is no link and whose input files, if any, are
      regular files. *)
  Definition ready (s : lfs) (rd : path) : Prop := names rd /\ real s rd /\
    (llookup s (rd ++ ["input_files_dir"]) = None \/ llookup s (rd ++ ["input_files_dir"]) = Some LDir) /\
    (forall x, llookup s (rd ++ ["input_files_dir"; x]) = None \/ exists c, llookup s (rd ++ ["input_files_dir"; x]) = Some (LFile c)) /\
    (llookup s (rd ++ ["input_files_dict.json"]) = None \/ exists c, llookup s (rd ++ ["input_files_dict.json"]) = Some (LFile c)).
  (** A source: a path without dots to an existing file that is not in the
      directory of input files. *)
  Definition source (s : lfs) (rd : path) (g : gpath) (c : content) : Prop := names (g_parts g) /\ g_parts g <> [] /\
    exists p, locate L cwd s g = Ok p /\ llookup s p = Some (LFile c) /\ forall x, p <> rd ++ ["input_files_dir"; x].

  (** Copying keeps everything outside the directory of input files. *)
  Lemma copy_all_ok rd : names rd -> forall files d s, real s (rd ++ ["input_files_dir"]) ->
    (forall x, llookup s (rd ++ ["input_files_dir"; x]) = None \/ exists c, llookup s (rd ++ ["input_files_dir"; x]) = Some (LFile c)) ->
    NoDup (map fst files) -> NoDup (map (fun f => g_name (snd f)) files) ->
    (forall n g, In (n, g) files -> exists c, source s rd g c) ->
    exists s' d', copy_all L cwd (mkG true rd) files d s = (s', Ok d') /\ grows s s' /\
      (forall q, (forall x, q <> rd ++ ["input_files_dir"; x]) -> llookup s' q = llookup s q) /\
      (forall x, ~ In x (map (fun f => g_name (snd f)) files) -> llookup s' (rd ++ ["input_files_dir"; x]) = llookup s (rd ++ ["input_files_dir"; x])) /\
      (forall n g c, In (n, g) files -> source s rd g c -> llookup s' (rd ++ ["input_files_dir"; g_name g]) = Some (LFile c) /\
          dget String.eqb d' n = Some (mkG false ["input_files_dir"; g_name g])) /\
      (forall n, ~ In n (map fst files) -> dget String.eqb d' n = dget String.eqb d n).
  Proof.
    intros Hn. induction files as [|[n g] files IH]; intros d s Hr He Hk Hb Hs.
    - exists s, d. cbn [copy_all]. split; [reflexivity|]. split; [apply grows_refl|]. split; [reflexivity|]. split; [reflexivity|]. split; [intros ? ? ? []|reflexivity].
    - cbn [map fst snd] in Hk, Hb. apply NoDup_cons_iff in Hk, Hb. destruct Hk as [Hk1 Hk], Hb as [Hb1 Hb].
      destruct (Hs n g (or_introl eq_refl)) as (c & Hg & Hne & p & Ep & Ec & Hp).
      assert (Gx : good (g_name g)).
      { unfold names in Hg. rewrite Forall_forall in Hg. apply Hg. apply last_In. exact Hne. }
      assert (Nd : names (rd ++ ["input_files_dir"])) by (apply names_app; split; [exact Hn|repeat constructor; discriminate]).
      set (dst := rd ++ ["input_files_dir"; g_name g]) in *.
      assert (Ed : dst = (rd ++ ["input_files_dir"]) ++ [g_name g]) by apply snoc2.
      assert (Dd : lisdir L cwd s (mkG true dst) = false /\ (forall q, locate L cwd s (mkG true dst) = Ok q -> q = dst)).
      { unfold lisdir. rewrite Ed, (locate_real L cwd s _ _ Nd Gx Hr). rewrite <- Ed. destruct (He (g_name g)) as [E|(c0 & E)]; fold dst in E; rewrite E.
        - split; [reflexivity|discriminate].
        - rewrite E. split; [reflexivity|intros q X; injection X as <-; reflexivity]. }
      destruct Dd as [Dd1 Dd2].
      assert (Ecopy : lcopy L cwd g (mkG true dst) s = (lput s dst (LFile c), Ok tt)).
      { unfold lcopy. rewrite Dd1, Ep.
        assert (X : match locate L cwd s (mkG true dst) with Ok q => sl_eqb p q | Err _ => false end = false).
        { destruct (locate L cwd s (mkG true dst)) as [q|e] eqn:El; [|reflexivity]. rewrite (Dd2 q eq_refl). destruct (sl_eqb_spec p dst) as [E|]; [|reflexivity].
          exfalso. exact (Hp (g_name g) E). }
        rewrite X. unfold lread. rewrite Ep. cbn [rbind]. rewrite Ec. rewrite Ed. apply write_real; [exact Nd|exact Hr|]. rewrite <- Ed. apply He. }
      set (s1 := lput s dst (LFile c)) in *.
      assert (Hd0 : dst <> []) by (rewrite Ed; apply snoc_neq).
      assert (G1 : grows s s1).
      { apply grows_put; [exact Hd0|]. destruct (He (g_name g)) as [E|(c0 & E)]; fold dst in E; [left; exact E|right; exists c0, c; split; [exact E|reflexivity]]. }
      assert (O1 : forall q, q <> dst -> llookup s1 q = llookup s q) by (intros q Hq; apply lookup_put_other; exact Hq).
      assert (S1 : forall g' c', source s rd g' c' -> source s1 rd g' c').
      { intros g' c' (A & B & p' & Ep' & Ec' & Hp'). split; [exact A|]. split; [exact B|]. exists p'. split; [apply (walk_grows _ _ _ _ _ _ G1 Ep')|]. split; [|exact Hp'].
        rewrite O1; [exact Ec'|]. apply Hp'. }
      destruct (IH (dset String.eqb d n (relpath cwd (mkG true dst) (mkG true rd))) s1) as (s' & d' & E & G & Ho & Hx & Hv & Hd').
      { eapply real_grows; [exact G1|exact Hr]. }
      { intros x. destruct (sl_eqb_spec (rd ++ ["input_files_dir"; x]) dst) as [->|N]; [right; exists c; unfold s1; apply lookup_put_same; exact Hd0|rewrite O1 by exact N; apply He]. }
      { exact Hk. } { exact Hb. }
      { intros n' g' Hi. destruct (Hs n' g' (or_intror Hi)) as (c' & Sc). exists c'. apply S1. exact Sc. }
      exists s', d'. cbn [copy_all]. unfold g_sub at 1. cbn [g_abs g_parts]. fold dst. rewrite Ecopy. cbn [sbind]. unfold g_sub. cbn [g_abs g_parts]. fold dst. split; [exact E|].
      split; [eapply grows_trans; eassumption|]. split; [|split; [|split]].
      + intros q Hq. rewrite (Ho q Hq). apply O1. apply Hq.
      + intros x Hx'. cbn [map snd In] in Hx'. rewrite Hx by tauto. apply O1. unfold dst. intros X. apply app_inv_head in X. injection X as X. apply Hx'. left. congruence.
      + intros n' g' c' [X|Hi] Sc.
        * injection X as <- <-. assert (c' = c) by (destruct Sc as (_ & _ & p' & Ep' & Ec' & _); congruence). subst c'. split.
          -- rewrite Hx by exact Hb1. unfold s1. fold dst. apply lookup_put_same. exact Hd0.
          -- rewrite Hd' by exact Hk1. rewrite (dget_dset_same _ String.eqb_spec). f_equal. unfold dst. apply relpath_below; [exact Hn| |discriminate].
             constructor; [apply good_names|constructor; [exact Gx|constructor]].
        * apply (Hv n' g' c' Hi). apply S1. exact Sc.
      + intros n' Hn'. cbn [map fst In] in Hn'. rewrite Hd' by tauto. apply (dget_dset_other _ String.eqb_spec). intros X. apply Hn'. left. exact X.
  Qed.

  (** After setting up, every configuration file read through the run directory
      is the one passed in, the parameters are the ones of the forecast and the
      data directory is the one given.  Condition: the files have distinct
      names, none of them params.json, and none lies in the directory the copies
      go to. *)
  Theorem C93_read_back s rd files pars data dflt : ready s rd -> NoDup (map fst files) ->
    NoDup (map (fun f => g_name (snd f)) files) -> ~ In "params.json" (map (fun f => g_name (snd f)) files) ->
    (forall n g, In (n, g) files -> exists c, source s rd g c) ->
    exists s', create_input_files L cwd (mkG true rd) files pars data s = (s', Ok tt) /\
      (forall n g c, In (n, g) files -> n <> "params" -> n <> "input_data_dir" -> source s rd g c ->
         (g' <- input_path L cwd s' (mkG true rd) n ;; lread L cwd s' g') = Ok c) /\
      (g' <- input_path L cwd s' (mkG true rd) "params" ;; lread L cwd s' g') = Ok (CPars pars) /\
      (forall p, names cwd -> real s cwd -> locate L cwd s data = Ok p -> llookup s p = Some LDir ->
         input_data_dir L cwd dflt s' (mkG true rd) = Ok (mkG true p)) /\
      (forall q, (forall x, q <> rd ++ ["input_files_dir"; x]) -> q <> rd ++ ["input_files_dir"] -> q <> rd ++ ["input_files_dict.json"] ->
         llookup s' q = llookup s q) /\ grows s s'.
  Proof.
    intros (Hn & Hr & Hi & He & Hj) Hk Hb Hpj Hs.
    assert (Nd : names (rd ++ ["input_files_dir"])) by (apply names_app; split; [exact Hn|repeat constructor; discriminate]).
    (* the directory *)
    assert (M : exists s1, lmkdir L cwd (mkG true (rd ++ ["input_files_dir"])) s = (s1, Ok tt) /\ grows s s1 /\ real s1 (rd ++ ["input_files_dir"]) /\
                  forall q, q <> rd ++ ["input_files_dir"] -> llookup s1 q = llookup s q).
    { unfold lmkdir. rewrite (entry_real L cwd s _ _ Hn Hr). destruct Hi as [E|E].
      - rewrite E. eexists. split; [reflexivity|].
        assert (G : grows s (lput s (rd ++ ["input_files_dir"]) LDir)) by (apply grows_put; [apply snoc_neq|left; exact E]).
        split; [exact G|]. split; [|intros q Hq; apply lookup_put_other; exact Hq].
        apply real_snoc; [eapply real_grows; eassumption|]. apply lookup_put_same. apply snoc_neq.
      - rewrite E. exists s. unfold lisdir. rewrite (locate_real L cwd s _ _ Hn (proj1 good_names) Hr), E, E. split; [reflexivity|].
        split; [apply grows_refl|]. split; [apply real_snoc; assumption|reflexivity]. }
    destruct M as (s1 & E1 & G1 & R1 & O1).
    assert (S1 : forall g c, source s rd g c -> source s1 rd g c).
    { intros g c (A & B & p & Ep & Ec & Hp). split; [exact A|]. split; [exact B|]. exists p. split; [apply (walk_grows _ _ _ _ _ _ G1 Ep)|]. split; [|exact Hp].
      destruct (sl_eqb_spec p (rd ++ ["input_files_dir"])) as [->|N]; [|rewrite O1; [exact Ec|exact N]]. exfalso. destruct Hi as [E|E]; rewrite E in Ec; discriminate. }
    assert (X2 : forall x, rd ++ ["input_files_dir"; x] <> rd ++ ["input_files_dir"]).
    { intros x X. apply app_inv_head in X. discriminate. }
    destruct (copy_all_ok rd Hn files [] s1 R1) as (s2 & d & E2 & G2 & O2 & Ox & Hv & _).
    { intros x. rewrite O1 by apply X2. apply He. }
    { exact Hk. } { exact Hb. }
    { intros n g Hin. destruct (Hs n g Hin) as (c & Sc). exists c. apply S1. exact Sc. }
    (* the parameters *)
    assert (R2 : real s2 (rd ++ ["input_files_dir"])) by (eapply real_grows; eassumption).
    set (pf := rd ++ ["input_files_dir"; "params.json"]).
    assert (Ef : pf = (rd ++ ["input_files_dir"]) ++ ["params.json"]) by apply snoc2.
    assert (Hpf : llookup s2 pf = None \/ exists c, llookup s2 pf = Some (LFile c)).
    { unfold pf. rewrite Ox by exact Hpj. rewrite O1 by apply X2. apply He. }
    assert (E3 : lwrite L cwd (mkG true pf) (CPars pars) s2 = (lput s2 pf (LFile (CPars pars)), Ok tt)).
    { rewrite Ef. rewrite <- Ef. rewrite Ef at 1. rewrite write_real; [rewrite <- Ef; reflexivity|exact Nd|exact R2|rewrite <- Ef; exact Hpf]. }
    set (s3 := lput s2 pf (LFile (CPars pars))) in *.
    assert (Hpf0 : pf <> []) by (rewrite Ef; apply snoc_neq).
    assert (G3 : grows s2 s3).
    { apply grows_put; [exact Hpf0|]. destruct Hpf as [E|(c & E)]; [left; exact E|right; exists c, (CPars pars); split; [exact E|reflexivity]]. }
    assert (R3 : real s3 (rd ++ ["input_files_dir"])) by (eapply real_grows; eassumption).
    assert (G13 : grows s s3) by (eapply grows_trans; [exact G1|eapply grows_trans; eassumption]).
    (* the table *)
    set (tf := rd ++ ["input_files_dict.json"]) in *.
    assert (Ht1 : forall x, tf <> rd ++ ["input_files_dir"; x]) by (intros x X; apply app_inv_head in X; discriminate).
    assert (Ht2 : tf <> rd ++ ["input_files_dir"]) by (intros X; apply app_inv_head in X; discriminate).
    assert (Ht3 : llookup s3 tf = llookup s tf).
    { unfold s3. rewrite lookup_put_other by apply Ht1. rewrite O2 by exact Ht1. apply O1. exact Ht2. }
    set (d2 := dset String.eqb (dset String.eqb d "params" (relpath cwd (mkG true pf) (mkG true rd))) "input_data_dir" (resolved L cwd s3 data)).
    assert (E4 : lwrite L cwd (mkG true tf) (CTable d2) s3 = (lput s3 tf (LFile (CTable d2)), Ok tt)).
    { unfold tf. apply write_real; [exact Hn|eapply real_grows; eassumption|]. fold tf. rewrite Ht3. exact Hj. }
    set (s4 := lput s3 tf (LFile (CTable d2))) in *.
    assert (G4 : grows s3 s4).
    { apply grows_put; [apply snoc_neq|]. rewrite Ht3. destruct Hj as [E|(c & E)]; [left; exact E|right; exists c, (CTable d2); split; [exact E|reflexivity]]. }
    assert (R4 : real s4 rd) by (eapply real_grows; [exact G4|eapply real_grows; eassumption]).
    assert (R4' : real s4 (rd ++ ["input_files_dir"])) by (eapply real_grows; eassumption).
    assert (It : input_table L cwd s4 (mkG true rd) = Ok d2).
    { unfold input_table, g_sub. cbn [g_abs g_parts]. rewrite (read_real L cwd s4 rd "input_files_dict.json" (CTable d2) Hn); [reflexivity|apply good_names|exact R4|].
      apply lookup_put_same. apply snoc_neq. }
    exists s4. split; [|split; [|split; [|split; [|split]]]].
    - unfold create_input_files, g_sub. cbn [g_abs g_parts]. rewrite E1. cbn [sbind]. rewrite E2. cbn [sbind]. fold pf. rewrite E3. cbn [sbind]. fold tf d2. exact E4.
    - intros n g c Hin Nn Nm Sc. destruct (Hv n g c Hin (S1 g c Sc)) as [Hc Hd].
      assert (Gx : good (g_name g)).
      { destruct Sc as (A & B & _). unfold names in A. rewrite Forall_forall in A. apply A. apply last_In. exact B. }
      unfold input_path. rewrite It. cbn [rbind]. unfold dget_str. unfold d2. rewrite (dget_dset_other _ String.eqb_spec) by congruence. rewrite (dget_dset_other _ String.eqb_spec) by congruence.
      rewrite Hd. cbn [rbind]. unfold g_join. cbn [g_abs g_parts]. rewrite snoc2. apply read_real; [exact Nd|exact Gx|exact R4'|]. rewrite <- snoc2.
      unfold s4. rewrite lookup_put_other by (intros X; symmetry in X; exact (Ht1 _ X)). unfold s3. rewrite lookup_put_other; [exact Hc|].
      unfold pf. intros X. apply app_inv_head in X. injection X as X. apply Hpj. rewrite <- X. apply in_map_iff. exists (n, g). split; [reflexivity|exact Hin].
    - unfold input_path. rewrite It. cbn [rbind]. unfold dget_str. unfold d2. rewrite (dget_dset_other _ String.eqb_spec) by discriminate. rewrite (dget_dset_same _ String.eqb_spec). cbn [rbind].
      unfold pf. rewrite relpath_below; [|exact Hn|repeat constructor; discriminate|discriminate]. unfold g_join. cbn [g_abs g_parts]. rewrite snoc2.
      apply read_real; [exact Nd|apply good_names|exact R4'|]. rewrite <- snoc2. unfold s4. rewrite lookup_put_other by (intros X; symmetry in X; exact (Ht1 _ X)).
      unfold s3. apply lookup_put_same. exact Hpf0.
    - intros p Nc Rc Ep Ed. unfold input_data_dir, input_path. rewrite It. cbn [rbind]. unfold dget_str. unfold d2. rewrite (dget_dset_same _ String.eqb_spec). cbn [rbind].
      assert (Er : resolved L cwd s3 data = mkG true p).
      { unfold resolved. unfold locate in *. rewrite (walk_grows _ _ _ _ _ _ G13 Ep). reflexivity. }
      rewrite Er. unfold g_join. cbn [g_abs].
      assert (Ee : names p /\ (real s p \/ exists c, llookup s p = Some (LFile c))).
      { unfold locate in Ep. apply (walk_end s L (if g_abs data then [] else cwd) (g_parts data) p); [destruct (g_abs data); [constructor|exact Nc]|destruct (g_abs data); [apply real_nil|exact Rc]|exact Ep]. }
      destruct Ee as [Np [Rp|(c & Ec)]]; [|rewrite Ec in Ed; discriminate].
      assert (Rp4 : real s4 p) by (eapply real_grows; [exact G4|eapply real_grows; eassumption]).
      unfold lisdir, locate. cbn [g_abs g_parts]. rewrite <- (app_nil_r p) at 1. rewrite walk_through by assumption. rewrite walk_nil. cbn [app]. rewrite (real_self _ _ Rp4). reflexivity.
    - intros q Q1 Q2 Q3. unfold s4. rewrite lookup_put_other by exact Q3. unfold s3. rewrite lookup_put_other by apply Q1. rewrite O2 by exact Q1. apply O1. exact Q2.
    - eapply grows_trans; [exact G13|exact G4].
  Qed.

  (** A file that is already in the directory of input files cannot be used for
      the same run directory again: copying it onto itself fails. *)
  Theorem C93_own_file (s : lfs) rd n g r d : names rd -> real s (rd ++ ["input_files_dir"]) -> good (g_name g) ->
    locate L cwd s g = Ok (rd ++ ["input_files_dir"; g_name g]) -> (exists c, llookup s (rd ++ ["input_files_dir"; g_name g]) = Some (LFile c)) ->
    copy_all L cwd (mkG true rd) ((n, g) :: r) d s = (s, Err EOSError).
  Proof.
    intros Hn Hr Hx Ep (c & Ec). cbn [copy_all]. unfold lcopy, g_sub. cbn [g_abs g_parts].
    assert (Nd : names (rd ++ ["input_files_dir"])) by (apply names_app; split; [exact Hn|repeat constructor; discriminate]).
    assert (El : locate L cwd s (mkG true (rd ++ ["input_files_dir"; g_name g])) = Ok (rd ++ ["input_files_dir"; g_name g])).
    { rewrite snoc2, (locate_real L cwd s _ _ Nd Hx Hr). rewrite snoc2 in Ec. rewrite Ec. reflexivity. }
    unfold lisdir. rewrite El, Ec, Ep. cbn [g_abs g_parts]. rewrite El. destruct (sl_eqb_spec (rd ++ ["input_files_dir"; g_name g]) (rd ++ ["input_files_dir"; g_name g])) as [_|N]; [reflexivity|congruence].
  Qed.
End Prep.

(** ** Where the claim is false of the code *)
Section Wit.
  Notation st := (lfs (content string nat)).
  Definition g (l : list string) : gpath := mkG true l.
  Definition base : st := [(["a"], LDir); (["b"], LDir); (["r"], LDir); (["a"; "cfg.json"], LFile (CConf "angular")); (["b"; "cfg.json"], LFile (CConf "fisher"));
    (["a"; "params.json"], LFile (CConf "forecast")); (["a"; "f.json"], LFile (CConf "fc"))].
  (** Two files of the same name from different directories: both tasks read
      the second one. *)
  Theorem C93_same_name_refuted : exists s', create_input_files 40 [] (g ["r"]) [("Angular", g ["a"; "cfg.json"]); ("Fisher", g ["b"; "cfg.json"])] 7 (g ["a"]) base = (s', Ok tt) /\
    lread 40 [] base (g ["a"; "cfg.json"]) = Ok (CConf "angular") /\
    (p <- input_path 40 [] s' (g ["r"]) "Angular" ;; lread 40 [] s' p) = Ok (CConf "fisher").
  Proof. eexists. split; [vm_compute; reflexivity|]. split; vm_compute; reflexivity. Qed.
  (** A configuration file called params.json is replaced by the parameters. *)
  Theorem C93_params_name_refuted : exists s', create_input_files 40 [] (g ["r"]) [("forecast", g ["a"; "params.json"])] 7 (g ["a"]) base = (s', Ok tt) /\
    (p <- input_path 40 [] s' (g ["r"]) "forecast" ;; lread 40 [] s' p) = Ok (CPars 7).
  Proof. eexists. split; [vm_compute; reflexivity|]. vm_compute; reflexivity. Qed.
  Example C93_instance : ready base ["r"] /\ source 40 [] base ["r"] (g ["a"; "f.json"]) (CConf "fc") /\
    (exists s', create_input_files 40 [] (g ["r"]) [("forecast", g ["a"; "f.json"]); ("Angular", g ["a"; "cfg.json"])] 7 (g ["a"]) base = (s', Ok tt) /\
      (p <- input_path 40 [] s' (g ["r"]) "forecast" ;; lread 40 [] s' p) = Ok (CConf "fc") /\
      input_data_dir 40 [] (g ["d"]) s' (g ["r"]) = Ok (g ["a"])).
  Proof.
    split; [|split].
    - split; [repeat constructor; discriminate|]. split; [intros [|[|n]]; reflexivity|]. split; [left; reflexivity|]. split; [intros x; left; reflexivity|left; reflexivity].
    - split; [repeat constructor; discriminate|]. split; [discriminate|]. exists ["a"; "f.json"]. split; [vm_compute; reflexivity|]. split; [reflexivity|discriminate].
    - eexists. split; [vm_compute; reflexivity|]. split; vm_compute; reflexivity.
  Qed.
End Wit.

Print Assumptions C93_read_back.
Print Assumptions C93_own_file.
Print Assumptions C93_same_name_refuted.
Print Assumptions C93_params_name_refuted.
