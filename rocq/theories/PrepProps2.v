(** Property C94: external directories are linked into the run directory. *)
From Verif Require Import Base SortLib StrLib FrameModel FrameLemmas EvalModel FsModel FileLemmas2 LinkModel LinkLemmas PrepModel PrepProps.
Open Scope string_scope.
Open Scope list_scope.

Section Prep.
  Context {T P : Type}.
  Notation content := (content T P).
  Notation lfs := (lfs content).
  Context (L : nat) (cwd : path).

  (** The path [g], written without dots, leads to [p] through fewer links than
      the system allows. *)
  Definition leads (s : lfs) (g : gpath) (p : path) : Prop := names (g_parts g) /\ exists k, k < L /\
    walk s k (if g_abs g then [] else cwd) (g_parts g) = Ok p.

  Lemma leads_exists s g p : leads s g p -> locate L cwd s g = Ok p.
  Proof. intros (_ & k & Hk & E). unfold locate. eapply walk_links; [exact E|lia]. Qed.
  Lemma leads_grows s s' g p : grows s s' -> leads s g p -> leads s' g p.
  Proof. intros G (H & k & Hk & E). split; [exact H|]. exists k. split; [exact Hk|]. eapply walk_grows; eassumption. Qed.

  (** One link. *)
  Lemma link_one (s : lfs) rd src p x (relative : bool) : names rd -> real s rd -> good x -> names cwd -> real s cwd ->
    llookup s (rd ++ [x]) = None -> leads s src p -> (relative = true \/ g_abs src = true) ->
    exists t, create_symlink L cwd (mkG true rd) src (mkG true (rd ++ [x])) relative s = (lput s (rd ++ [x]) (LLink t), Ok tt) /\
      locate L cwd (lput s (rd ++ [x]) (LLink t)) (mkG true (rd ++ [x])) = Ok p.
  Proof.
    intros Hn Hr Hx Nc Rc E0 Hl Hrel. exists (if relative then relpath cwd src (mkG true rd) else src).
    unfold create_symlink, lexists. rewrite (leads_exists _ _ _ Hl). unfold lsymlink. rewrite (entry_real L cwd s rd x Hn Hr), E0. split; [reflexivity|].
    set (t := if relative then _ else _). assert (G : grows s (lput s (rd ++ [x]) (LLink t))) by (apply grows_put; [apply snoc_neq|left; exact E0]).
    rewrite (locate_real L cwd _ rd x Hn Hx (real_grows _ _ _ G Hr)), lookup_put_same by apply snoc_neq.
    destruct (leads_grows _ _ _ _ G Hl) as (Hs & k & Hk & Ew). destruct L as [|l]; [lia|].
    assert (Ew' : walk (lput s (rd ++ [x]) (LLink t)) l (if g_abs src then [] else cwd) (g_parts src) = Ok p) by (eapply walk_links; [exact Ew|lia]).
    unfold t in *. clear t. destruct relative.
    - assert (Ea : g_abs (relpath cwd src (mkG true rd)) = false) by reflexivity. rewrite Ea.
      rewrite relpath_walk by (try exact Hn; eapply real_grows; eassumption). unfold abspath.
      rewrite normal_names by (apply names_app; split; [destruct (g_abs src); [constructor|exact Nc]|exact Hs]).
      destruct (g_abs src); [exact Ew'|]. rewrite walk_through; [exact Ew'|exact Nc|cbn [app]; eapply real_grows; eassumption].
    - destruct Hrel as [X|X]; [discriminate|]. rewrite X in *. exact Ew'.
  Qed.

  (** A task not known: nothing is done. *)
  Theorem C94_unknown_task s rd ext relative delta k : In k (dkeys ext) -> ~ In k ["PowerSpectrum"; "Angular"; "Derivative"; "Fisher"] ->
    symlink_to_external (T := T) (P := P) L cwd rd ext relative delta s = (s, Err EKeyError).
  Proof.
    intros Hk Hn. unfold symlink_to_external. destruct (forallb (fun k => smem k task_names) (dkeys ext)) eqn:E; [|reflexivity].
    rewrite forallb_forall in E. exfalso. apply Hn. apply smem_In. apply E. exact Hk.
  Qed.

  (** What the call asks for: fresh entries lead to an existing directory. *)
  Definition wanted (s : lfs) (rd : path) (key : string) (dir : gpath) : Prop :=
    (exists p, locate L cwd s (mkG true (rd ++ [key])) = Ok p) \/ (llookup s (rd ++ [key]) = None /\ exists p, leads s dir p).

  Lemma task_good x : In x task_names -> good x /\ x <> "delta_cls.h5".
  Proof. intros H. split; [split|]; intros ->; vm_compute in H; intuition discriminate. Qed.

  (** Every task directory that was missing leads where the external directory
      given for it leads; one that existed is left alone; nothing else changes.
      With delta (the default) the noisy spectra of the external run are linked
      too whenever Angular is. *)
  Theorem C94_linked rd relative delta : names rd -> names cwd -> forall ext s, real s rd -> real s cwd -> NoDup (dkeys ext) ->
    (forall k dir, In (k, dir) ext -> In k ["PowerSpectrum"; "Angular"; "Derivative"; "Fisher"] /\ wanted s rd k dir /\ (relative = true \/ g_abs dir = true)) ->
    (delta = true -> forall dir, In ("Angular", dir) ext -> llookup s (rd ++ ["Angular"]) = None ->
       llookup s (rd ++ ["delta_cls.h5"]) = None /\ exists p, leads s (g_sub (g_parent dir) ["delta_cls.h5"]) p) ->
    exists s', symlink_to_external L cwd (mkG true rd) ext relative delta s = (s', Ok tt) /\
      (forall k dir, In (k, dir) ext -> (forall p, locate L cwd s (mkG true (rd ++ [k])) = Ok p -> locate L cwd s' (mkG true (rd ++ [k])) = Ok p) /\
         (forall p, llookup s (rd ++ [k]) = None -> leads s dir p -> locate L cwd s' (mkG true (rd ++ [k])) = Ok p)) /\
      (forall dir p, delta = true -> In ("Angular", dir) ext -> llookup s (rd ++ ["Angular"]) = None -> leads s (g_sub (g_parent dir) ["delta_cls.h5"]) p ->
         locate L cwd s' (mkG true (rd ++ ["delta_cls.h5"])) = Ok p) /\
      (forall q, (forall k, In k (dkeys ext) -> q <> rd ++ [k]) -> (delta = false \/ q <> rd ++ ["delta_cls.h5"]) -> llookup s' q = llookup s q) /\
      (forall k dir p, In (k, dir) ext -> locate L cwd s (mkG true (rd ++ [k])) = Ok p -> llookup s' (rd ++ [k]) = llookup s (rd ++ [k])) /\ keeps s s'.
  Proof.
    intros Hn Nc ext s Hr Rc Hd Hw Hdel. unfold symlink_to_external.
    assert (Hk : forallb (fun k => smem k task_names) (dkeys ext) = true).
    { apply forallb_forall. intros k Hk. unfold dkeys in Hk. apply in_map_iff in Hk. destruct Hk as ([k' dir] & <- & Hk). apply smem_In. apply (Hw k' dir Hk). }
    rewrite Hk. clear Hk.
    enough (G : exists s', link_each L cwd (mkG true rd) relative delta ext s = (s', Ok tt) /\ keeps s s' /\
      (forall k dir, In (k, dir) ext -> (forall p, locate L cwd s (mkG true (rd ++ [k])) = Ok p -> locate L cwd s' (mkG true (rd ++ [k])) = Ok p) /\
         (forall p, llookup s (rd ++ [k]) = None -> leads s dir p -> locate L cwd s' (mkG true (rd ++ [k])) = Ok p)) /\
      (forall dir p, delta = true -> In ("Angular", dir) ext -> llookup s (rd ++ ["Angular"]) = None -> leads s (g_sub (g_parent dir) ["delta_cls.h5"]) p ->
         locate L cwd s' (mkG true (rd ++ ["delta_cls.h5"])) = Ok p) /\
      (forall q, (forall k, In k (dkeys ext) -> q <> rd ++ [k]) -> (delta = false \/ q <> rd ++ ["delta_cls.h5"]) -> llookup s' q = llookup s q) /\
      (forall k dir p, In (k, dir) ext -> locate L cwd s (mkG true (rd ++ [k])) = Ok p -> llookup s' (rd ++ [k]) = llookup s (rd ++ [k]))).
    { destruct G as (s' & A & K & B1 & B2 & B3 & B4). exists s'. repeat (split; [assumption|]). exact K. }
    revert s Hr Rc Hw Hdel. induction ext as [|[k dir] ext IH]; intros s Hr Rc Hw Hdel.
    - exists s. cbn [link_each]. split; [reflexivity|]. split; [apply keeps_refl|]. split; [intros ? ? []|]. split; [intros ? ? _ []|]. split; [reflexivity|intros ? ? ? []].
    - unfold dkeys in Hd. cbn [map fst] in Hd. apply NoDup_cons_iff in Hd. destruct Hd as [Hk0 Hd].
      destruct (Hw k dir (or_introl eq_refl)) as (Ht & Hwk & Hrel). destruct (task_good k Ht) as [Gk Nk]. clear Ht.
      assert (Hne : forall k' dir', In (k', dir') ext -> rd ++ [k'] <> rd ++ [k]).
      { intros k' dir' Hi X. apply app_inv_head in X. injection X as ->. apply Hk0. apply in_map_iff. exists (k, dir'). split; [reflexivity|exact Hi]. }
      assert (Hnd : forall k' dir', In (k', dir') ext -> rd ++ [k'] <> rd ++ ["delta_cls.h5"]).
      { intros k' dir' Hi X. apply app_inv_head in X. injection X as ->. apply (task_good "delta_cls.h5"); [apply (Hw "delta_cls.h5" dir' (or_intror Hi))|reflexivity]. }
      cbn [link_each]. unfold g_sub at 1. cbn [g_abs g_parts].
      destruct (lexists L cwd s (mkG true (rd ++ [k]))) eqn:El.
      + (* already there *)
        assert (Hsome : llookup s (rd ++ [k]) <> None).
        { intros X. unfold lexists in El. rewrite (locate_real L cwd s rd k Hn Gk Hr), X in El. discriminate. }
        destruct (IH Hd s Hr Rc) as (s' & E & Ke & A & B & O & U).
        { intros k' dir' Hi. apply Hw. right. exact Hi. }
        { intros Ed dir' Hi. apply (Hdel Ed). right. exact Hi. }
        pose proof (keeps_grows _ _ Ke) as G. exists s'. split; [exact E|]. split; [exact Ke|]. split; [|split; [|split]].
        * intros k' dir' [X|Hi]; [|apply A; exact Hi]. injection X as <- <-. split.
          -- intros p Ep. unfold locate in *. eapply walk_grows; [exact G|exact Ep].
          -- intros p X _. congruence.
        * intros dir' p Ed [X|Hi] E0 Hl; [|apply (B dir' p Ed Hi E0 Hl)]. injection X as -> _. congruence.
        * intros q Hq. apply O. intros k' Hk'. apply Hq. right. exact Hk'.
        * intros k' dir' p [X|Hi] Ep; [|apply (U k' dir' p Hi Ep)]. injection X as <- <-. apply O.
          -- intros k' Hk' X. apply app_inv_head in X. injection X as X. apply Hk0. rewrite X. exact Hk'.
          -- right. intros X. apply app_inv_head in X. injection X as X. congruence.
      + destruct Hwk as [(p & Ep)|(E0 & p & Hl)]; [unfold lexists in El; rewrite Ep in El; discriminate|].
        destruct (link_one s rd dir p k relative Hn Hr Gk Nc Rc E0 Hl Hrel) as (t & Ec & Et).
        unfold g_sub. cbn [g_abs g_parts]. rewrite Ec. cbn [sbind]. set (s1 := lput s (rd ++ [k]) (LLink t)) in *.
        assert (K1 : keeps s s1) by (apply keeps_put; [apply snoc_neq|exact E0]). pose proof (keeps_grows _ _ K1) as G1.
        assert (O1 : forall q, q <> rd ++ [k] -> llookup s1 q = llookup s q) by (intros q Hq; apply lookup_put_other; exact Hq).
        (* the optional second link *)
        assert (D : exists s2, (if String.eqb k "Angular" && delta then create_symlink L cwd (mkG true rd) (mkG (g_abs (g_parent dir)) (g_parts (g_parent dir) ++ ["delta_cls.h5"])) (mkG true (rd ++ ["delta_cls.h5"])) relative s1 else (s1, Ok tt)) = (s2, Ok tt) /\
                   keeps s1 s2 /\ (forall q, q <> rd ++ ["delta_cls.h5"] -> llookup s2 q = llookup s1 q) /\ (k <> "Angular" \/ delta = false -> s2 = s1) /\
                   (k = "Angular" -> delta = true -> forall p', leads s (g_sub (g_parent dir) ["delta_cls.h5"]) p' -> locate L cwd s2 (mkG true (rd ++ ["delta_cls.h5"])) = Ok p')).
        { destruct (String.eqb_spec k "Angular") as [Ek|Nk']; cbn [andb].
          - destruct delta.
            + rewrite Ek in *. destruct (Hdel eq_refl dir (or_introl eq_refl) E0) as (Ed & p' & Hp').
              assert (Ed1 : llookup s1 (rd ++ ["delta_cls.h5"]) = None) by (rewrite O1; [exact Ed|intros X; apply app_inv_head in X; discriminate]).
              destruct (link_one s1 rd (g_sub (g_parent dir) ["delta_cls.h5"]) p' "delta_cls.h5" relative Hn (real_grows _ _ _ G1 Hr)) as (t2 & Ec2 & Et2);
                [apply good_names|exact Nc|eapply real_grows; eassumption|exact Ed1|eapply leads_grows; eassumption|cbn [g_sub g_parent g_abs]; exact Hrel|].
              eexists. split; [exact Ec2|]. split; [apply keeps_put; [apply snoc_neq|exact Ed1]|]. split; [intros q Hq; apply lookup_put_other; exact Hq|].
              split; [intros [X|X]; congruence|]. intros _ _ p'' Hp''. rewrite Et2. f_equal. apply leads_exists in Hp', Hp''. congruence.
            + exists s1. split; [reflexivity|]. split; [apply keeps_refl|]. split; [reflexivity|]. split; [reflexivity|discriminate].
          - exists s1. split; [reflexivity|]. split; [apply keeps_refl|]. split; [reflexivity|]. split; [reflexivity|congruence]. }
        destruct D as (s2 & E2 & K2 & O2 & Q2 & D2). pose proof (keeps_grows _ _ K2) as G2. rewrite E2. cbn [sbind].
        assert (G12 : grows s s2) by (eapply grows_trans; eassumption).
        assert (O12 : forall q, q <> rd ++ [k] -> q <> rd ++ ["delta_cls.h5"] -> llookup s2 q = llookup s q) by (intros q H1 H2; rewrite O2 by exact H2; apply O1; exact H1).
        destruct (IH Hd s2 (real_grows _ _ _ G12 Hr) (real_grows _ _ _ G12 Rc)) as (s' & E & Ke & A & B & O & U).
        { intros k' dir' Hi. destruct (Hw k' dir' (or_intror Hi)) as (A & [(q & Eq)|(E0' & q & Hq)] & C); (split; [exact A|split; [|exact C]]).
          - left. exists q. unfold locate in *. eapply walk_grows; eassumption.
          - right. split; [rewrite O12; [exact E0'|exact (Hne _ _ Hi)|exact (Hnd _ _ Hi)]|exists q; eapply leads_grows; eassumption]. }
        { intros Ed dir' Hi E0'. assert (Na : k <> "Angular").
          { intros ->. apply (Hne "Angular" dir' Hi). reflexivity. }
          rewrite O12 in E0'; [|exact (Hne _ _ Hi)|exact (Hnd _ _ Hi)]. destruct (Hdel Ed dir' (or_intror Hi) E0') as (Ed' & p' & Hp').
          split; [|exists p'; eapply leads_grows; eassumption]. rewrite (Q2 (or_introl Na)). rewrite O1; [exact Ed'|]. intros X. apply app_inv_head in X. injection X as X. congruence. }
        pose proof (keeps_grows _ _ Ke) as G. exists s'. split; [exact E|]. split; [exact (keeps_trans _ _ _ K1 (keeps_trans _ _ _ K2 Ke))|].
        assert (Ok' : locate L cwd s' (mkG true (rd ++ [k])) = Ok p).
        { unfold locate in *. eapply walk_grows; [exact G|]. eapply walk_grows; [exact G2|exact Et]. }
        split; [|split; [|split]].
        * intros k' dir' [X|Hi].
          -- injection X as <- <-. split.
             ++ intros q Eq. unfold lexists in El. rewrite Eq in El. discriminate.
             ++ intros q _ Hq. rewrite Ok'. f_equal. apply leads_exists in Hq, Hl. congruence.
          -- destruct (A k' dir' Hi) as [A1 A2]. split.
             ++ intros q Eq. apply A1. unfold locate in *. eapply walk_grows; eassumption.
             ++ intros q E0' Hq. apply A2; [rewrite O12; [exact E0'|exact (Hne _ _ Hi)|exact (Hnd _ _ Hi)]|eapply leads_grows; eassumption].
        * intros dir' p' Ed [X|Hi] E0' Hp'.
          -- injection X as -> ->. unfold locate. eapply walk_grows; [exact G|]. apply (D2 eq_refl Ed p' Hp').
          -- apply (B dir' p' Ed Hi); [rewrite O12; [exact E0'|exact (Hne _ _ Hi)|exact (Hnd _ _ Hi)]|eapply leads_grows; eassumption].
        * intros q Hq Hdq. assert (Hq1 : q <> rd ++ [k]) by (apply Hq; left; reflexivity).
          rewrite O; [|intros k' Hk'; apply Hq; right; exact Hk'|exact Hdq]. destruct Hdq as [->|Hdq]; [rewrite (Q2 (or_intror eq_refl)); apply O1; exact Hq1|apply O12; assumption].
        * intros k' dir' q [X|Hi] Eq.
          -- injection X as <- <-. unfold lexists in El. rewrite Eq in El. discriminate.
          -- rewrite (U k' dir' q Hi).
             ++ apply O12; [exact (Hne _ _ Hi)|exact (Hnd _ _ Hi)].
             ++ unfold locate in *. eapply walk_grows; eassumption.
  Qed.

  (** Setting up a run in an existing directory: the parameters of the forecast
      file are returned, every configuration file can be read back, and the
      spectra and derivatives given lead where they lead outside. *)
  Lemma mkdirs_there (s : lfs) : forall todo cur, names todo -> real s (cur ++ todo) -> mkdirs_from L cur todo s = (s, Ok tt).
  Proof.
    induction todo as [|x r IH]; intros cur Hn Hr; [reflexivity|]. inversion Hn as [|? ? Hx Hp]. subst. destruct (good_tests x Hx) as [E1 E2].
    cbn [mkdirs_from]. rewrite E1, E2. replace (cur ++ x :: r) with ((cur ++ [x]) ++ r) in Hr by (rewrite <- app_assoc; reflexivity).
    rewrite (real_self _ _ (real_app _ _ _ Hr)). apply IH; assumption.
  Qed.
  Theorem C94_prepared pars_of s rd files f t pars data power an de : ready s rd -> names cwd -> real s cwd ->
    NoDup (map fst files) -> NoDup (map (fun x => g_name (snd x)) files) -> ~ In "params.json" (map (fun x => g_name (snd x)) files) ->
    (forall n g, In (n, g) files -> exists c, source L cwd s rd g c) ->
    In ("forecast", f) files -> source L cwd s rd f (CConf t) -> pars_of t = Ok pars ->
    llookup s (rd ++ ["PowerSpectrum"]) = None \/ llookup s (rd ++ ["PowerSpectrum"]) = Some LDir ->
    (forall g, an = Some g -> llookup s (rd ++ ["Angular"]) = None /\ exists p, leads s g p) ->
    (forall g, de = Some g -> llookup s (rd ++ ["Derivative"]) = None /\ exists p, leads s g p) ->
    exists s', prepare L cwd pars_of (mkPrep files data (mkG true rd) power an de) s = (s', Ok pars) /\
      (forall n g c, In (n, g) files -> n <> "params" -> n <> "input_data_dir" -> source L cwd s rd g c ->
         (g' <- input_path L cwd s' (mkG true rd) n ;; lread L cwd s' g') = Ok c) /\
      (power = None -> lisdir L cwd s' (mkG true (rd ++ ["PowerSpectrum"])) = true) /\
      (forall g p, an = Some g -> leads s g p -> locate L cwd s' (mkG true (rd ++ ["Angular"])) = Ok p) /\
      (forall g p, de = Some g -> leads s g p -> locate L cwd s' (mkG true (rd ++ ["Derivative"])) = Ok p).
  Proof.
    intros Hready Nc Rc Hk Hb Hpj Hs Hf Sf Ep Hpow Han Hde. pose proof Hready as (Hn & Hr & _).
    assert (Ef : dget_str files "forecast" = Ok f) by (unfold dget_str; rewrite (dget_NoDup_In _ String.eqb_spec _ _ _ Hk Hf); reflexivity).
    assert (Er : lread L cwd s f = Ok (CConf t)).
    { destruct Sf as (_ & _ & p & El & Ec & _). unfold lread. rewrite El. cbn [rbind]. rewrite Ec. reflexivity. }
    destruct (C93_read_back L cwd s rd files pars data data Hready Hk Hb Hpj Hs) as (s2 & E2 & V2 & _ & _ & O2 & G2).
    assert (Ot : forall k, k <> "input_files_dir" -> k <> "input_files_dict.json" -> llookup s2 (rd ++ [k]) = llookup s (rd ++ [k])).
    { intros k N1 N2. apply O2.
      - intros x X. apply app_inv_head in X. discriminate.
      - intros X. apply app_inv_head in X. congruence.
      - intros X. apply app_inv_head in X. congruence. }
    assert (R2 : real s2 rd) by (eapply real_grows; eassumption). assert (Rc2 : real s2 cwd) by (eapply real_grows; eassumption).
    (* the directory of power spectra *)
    assert (Gp : good "PowerSpectrum") by (split; discriminate).
    assert (M : exists s3, (match power with None => lmkdir L cwd (mkG true (rd ++ ["PowerSpectrum"])) s2 | Some _ => (s2, Ok tt) end) = (s3, Ok tt) /\ keeps s2 s3 /\
                 (forall q, q <> rd ++ ["PowerSpectrum"] -> llookup s3 q = llookup s2 q) /\ (power = None -> llookup s3 (rd ++ ["PowerSpectrum"]) = Some LDir)).
    { destruct power as [g|]; [exists s2; split; [reflexivity|split; [apply keeps_refl|split; [reflexivity|discriminate]]]|].
      unfold lmkdir. rewrite (entry_real L cwd s2 rd "PowerSpectrum" Hn R2). assert (Es : llookup s2 (rd ++ ["PowerSpectrum"]) = llookup s (rd ++ ["PowerSpectrum"])) by (apply Ot; discriminate).
      destruct Hpow as [E|E]; rewrite E in Es; rewrite Es.
      - eexists. split; [reflexivity|]. split; [apply keeps_put; [apply snoc_neq|exact Es]|]. split; [intros q Hq; apply lookup_put_other; exact Hq|].
        intros _. apply lookup_put_same. apply snoc_neq.
      - exists s2. unfold lisdir. rewrite (locate_real L cwd s2 rd "PowerSpectrum" Hn Gp R2). rewrite Es. rewrite Es.
        split; [reflexivity|]. split; [apply keeps_refl|]. split; [reflexivity|]. intros _. reflexivity. }
    destruct M as (s3 & E3 & K3 & O3 & D3). pose proof (keeps_grows _ _ K3) as G3.
    set (ext := (match an with Some g => [("Angular", g)] | None => [] end) ++ (match de with Some g => [("Derivative", g)] | None => [] end)).
    assert (Hext : forall k dir, In (k, dir) ext <-> (k = "Angular" /\ an = Some dir) \/ (k = "Derivative" /\ de = Some dir)).
    { intros k dir. unfold ext. rewrite in_app_iff. split.
      - intros [H|H]; [left; destruct an as [g|]|right; destruct de as [h|]]; try (destruct H; fail); destruct H as [X|[]]; injection X as <- <-; split; reflexivity.
      - intros [[-> ->]|[-> ->]]; [left|right]; left; reflexivity. }
    assert (G23 : grows s s3) by (eapply grows_trans; eassumption).
    assert (Ot3 : forall k, In k ["Angular"; "Derivative"] -> llookup s3 (rd ++ [k]) = llookup s (rd ++ [k])).
    { intros k Hi. rewrite O3; [apply Ot|]; cbn in Hi; intros X; try (apply app_inv_head in X; injection X as X); intuition (subst; discriminate). }
    assert (R3 : real s3 rd) by (eapply real_grows; eassumption).
    destruct (C94_linked rd true false Hn Nc ext s3) as (s4 & E4 & A4 & _ & O4 & U4 & K4).
    { exact R3. } { eapply real_grows; eassumption. }
    { unfold ext. destruct an, de; cbn; repeat constructor; cbn; intuition discriminate. }
    { intros k dir Hi. apply Hext in Hi. destruct Hi as [[-> Hx]|[-> Hx]].
      - destruct (Han dir Hx) as (E0 & p & Hp). split; [cbn; tauto|]. split; [|left; reflexivity]. right. split; [rewrite Ot3 by (cbn; tauto); exact E0|exists p; eapply leads_grows; eassumption].
      - destruct (Hde dir Hx) as (E0 & p & Hp). split; [cbn; tauto|]. split; [|left; reflexivity]. right. split; [rewrite Ot3 by (cbn; tauto); exact E0|exists p; eapply leads_grows; eassumption]. }
    { discriminate. }
    exists s4. split; [|split; [|split; [|split]]].
    - unfold prepare. cbn [a_files a_data a_workdir a_power a_angular a_derivative]. rewrite Ef. cbn [rbind]. rewrite Er. cbn [rbind]. rewrite Ep.
      unfold lmkdirs. cbn [g_abs g_parts]. rewrite (mkdirs_there s rd [] Hn Hr). cbn [sbind]. rewrite E2. cbn [sbind]. unfold g_sub. cbn [g_abs g_parts]. rewrite E3. cbn [sbind].
      fold ext. rewrite E4. reflexivity.
    - intros n g c Hi N1 N2 Sc. specialize (V2 n g c Hi N1 N2 Sc). revert V2. unfold input_path, input_table.
      pose proof (keeps_trans _ _ _ K3 K4) as K.
      destruct (lread L cwd s2 (g_sub (mkG true rd) ["input_files_dict.json"])) as [c0|e] eqn:El; cbn [rbind]; [|discriminate].
      rewrite (read_keeps L cwd _ _ _ _ K El). cbn [rbind]. destruct c0 as [t0|p0|d0]; cbn [rbind]; try discriminate.
      destruct (dget_str d0 n) as [g0|e]; cbn [rbind]; [|discriminate]. apply read_keeps. exact K.
    - intros Hp. unfold lisdir. assert (Ed : llookup s4 (rd ++ ["PowerSpectrum"]) = Some LDir) by (apply K4, D3, Hp).
      rewrite (locate_real L cwd s4 rd "PowerSpectrum" Hn Gp (real_grows _ _ _ (keeps_grows _ _ K4) R3)), Ed, Ed. reflexivity.
    - intros g p Hg Hp. destruct (Han g Hg) as (E0 & _). apply (proj2 (A4 "Angular" g (proj2 (Hext _ _) (or_introl (conj eq_refl Hg))))).
      + rewrite Ot3 by (cbn; tauto). exact E0.
      + eapply leads_grows; eassumption.
    - intros g p Hg Hp. destruct (Hde g Hg) as (E0 & _). apply (proj2 (A4 "Derivative" g (proj2 (Hext _ _) (or_intror (conj eq_refl Hg))))).
      + rewrite Ot3 by (cbn; tauto). exact E0.
      + eapply leads_grows; eassumption.
  Qed.

  (** An external directory that does not exist is an error. *)
  Theorem C94_missing_directory s rd k dir r relative delta : lexists L cwd s (g_sub rd [k]) = false -> lexists (C := content) L cwd s dir = false ->
    link_each L cwd rd relative delta ((k, dir) :: r) s = (s, Err EFileNotFound).
  Proof. intros E1 E2. cbn [link_each]. rewrite E1. unfold create_symlink. rewrite E2. reflexivity. Qed.
End Prep.

(** ** Where the claim is false of the code *)
Section Wit.
  Notation st := (lfs (content string nat)).
  (** An earlier run /old with spectra, the working directory /w and in it the
      new run directory; /v is a link to /w/run. *)
  Definition world : st := [(["old"], LDir); (["old"; "Angular"], LDir); (["w"], LDir); (["w"; "run"], LDir); (["v"], LLink (mkG true ["w"; "run"]));
    (["w"; "ext"], LDir); (["w"; "ext"; "Angular"], LDir)].
  (** The noisy spectra of the other run are missing: the call fails, having
      linked Angular; calling it again succeeds without them. *)
  Theorem C94_retry_refuted : exists s1, symlink_to_external 40 ["w"] (g ["w"; "run"]) [("Angular", g ["old"; "Angular"])] true true world = (s1, Err EFileNotFound) /\
    symlink_to_external 40 ["w"] (g ["w"; "run"]) [("Angular", g ["old"; "Angular"])] true true s1 = (s1, Ok tt) /\
    lexists 40 ["w"] s1 (g ["w"; "run"; "delta_cls.h5"]) = false.
  Proof. eexists. split; [vm_compute; reflexivity|]. split; vm_compute; reflexivity. Qed.
  (** A relative directory with src_relative_to_rundir=False gives a link that
      leads nowhere, without an error. *)
  Theorem C94_relative_source_refuted : exists s1, lexists 40 ["w"] world (mkG false ["ext"; "Angular"]) = true /\
    symlink_to_external 40 ["w"] (g ["w"; "run"]) [("Angular", mkG false ["ext"; "Angular"])] false false world = (s1, Ok tt) /\
    lexists 40 ["w"] s1 (g ["w"; "run"; "Angular"]) = false.
  Proof. eexists. split; [vm_compute; reflexivity|]. split; vm_compute; reflexivity. Qed.
  (** A run directory reached through a link: the relative path is counted from
      the link's name, the system follows it from the real directory. *)
  Theorem C94_linked_run_directory_refuted : exists s1, lexists 40 ["w"] world (g ["old"; "Angular"]) = true /\ lisdir 40 ["w"] world (g ["v"]) = true /\
    symlink_to_external 40 ["w"] (g ["v"]) [("Angular", g ["old"; "Angular"])] true false world = (s1, Ok tt) /\
    lexists 40 ["w"] s1 (g ["v"; "Angular"]) = false.
  Proof. eexists. split; [vm_compute; reflexivity|]. split; [vm_compute; reflexivity|]. split; vm_compute; reflexivity. Qed.
  Example C94_instance : leads 40 ["w"] world (mkG false ["ext"; "Angular"]) ["w"; "ext"; "Angular"] /\ wanted 40 ["w"] world ["w"; "run"] "Angular" (mkG false ["ext"; "Angular"]) /\
    (let s1 := fst (symlink_to_external 40 ["w"] (g ["w"; "run"]) [("Angular", mkG false ["ext"; "Angular"])] true false world) in
     llookup s1 ["w"; "run"; "Angular"] = Some (LLink (mkG false [".."; "ext"; "Angular"])) /\ locate 40 ["w"] s1 (g ["w"; "run"; "Angular"]) = Ok ["w"; "ext"; "Angular"]).
  Proof.
    assert (H : leads 40 ["w"] world (mkG false ["ext"; "Angular"]) ["w"; "ext"; "Angular"]).
    { split; [repeat constructor; discriminate|]. exists 0. split; [lia|vm_compute; reflexivity]. }
    split; [exact H|]. split; [right; split; [reflexivity|eexists; exact H]|]. split; vm_compute; reflexivity.
  Qed.

  (** prepare_workspace does not link the directory of power spectra it is
      given, and does not make one either: the fiducial power spectrum the
      forecast reads next is not found. *)
  Definition world2 : st := [(["cfg"], LDir); (["cfg"; "f.json"], LFile (CConf "fc")); (["cfg"; "a.json"], LFile (CConf "an")); (["pk"], LDir); (["pk"; "dvar_central_step_0"], LDir);
    (["pk"; "dvar_central_step_0"; "p_mm.h5"], LFile (CConf "pmm"))].
  Definition args (pw : option gpath) : prep_args :=
    mkPrep [("forecast", g ["cfg"; "f.json"]); ("Angular", g ["cfg"; "a.json"])] (g ["cfg"]) (g ["run"]) pw None None.
  Theorem C94_power_spectra_refuted : exists s1, prepare 40 [] (fun _ => Ok 7) (args (Some (g ["pk"]))) world2 = (s1, Ok 7) /\
    lexists 40 [] world2 (g_sub (g ["pk"]) ["dvar_central_step_0"; "p_mm.h5"]) = true /\ lexists 40 [] s1 (g ["run"; "PowerSpectrum"]) = false /\
    lread 40 [] s1 (power_file (g ["run"]) "dvar_central_step_0") = Err EFileNotFound.
  Proof. eexists. split; [vm_compute; reflexivity|]. split; [vm_compute; reflexivity|]. split; vm_compute; reflexivity. Qed.
End Wit.

(** Whatever directory of power spectra is given, prepare_workspace does the
    same: the argument only decides whether PowerSpectrum is created. *)
Theorem C94_power_spectra_ignored {T P} L cwd (pars_of : T -> res P) files data rd g1 g2 an de s :
  prepare L cwd pars_of (mkPrep files data rd (Some g1) an de) s = prepare L cwd pars_of (mkPrep files data rd (Some g2) an de) s.
Proof. reflexivity. Qed.

Print Assumptions C94_unknown_task.
Print Assumptions C94_linked.
Print Assumptions C94_prepared.
Print Assumptions C94_missing_directory.
Print Assumptions C94_retry_refuted.
Print Assumptions C94_relative_source_refuted.
Print Assumptions C94_linked_run_directory_refuted.
Print Assumptions C94_power_spectra_refuted.
Print Assumptions C94_power_spectra_ignored.
