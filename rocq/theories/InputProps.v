(** C117: the shot noise of the Fisher stage. *)
From Verif Require Import Base SortLib StrLib MatInv LinalgModel LinalgLemmas EvalModel EvalSpec EllLemmas CovLemmas CovLemmas2 FrameModel
  NameModel NameLemmas OrdLib FishEval FishEval4 ConfigLemmas DeltaModel DeltaSpec DeltaLemmas DeltaLemmas2 DeltaLemmas3 DeltaLemmas4 DeltaProps DeltaProps2 DeltaProps3 InputModel.
From Coq Require Import Permutation Sorted Field.
Open Scope list_scope.

Section C117.
  Context {F : Type} {K : Fld F} {O : OFld (F := F)} {SQ : SqrtFld F}.
  Open Scope fld_scope.

  Lemma dget_perm {V} (d d' : dict string V) k : Permutation d d' -> NoDup (dkeys d) -> dget String.eqb d k = dget String.eqb d' k.
  Proof.
    intros P N. assert (N' : NoDup (dkeys d')) by (apply (Permutation_NoDup (Permutation_map fst P)); exact N).
    destruct (dget String.eqb d k) as [v|] eqn:E.
    - symmetry. apply (dget_NoDup_In _ String.eqb_spec); [exact N'|]. apply (Permutation_in _ P). exact (dget_In _ String.eqb_spec _ _ E).
    - destruct (dget String.eqb d' k) as [v|] eqn:E'; [|reflexivity]. exfalso.
      apply (dget_In _ String.eqb_spec) in E'. apply (Permutation_in _ (Permutation_sym P)) in E'.
      apply (@dget_NoDup_In _ _ String.eqb String.eqb_spec _ _ _ N) in E'. congruence.
  Qed.
  Lemma renumber_get {B} (f g : nat -> B) k : forall d n, (forall i, (i < length d)%nat -> f (n + i)%nat = g (snd (nth i d (""%string, 0%nat)))) ->
    option_map f (dget String.eqb (renumber n d) k) = option_map g (dget String.eqb d k).
  Proof.
    unfold renumber. induction d as [|[k0 r0] d IH]; intros n H; [reflexivity|]. cbn [dkeys map length seq combine dget fst].
    destruct (String.eqb k0 k).
    - cbn. f_equal. specialize (H 0%nat). rewrite Nat.add_0_r in H. cbn in H. apply H. lia.
    - apply IH. intros i Hi. specialize (H (S i)). cbn [nth length] in H. rewrite <- H by lia. f_equal. lia.
  Qed.
  Lemma renumber_keys d : forall n, dkeys (renumber n d) = dkeys d.
  Proof. unfold renumber. induction d as [|[k0 r0] d IH]; intros n; [reflexivity|]. cbn. f_equal. apply IH. Qed.
  Lemma renumber_refs d : forall n, map snd (renumber n d) = seq n (length d).
  Proof. unfold renumber. induction d as [|[k0 r0] d IH]; intros n; [reflexivity|]. cbn. f_equal. apply IH. Qed.
  Lemma members_perm d : Permutation (members d) d.
  Proof. apply isort_perm. Qed.

  (** The order of the keys. *)
  Definition in_order (l : list string) : Prop := StronglySorted (fun a b => String.leb a b = true) l.
  Lemma sorted_map (l : dict string nat) : StronglySorted (le (fun a b : string * nat => String.leb (fst a) (fst b))) l -> in_order (dkeys l).
  Proof.
    induction 1 as [|[k r] l S IH Fa]; [constructor|]. cbn. constructor; [exact IH|]. apply Forall_forall. intros k' Hk'. apply in_map_iff in Hk'.
    destruct Hk' as ([k0 r0] & E & Hin). cbn in E. subst k0. rewrite Forall_forall in Fa. exact (Fa _ Hin).
  Qed.
  Lemma members_sorted d : in_order (dkeys (members d)).
  Proof.
    apply sorted_map. apply isort_ssorted; intros [a x] [b y]; cbn.
    - apply String.leb_total.
    - intros [c z]. cbn. apply str_leb_trans.
  Qed.

  Lemma reload_ok (cl : dcoll F) : tidy cl -> NoDup (dkeys (entries cl)) -> entries cl <> [] -> singles cl <> [] ->
    exists c0, reload cl = Ok c0 /\ tidy c0 /\ in_order (dkeys (singles c0)) /\ in_order (dkeys (entries c0)) /\
      Permutation (dkeys (singles c0)) (dkeys (singles cl)) /\ Permutation (dkeys (entries c0)) (dkeys (entries cl)) /\
      (forall k, single c0 k = single cl k) /\ (forall k, entry c0 k = entry cl k) /\
      (forall r, In r (map snd (entries c0)) -> ~ In r (map snd (singles c0)) /\ (r < length (heap c0))%nat) /\ NoDup (map snd (entries c0)).
  Proof.
    intros (T1 & T2 & T3) Ne He Hs. unfold reload. destruct (entries cl) as [|e0 e1] eqn:Ee; [congruence|]. destruct (singles cl) as [|s0 s1] eqn:Es; [congruence|].
    rewrite <- Ee, <- Es in *. clear e0 e1 s0 s1 Ee Es. cbv zeta. set (e := members (entries cl)). set (s := members (singles cl)).
    set (h := map (fun kr => deref cl (snd kr)) e ++ map (fun kr => deref cl (snd kr)) s). eexists. split; [reflexivity|].
    assert (Ns : NoDup (dkeys s)) by (apply (Permutation_NoDup (Permutation_sym (Permutation_map fst (members_perm _)))); exact T1).
    assert (Lh : length h = (length e + length s)%nat) by (unfold h; rewrite app_length, !map_length; reflexivity).
    assert (D : deref cl 0%nat = deref cl 0%nat) by reflexivity.
    split; [|split; [|split; [|split; [|split; [|split; [|split; [|split]]]]]]]; cbn [singles entries heap].
    - unfold tidy. cbn [singles heap]. rewrite renumber_keys, renumber_refs. split; [exact Ns|]. split; [apply seq_NoDup|]. intros r Hr. apply in_seq in Hr. lia.
    - rewrite renumber_keys. apply members_sorted.
    - rewrite renumber_keys. apply members_sorted.
    - rewrite renumber_keys. apply Permutation_map. apply members_perm.
    - rewrite renumber_keys. apply Permutation_map. apply members_perm.
    - intros k. unfold single. cbn [singles]. rewrite (renumber_get _ (deref cl) k s (length e)).
      + f_equal. apply dget_perm; [apply members_perm|exact Ns].
      + intros i Hi. unfold deref at 1. cbn [heap]. unfold h. rewrite app_nth2 by (rewrite map_length; lia). rewrite map_length.
        replace (length e + i - length e)%nat with i by lia. rewrite nth_indep with (d' := (fun kr => deref cl (snd kr)) (""%string, 0%nat)) by (rewrite map_length; exact Hi).
        apply (map_nth (fun kr : string * nat => deref cl (snd kr))).
    - intros k. unfold entry. cbn [entries]. rewrite (renumber_get _ (deref cl) k e 0%nat).
      + f_equal. apply dget_perm; [apply members_perm|]. apply (Permutation_NoDup (Permutation_sym (Permutation_map fst (members_perm _)))). exact Ne.
      + intros i Hi. unfold deref at 1. cbn [heap Nat.add]. unfold h. rewrite app_nth1 by (rewrite map_length; lia).
        rewrite nth_indep with (d' := (fun kr => deref cl (snd kr)) (""%string, 0%nat)) by (rewrite map_length; exact Hi).
        apply (map_nth (fun kr : string * nat => deref cl (snd kr))).
    - rewrite !renumber_refs. intros r Hr. apply in_seq in Hr. split; [|lia]. intros H. apply in_seq in H. lia.
    - rewrite renumber_refs. apply seq_NoDup.
  Qed.

  (** Replacing the noise of a block that was evaluated before. *)
  Lemma evaluate_replace fc f1 f2 fs (b0 b b1 : block F) n : eff fc f1 = eff fc f2 ->
    b_name b = b_name b0 -> b_p1 b = b_p1 b0 -> b_p2 b = b_p2 b0 -> b_c b = b_c b0 -> b_ells b = b_ells b0 -> b_widths b = b_widths b0 -> b_inv b = b_inv b0 ->
    evaluate fc fs b = Ok b1 -> evaluate fc f1 (b_set_noise b1 n) = evaluate fc f2 (b_set_noise b0 n).
  Proof.
    intros Ef E1 E2 E3 E4 E5 E6 E7 H. destruct (evaluate_noise _ _ _ _ H) as (m & _ & _ & A1 & A2 & A3 & A4 & A5 & A6 & ws & c & s & d & W & C & _ & _ & _ & I).
    unfold evaluate. cbn [b_noise b_set_noise rbind b_widths b_c]. rewrite A6, A4, <- E4, <- E6, W, C.
    change (match f1 with Some x => x | None => fc_fsky fc end) with (eff fc f1). change (match f2 with Some x => x | None => fc_fsky fc end) with (eff fc f2). rewrite Ef.
    destruct (cop fadd c n) as [s'|]; [|reflexivity]. cbn [rbind]. destruct (cop fmul _ s') as [d'|]; [|reflexivity]. cbn [rbind]. cbv zeta.
    unfold is_auto_block in *. cbn [b_p1 b_p2 b_set_delta b_set_noise]. unfold is_auto_block in I. rewrite A2, A3, E2, E3. rewrite E2, E3 in I.
    unfold b_set_inv, b_set_delta, b_set_noise. cbn. rewrite A1, A2, A3, A4, A5, A6, E1, E2, E3, E4, E5, E6.
    destruct (match b_p1 b0 with Some p => match b_p2 b0 with Some q => String.eqb p q | None => false end | None => false end).
    - destruct (cube_inv d'); reflexivity.
    - rewrite I, E7. reflexivity.
  Qed.

  (** The block a stage evaluates for a spectrum. *)
  Definition noisy (noise : option (noise_file F)) (k : string) (a : acl F) : option (block F) :=
    match noise with
    | None => Some (from_cl (block_name a) a)
    | Some nf => match dget String.eqb nf k with
                 | None => None
                 | Some (r, c, v) => Some (b_set_noise (from_cl (block_name a) a) (crepeat r c (length (a_ells a)) v))
                 end
    end.
  Lemma auto_entries_nodup (cl : dcoll F) l : forall e, NoDup (dkeys e) -> NoDup (dkeys (auto_entries cl l e)).
  Proof.
    induction l as [|[k r] l IH]; intros e N; [exact N|]. unfold auto_entries. cbn [fold_left]. apply IH.
    destruct (is_auto_block _); [apply (NoDup_dset _ String.eqb_spec); exact N|exact N].
  Qed.
  Lemma add_fold_nodup md (ld : dict string (list F)) gs : forall cl cl' : dcoll F, rfold (add_xc md ld) gs cl = Ok cl' -> NoDup (dkeys (entries cl)) -> NoDup (dkeys (entries cl')).
  Proof.
    induction gs as [|g gs IH]; intros cl cl' H N; [injection H as <-; exact N|]. cbn [rfold] in H. unfold add_xc at 1 in H.
    destruct (xc_matrix g md ld) as [[ells m]|]; [|discriminate]. cbn [rbind] in H. destruct (new_block _ _ _) as [b|]; [|discriminate]. cbn [rbind] in H.
    apply (IH _ _ H). cbn [entries]. apply (NoDup_dset _ String.eqb_spec). exact N.
  Qed.
  Lemma single_In (cl : dcoll F) k r : NoDup (dkeys (singles cl)) -> In (k, r) (singles cl) -> single cl k = Some (deref cl r).
  Proof. intros N I. unfold single. rewrite (@dget_NoDup_In _ _ String.eqb String.eqb_spec _ _ _ N I). reflexivity. Qed.
  Lemma stage_any fc noise cls (cl : dcoll F) : keyed cls -> compute_delta_cls fc (option_map Some noise) cls = Ok cl ->
    tidy cl /\ NoDup (dkeys (entries cl)) /\ dkeys (singles cl) = dkeys cls /\
    forall k a, In (k, a) cls -> exists b0 b, noisy noise k a = Some b0 /\ evaluate fc None b0 = Ok b /\ single cl k = Some b.
  Proof.
    intros Ky H. destruct (load_keyed cls Ky) as (c1 & E1 & T1 & Ee & Ek & A & B). unfold compute_delta_cls in H. rewrite E1 in H. cbn [rbind] in H.
    assert (G : exists c3 c4, tidy c3 /\ singles c3 = singles c1 /\ entries c3 = entries c1 /\ evaluate_singles fc None c3 = Ok c4 /\ build_xc fc c4 = Ok cl /\
              forall k r a, In (k, r) (singles c1) -> In (k, a) cls -> noisy noise k a = Some (deref c3 r)).
    { assert (Fr : forall k r a, In (k, r) (singles c1) -> In (k, a) cls -> deref c1 r = from_cl (block_name a) a).
      { intros k r a Hr Ha. destruct (B k r Hr) as (a' & Ha' & D). destruct Ky as [N _].
        rewrite D. apply (@dget_NoDup_In _ _ String.eqb String.eqb_spec _ _ _ N) in Ha. apply (@dget_NoDup_In _ _ String.eqb String.eqb_spec _ _ _ N) in Ha'. congruence. }
      destruct noise as [nf|]; cbn [option_map] in H.
      - destruct (load_noise (Some nf) c1) as [c2|] eqn:E2; [|discriminate]. cbn [rbind] in H. rewrite (load_noise_twice nf c1 c2 E2 T1) in H. cbn [rbind] in H.
        destruct (evaluate_singles fc None c2) as [c4|] eqn:E4; [|discriminate]. cbn [rbind] in H. destruct (load_noise_inv nf c1 c2 E2 T1) as (T2 & S2 & _ & Ee2 & D2 & _).
        exists c2, c4. repeat (split; [assumption|]). intros k r a Hr Ha. destruct (D2 k r Hr) as (x & y & v & G & ->). unfold noisy. rewrite G, (Fr k r a Hr Ha). reflexivity.
      - cbn [rbind] in H. destruct (evaluate_singles fc None c1) as [c4|] eqn:E4; [|discriminate]. cbn [rbind] in H.
        exists c1, c4. repeat (split; [first [assumption|reflexivity]|]). intros k r a Hr Ha. unfold noisy. rewrite (Fr k r a Hr Ha). reflexivity. }
    destruct G as (c3 & c4 & T3 & S3 & Ee3 & E4 & Ex & Q). destruct (evaluate_singles_inv _ _ _ _ E4 T3) as (T4 & S4 & H4 & V4 & _ & Ent).
    unfold build_xc in Ex. destruct (add_fold_names _ _ _ _ _ Ex) as (X1 & X2 & X3).
    assert (Tc : tidy cl). { destruct T4 as (U1 & U2 & U3). unfold tidy. rewrite X1. repeat split; auto. intros r Hr. apply U3 in Hr. lia. }
    split; [exact Tc|]. split; [|split].
    - apply (add_fold_nodup _ _ _ _ _ Ex). rewrite Ent. apply auto_entries_nodup. rewrite Ee3, Ee. constructor.
    - rewrite X1, S4, S3. exact Ek.
    - intros k a Ha. destruct (A k a Ha) as (r & Hr & _). exists (deref c3 r), (deref cl r). split; [exact (Q k r a Hr Ha)|].
      rewrite <- S3 in Hr. assert (Hr4 : In (k, r) (singles c4)) by (rewrite S4; exact Hr). split.
      + rewrite (V4 k r Hr). f_equal. symmetry. apply X2. destruct T4 as (_ & _ & U3). apply U3. apply (in_map snd) in Hr4. exact Hr4.
      + apply single_In; [apply Tc|]. rewrite X1. exact Hr4.
  Qed.

  (** ** C117 *)
  (** Without a shot-noise file the stage uses the saved spectra and matrices. *)
  Theorem C117_saved fc (cl : dcoll F) : tidy cl -> NoDup (dkeys (entries cl)) -> entries cl <> [] -> singles cl <> [] ->
    exists cl', prepare fc None None cl = Ok cl' /\ (forall k, single cl' k = single cl k) /\ (forall k, entry cl' k = entry cl k) /\
      Permutation (dkeys (singles cl')) (dkeys (singles cl)) /\ Permutation (dkeys (entries cl')) (dkeys (entries cl)) /\
      in_order (dkeys (singles cl')) /\ in_order (dkeys (entries cl')).
  Proof.
    intros T N He Hs. destruct (reload_ok cl T N He Hs) as (c0 & E0 & _ & S1 & S2 & P1 & P2 & A & B & _). exists c0. unfold prepare. rewrite E0. cbn [rbind]. auto 10.
  Qed.

  (** The file used: the argument before the one of the configuration. *)
  Definition chosen (arg cfg : option (option (noise_file F))) (nf : noise_file F) : Prop := arg = Some (Some nf) \/ (arg = None /\ cfg = Some (Some nf)).

  Lemma prepare_start fc noise arg cfg nf cls (cl : dcoll F) : keyed cls -> compute_delta_cls fc (option_map Some noise) cls = Ok cl -> entries cl <> [] -> cls <> [] -> chosen arg cfg nf ->
    exists c0, prepare fc arg cfg cl = (c1 <- load_noise (Some nf) c0 ;; evaluate_singles fc (Some (fc_fsky fc)) c1) /\ tidy c0 /\
      Permutation (dkeys (singles c0)) (dkeys cls) /\ (forall k, single c0 k = single cl k) /\ (forall k, entry c0 k = entry cl k) /\
      (forall r, In r (map snd (entries c0)) -> ~ In r (map snd (singles c0)) /\ (r < length (heap c0))%nat) /\
      (forall k r, In (k, r) (singles c0) -> exists a, In (k, a) cls) /\
      forall c1 k r a, load_noise (Some nf) c0 = Ok c1 -> In (k, r) (singles c0) -> In (k, a) cls -> exists b0, noisy (Some nf) k a = Some b0 /\ evaluate fc (Some (fc_fsky fc)) (deref c1 r) = evaluate fc None b0.
  Proof.
    intros Ky H He Hc Ch. destruct (stage_any fc noise cls cl Ky H) as (T & N & Ks & V).
    assert (Hs : singles cl <> []) by (intros E; rewrite E in Ks; destruct cls; [congruence|discriminate]).
    destruct (reload_ok cl T N He Hs) as (c0 & E0 & T0 & _ & _ & P1 & P2 & Si & En & Dis & Ne0). exists c0.
    split; [unfold prepare; rewrite E0; cbn [rbind]; destruct Ch as [->|[-> ->]]; reflexivity|]. split; [exact T0|]. split; [rewrite <- Ks; exact P1|]. split; [exact Si|]. split; [exact En|]. split; [exact Dis|]. split.
    - intros k r Hin. apply (in_map fst) in Hin. apply (Permutation_in _ P1) in Hin. rewrite Ks in Hin. apply in_map_iff in Hin. destruct Hin as ([k' a] & E & Hin). cbn in E. subst k'. eauto.
    - intros c1 k r a E1 Hr Ha. destruct (load_noise_inv nf c0 c1 E1 T0) as (T1 & S1 & H1 & Ee1 & D1 & N1).
      destruct (D1 k r Hr) as (x & y & v & G & ->). unfold noisy. rewrite G. eexists. split; [reflexivity|].
      destruct (V k a Ha) as (o0 & o & No & Eo & So). pose proof (single_In c0 k r (proj1 T0) Hr) as S0. rewrite Si, So in S0. injection S0 as <-.
      assert (Sh : b_name o0 = block_name a /\ b_p1 o0 = Some (a_p1 a) /\ b_p2 o0 = Some (a_p2 a) /\ b_c o0 = Some (a_c a) /\ b_ells o0 = a_ells a /\ b_widths o0 = Some (a_widths a) /\ b_inv o0 = None).
      { unfold noisy in No. destruct noise as [nf0|]; [destruct (dget String.eqb nf0 k) as [[[? ?] ?]|]; [|discriminate]|]; injection No as <-; cbn; auto 10. }
      destruct Sh as (Z1 & Z2 & Z3 & Z4 & Z5 & Z6 & Z7).
      assert (Le : b_ells o = a_ells a) by (destruct (evaluate_noise _ _ _ _ Eo) as (? & _ & _ & _ & _ & _ & _ & Q & _); congruence).
      rewrite Le. apply (evaluate_replace fc (Some (fc_fsky fc)) None None (from_cl (block_name a) a) o0 o); auto.
  Qed.
  Lemma prepare_inv fc noise arg cfg nf cls (cl cl' : dcoll F) : keyed cls -> compute_delta_cls fc (option_map Some noise) cls = Ok cl -> entries cl <> [] -> cls <> [] -> chosen arg cfg nf ->
    prepare fc arg cfg cl = Ok cl' -> Permutation (dkeys (singles cl')) (dkeys cls) /\
      (forall k a, In (k, a) cls -> exists b0 b, noisy (Some nf) k a = Some b0 /\ evaluate fc None b0 = Ok b /\ single cl' k = Some b) /\
      (forall k, (forall k' b, single cl k' = Some b -> is_auto_block b = true -> b_name b <> k) -> entry cl' k = entry cl k) /\
      (forall k b, single cl' k = Some b -> is_auto_block b = true -> (forall k' b', single cl' k' = Some b' -> is_auto_block b' = true -> b_name b' = b_name b -> k' = k) -> entry cl' (b_name b) = Some b).
  Proof.
    intros Ky H He Hc Ch Pr. destruct (prepare_start fc noise arg cfg nf cls cl Ky H He Hc Ch) as (c0 & Pf & T0 & P & Si & En & Dis & Key & W). rewrite Pf in Pr.
    destruct (load_noise (Some nf) c0) as [c1|] eqn:E1; [|discriminate]. cbn [rbind] in Pr. destruct (load_noise_inv nf c0 c1 E1 T0) as (T1 & S1 & H1 & Ee1 & D1 & N1).
    destruct (evaluate_singles_inv _ _ _ _ Pr T1) as (T2 & S2 & H2 & V2 & N2 & Ent). split; [rewrite S2, S1; exact P|]. split; [|split].
    - intros k a Ha. assert (Hk : In k (dkeys (singles c0))) by (apply (Permutation_in _ (Permutation_sym P)); apply (in_map fst) in Ha; exact Ha).
      apply in_map_iff in Hk. destruct Hk as ([k' r] & E & Hr). cbn in E. subst k'. destruct (W c1 k r a eq_refl Hr Ha) as (b0 & Nb & Eb). exists b0, (deref cl' r). split; [exact Nb|].
      assert (Hr1 : In (k, r) (singles c1)) by (rewrite S1; exact Hr). rewrite (V2 k r Hr1) in Eb. split; [symmetry; exact Eb|]. apply single_In; [apply T2|]. rewrite S2. exact Hr1.
    - intros k Hk. rewrite <- En. unfold entry. rewrite Ent, Ee1, auto_entries_other.
      + destruct (dget String.eqb (entries c0) k) as [r|] eqn:Er; [|reflexivity]. cbn. f_equal. apply (dget_In _ String.eqb_spec) in Er. apply (in_map snd) in Er. cbn in Er.
        destruct (Dis r Er) as [Dr _]. rewrite N2 by (rewrite S1; exact Dr). apply N1. exact Dr.
      + intros k' r Hin Ha. rewrite S1 in Hin. destruct (D1 k' r Hin) as (x & y & v & G & Dr). rewrite Dr in *. cbn [b_name b_set_noise].
        change (is_auto_block (deref c0 r) = true) in Ha. apply (Hk k'); [|exact Ha]. rewrite <- Si. apply single_In; [apply T0|exact Hin].
    - assert (Sa : forall k r, In (k, r) (singles c1) -> is_auto_block (deref cl' r) = is_auto_block (deref c1 r) /\ b_name (deref cl' r) = b_name (deref c1 r)).
      { intros k r Hin. apply (is_auto_evaluate fc (Some (fc_fsky fc))). exact (V2 k r Hin). }
      intros k b Hb Ha U. unfold single in Hb. destruct (dget String.eqb (singles cl') k) as [r|] eqn:Er; [|discriminate]. cbn in Hb. injection Hb as <-.
      apply (dget_In _ String.eqb_spec) in Er. assert (Er1 : In (k, r) (singles c1)) by (rewrite <- S2; exact Er). destruct (Sa k r Er1) as [Q1 Q2].
      unfold entry. rewrite Ent, Q2. rewrite (auto_entries_get c1 (singles c1) (entries c1) k r Er1); [reflexivity|congruence|].
      intros k' r' Hin' Ha' Nn. destruct (Sa k' r' Hin') as [Q1' Q2']. assert (Hin2 : In (k', r') (singles cl')) by (rewrite S2; exact Hin').
      assert (k' = k) by (apply (U k' (deref cl' r')); [apply single_In; [apply T2|exact Hin2]|congruence|congruence]). subst k'.
      pose proof (@dget_NoDup_In _ _ String.eqb String.eqb_spec _ _ _ (proj1 T2) Er) as G1. pose proof (@dget_NoDup_In _ _ String.eqb String.eqb_spec _ _ _ (proj1 T2) Hin2) as G2. congruence.
  Qed.
  Lemma prepare_ok fc noise arg cfg nf cls (cl : dcoll F) : keyed cls -> compute_delta_cls fc (option_map Some noise) cls = Ok cl -> entries cl <> [] -> cls <> [] -> chosen arg cfg nf ->
    (forall k a, In (k, a) cls -> exists b0 b, noisy (Some nf) k a = Some b0 /\ evaluate fc None b0 = Ok b) -> exists cl', prepare fc arg cfg cl = Ok cl'.
  Proof.
    intros Ky H He Hc Ch Ev. destruct (prepare_start fc noise arg cfg nf cls cl Ky H He Hc Ch) as (c0 & Pf & T0 & P & Si & En & Dis & Key & W). rewrite Pf.
    destruct (load_noise_fold_ok nf (singles c0) c0) as (c1 & E1).
    { intros k Hk. apply in_map_iff in Hk. destruct Hk as ([k' r] & E & Hin). cbn in E. subst k'.
      destruct (Key k r Hin) as (a & Ha). destruct (Ev k a Ha) as (b0 & b & Nb & _). unfold noisy in Nb. destruct (dget String.eqb nf k); [eauto|discriminate]. }
    change (load_noise (Some nf) c0 = Ok c1) in E1. rewrite E1. cbn [rbind]. destruct (load_noise_inv nf c0 c1 E1 T0) as (T1 & S1 & H1 & Ee1 & D1 & N1).
    apply (evaluate_fold_ok fc _ (singles c1) c1); [apply T1|apply T1|]. intros k r Hin. rewrite S1 in Hin. destruct (Key k r Hin) as (a & Ha). destruct (W c1 k r a E1 Hin Ha) as (b0 & Nb & ->).
    destruct (Ev k a Ha) as (b0' & b & Nb' & Eb). exists b. congruence.
  Qed.

  (** With a file, the single spectra are those of a run whose configuration had
      that file from the start: nothing of the noise saved before is left. *)
  Theorem C117_noise fc noise arg cfg nf cls (cl cl2 : dcoll F) : keyed cls -> compute_delta_cls fc (option_map Some noise) cls = Ok cl -> entries cl <> [] -> cls <> [] ->
    chosen arg cfg nf -> compute_delta_cls fc (Some (Some nf)) cls = Ok cl2 ->
    exists cl', prepare fc arg cfg cl = Ok cl' /\ Permutation (dkeys (singles cl')) (dkeys cls) /\ forall k, single cl' k = single cl2 k.
  Proof.
    intros Ky H He Hc Ch H2. destruct (stage_any fc (Some nf) cls cl2 Ky H2) as (T2 & _ & K2 & V2).
    destruct (prepare_ok fc noise arg cfg nf cls cl Ky H He Hc Ch) as (cl' & Ep).
    { intros k a Ha. destruct (V2 k a Ha) as (b0 & b & A & B & _). eauto. }
    destruct (prepare_inv fc noise arg cfg nf cls cl cl' Ky H He Hc Ch Ep) as (P & V & _).
    exists cl'. split; [exact Ep|]. split; [exact P|]. intros k. destruct (in_dec string_dec k (dkeys cls)) as [Hin|Hn].
    - apply in_map_iff in Hin. destruct Hin as ([k' a] & E & Ha). cbn in E. subst k'. destruct (V k a Ha) as (b0 & b & A & B & ->). destruct (V2 k a Ha) as (b0' & b' & A' & B' & ->). congruence.
    - assert (Ab : forall c : dcoll F, ~ In k (dkeys (singles c)) -> single c k = None).
      { intros c Nc. unfold single. destruct (dget String.eqb (singles c) k) as [r|] eqn:E; [|reflexivity]. exfalso. apply Nc. apply (dget_In _ String.eqb_spec) in E. apply (in_map fst) in E. exact E. }
      rewrite !Ab; [reflexivity|rewrite K2; exact Hn|]. intros C. apply Hn. apply (Permutation_in _ P). exact C.
  Qed.

  (** The formula: after the stage the noise of each pair is the array of the
      file, at each multipole, and the noisy spectrum has its sum. *)
  Theorem C117_entries fc noise arg cfg nf cls (cl cl' : dcoll F) : keyed cls -> compute_delta_cls fc (option_map Some noise) cls = Ok cl -> entries cl <> [] -> cls <> [] ->
    chosen arg cfg nf -> prepare fc arg cfg cl = Ok cl' ->
    forall k a, In (k, a) cls -> exists r c v b D, dget String.eqb nf k = Some (r, c, v) /\ single cl' k = Some b /\
      b_p1 b = Some (a_p1 a) /\ b_p2 b = Some (a_p2 a) /\ b_ells b = a_ells a /\ b_widths b = Some (a_widths a) /\ b_c b = Some (a_c a) /\
      b_noise b = Some (crepeat r c (length (a_ells a)) v) /\ b_delta b = Some D /\
      (r = cnr (a_c a) -> c = cnc (a_c a) -> length (a_ells a) = length (crows (a_c a)) -> length (a_widths a) = length (crows (a_c a)) ->
       shape D (length (a_ells a)) r c /\
       forall t i j w x, nth_error (a_widths a) t = Some w -> at3 (a_c a) t i j = Some x -> at3 D t i j = Some (fsqrt (1 / (w * fc_fsky fc)) * (x + v i j))).
  Proof.
    intros Ky H He Hc Ch Pr. destruct (prepare_inv fc noise arg cfg nf cls cl cl' Ky H He Hc Ch Pr) as (P & V & _).
    intros k a Ha. destruct (V k a Ha) as (b0 & b & Nb & Eb & Sb). unfold noisy in Nb. destruct (dget String.eqb nf k) as [[[r c] v]|] eqn:G; [|discriminate]. injection Nb as <-.
    destruct (evaluate_noise _ _ _ _ Eb) as (n & Bn & Hn & A1 & A2 & A3 & A4 & A5 & A6 & ws & c' & s & d & W & C & Es & Ed & Bd & _).
    cbn in Hn, W, C, A2, A3, A4, A5, A6. subst n. injection W as <-. injection C as <-. exists r, c, v, b, d. repeat (split; [first [reflexivity|assumption]|]).
    intros -> -> Ll Lw. assert (Sc : shape (a_c a) (length (a_ells a)) (cnr (a_c a)) (cnc (a_c a))) by (repeat split; auto).
    destruct (cop_same fadd (a_c a) _ _ _ _ Sc (shape_crepeat _ _ _ v)) as (s' & Es' & Ss & Vs). rewrite Es in Es'. injection Es' as <-.
    destruct (cop_norm (eff fc None) (a_widths a) s (length (a_ells a)) _ _ ltac:(congruence) Ss) as (d' & Ed' & Sd & Vd). rewrite Ed in Ed'. injection Ed' as <-.
    split; [exact Sd|]. intros t i j w x Hw Hx. apply (Vd t i j w (x + v i j) Hw). apply Vs; [exact Hx|]. destruct (at3_some _ t i j x Hx) as (L1 & L2 & L3 & _). apply at3_crepeat; congruence.
  Qed.

  (** The collection has the new blocks under the names of the probes. *)
  Theorem C117_probes fc noise arg cfg nf cls (cl cl' : dcoll F) : keyed cls -> compute_delta_cls fc (option_map Some noise) cls = Ok cl -> entries cl <> [] -> cls <> [] ->
    chosen arg cfg nf -> prepare fc arg cfg cl = Ok cl' ->
    forall a, In (comb_key (a_p1 a) (a_p2 a), a) cls -> a_p1 a = a_p2 a -> entry cl' (a_p1 a) = single cl' (comb_key (a_p1 a) (a_p2 a)).
  Proof.
    intros Ky H He Hc Ch Pr a Ha Ea. destruct (prepare_inv fc noise arg cfg nf cls cl cl' Ky H He Hc Ch Pr) as (P & V & _ & Au).
    assert (Nm : forall k a b, In (k, a) cls -> single cl' k = Some b -> b_p1 b = Some (a_p1 a) /\ b_p2 b = Some (a_p2 a) /\ b_name b = block_name a).
    { clear a Ha Ea. intros k a b Ha Sb. destruct (V k a Ha) as (b0 & b' & Nb & Eb & Sb'). rewrite Sb in Sb'. injection Sb' as <-. unfold noisy in Nb. destruct (dget String.eqb nf k) as [[[r c] v]|]; [|discriminate]. injection Nb as <-.
      destruct (evaluate_noise _ _ _ _ Eb) as (n & _ & _ & A1 & A2 & A3 & _). auto. }
    destruct (V _ a Ha) as (_ & b & _ & _ & Sb). destruct (Nm _ a b Ha Sb) as (B1 & B2 & B3).
    assert (Bn : b_name b = a_p1 a) by (rewrite B3; unfold block_name; rewrite Ea, String.eqb_refl; reflexivity). rewrite <- Bn, Sb at 1.
    apply (Au (comb_key (a_p1 a) (a_p2 a)) b Sb); [unfold is_auto_block; rewrite B1, B2, Ea; apply String.eqb_refl|].
    intros k' b' Sb' Ha' Nn. assert (Hk' : In k' (dkeys cls)).
    { apply (Permutation_in _ P). unfold single in Sb'. destruct (dget String.eqb (singles cl') k') eqn:E; [|discriminate]. apply (dget_In _ String.eqb_spec) in E. apply (in_map fst) in E. exact E. }
    apply in_map_iff in Hk'. destruct Hk' as ([k2 a'] & E & Hin). cbn in E. subst k2. destruct (Nm k' a' b' Hin Sb') as (C1 & C2 & C3).
    unfold is_auto_block in Ha'. rewrite C1, C2 in Ha'. rewrite C3, Bn in Nn. unfold block_name in Nn. rewrite Ha' in Nn. apply String.eqb_eq in Ha'.
    destruct Ky as [_ Ky]. destruct (Ky k' a' Hin) as (-> & _). congruence.
  Qed.

  (** The matrices of several probes are left as they were saved, with the noise
      of before, whatever the file has. *)
  Theorem C117_several_refuted fc noise arg cfg nf cls (cl cl' : dcoll F) g : keyed cls -> compute_delta_cls fc (option_map Some noise) cls = Ok cl -> entries cl <> [] -> cls <> [] ->
    chosen arg cfg nf -> prepare fc arg cfg cl = Ok cl' -> (forall k a, In (k, a) cls -> has "+" (a_p1 a) = false) -> (2 <= length g)%nat ->
    entry cl' (xc_name g) = entry cl (xc_name g).
  Proof.
    intros Ky H He Hc Ch Pr Pl Lg. destruct (prepare_inv fc noise arg cfg nf cls cl cl' Ky H He Hc Ch Pr) as (_ & _ & Old & _). apply Old.
    intros k b Sb Ab Nb. destruct (stage_any fc noise cls cl Ky H) as (T & _ & Ks & V).
    assert (Hk : In k (dkeys cls)).
    { rewrite <- Ks. unfold single in Sb. destruct (dget String.eqb (singles cl) k) eqn:E; [|discriminate]. apply (dget_In _ String.eqb_spec) in E. apply (in_map fst) in E. exact E. }
    apply in_map_iff in Hk. destruct Hk as ([k2 a] & E & Hin). cbn in E. subst k2. destruct (V k a Hin) as (b0 & b' & N0 & E0 & S0). rewrite Sb in S0. injection S0 as <-.
    assert (Sh : b_name b0 = block_name a /\ b_p1 b0 = Some (a_p1 a) /\ b_p2 b0 = Some (a_p2 a)).
    { unfold noisy in N0. destruct noise as [nf0|]; [destruct (dget String.eqb nf0 k) as [[[? ?] ?]|]; [|discriminate]|]; injection N0 as <-; cbn; auto. }
    destruct Sh as (Z1 & Z2 & Z3). destruct (evaluate_noise _ _ _ _ E0) as (n & _ & _ & A1 & A2 & A3 & _). unfold is_auto_block in Ab. rewrite A2, A3, Z2, Z3 in Ab.
    rewrite A1, Z1 in Nb. unfold block_name in Nb. rewrite Ab in Nb. pose proof (Pl k a Hin) as Hp. rewrite Nb in Hp. destruct g as [|x [|y g]]; cbn in Lg; [lia|lia|].
    unfold xc_name in Hp. cbn [app] in Hp. change (join "+" (x :: y :: g ++ ["XC"%string])) with (x ++ "+" ++ join "+" (y :: g ++ ["XC"%string]))%string in Hp.
    rewrite !has_app in Hp. cbn [has] in Hp. rewrite Ascii.eqb_refl in Hp. cbn [orb] in Hp. rewrite orb_true_r in Hp. discriminate.
  Qed.

  (** A pair missing in the file, and a file that is not there. *)
  Theorem C117_missing_pair fc noise arg cfg nf cls (cl : dcoll F) k : keyed cls -> compute_delta_cls fc (option_map Some noise) cls = Ok cl -> entries cl <> [] ->
    chosen arg cfg nf -> In k (dkeys cls) -> dget String.eqb nf k = None -> prepare fc arg cfg cl = Err EKeyError.
  Proof.
    intros Ky H He Ch Hk Hn. assert (Hc : cls <> []) by (intros ->; destruct Hk). destruct (prepare_start fc noise arg cfg nf cls cl Ky H He Hc Ch) as (c0 & Pf & T0 & P & _).
    rewrite Pf. assert (E : load_noise (Some nf) c0 = Err EKeyError) by (apply (load_noise_fold_missing nf (singles c0) k c0); [apply (Permutation_in _ (Permutation_sym P)); exact Hk|exact Hn]).
    rewrite E. reflexivity.
  Qed.
  Theorem C117_no_file fc arg cfg (cl : dcoll F) : tidy cl -> NoDup (dkeys (entries cl)) -> entries cl <> [] -> singles cl <> [] ->
    arg = Some None \/ (arg = None /\ cfg = Some None) -> prepare fc arg cfg cl = Err EOSError.
  Proof.
    intros T N He Hs Ch. destruct (reload_ok cl T N He Hs) as (c0 & E0 & _). unfold prepare. rewrite E0. cbn [rbind]. destruct Ch as [->|[-> ->]]; reflexivity.
  Qed.

  (** A collection without an entry, or without a single block, cannot be read back. *)
  Theorem C117_empty_refuted fc arg cfg cl : entries cl = [] \/ singles cl = [] -> prepare fc arg cfg cl = Err EKeyError.
  Proof. intros [E|E]; unfold prepare, reload; rewrite E; [reflexivity|]. destruct (entries cl); reflexivity. Qed.
End C117.

(** A run of voids saved with the noise of one galaxy per unit, then the noise of
    two. *)
Section Example117.
  Context {F : Type} {K : Fld F} {O : OFld (F := F)} {SQ : SqrtFld F}.
  Add Field Ff117 : (fth (F := F)).
  Open Scope fld_scope.
  Definition void_fc (x : F) : fconf F := mkFc [("Void"%string, mkDens true [0; 1] (Some [x]) (fun a b => b - a) None 1)] 1 false 1.
  Definition void_cls : dict string (acl F) := [("Void_Void"%string, ex_acl "Void" "Void" 1 1 1)].
  Lemma void_keyed : keyed void_cls.
  Proof. split; [repeat constructor; intros []|]. intros k a [E|[]]; injection E as <- <-; repeat split. Qed.
  Lemma void_stage x : flt 0 x -> exists cl, compute_delta_cls (void_fc x) None void_cls = Ok cl.
  Proof.
    intros Px. apply C85_stage_succeeds; [exact void_keyed| |intros md ld _ _ _ g []]. intros k a [E|[]]; injection E as <- <-.
    destruct (C83_auto_succeeds (void_fc x) None (from_cl "Void" (ex_acl "Void" "Void" 1 1 1)) "Void" (mkDens true [0; 1] (Some [x]) (fun a b => b - a) None 1) (crepeat 1 1 1 (fun _ _ => 1)) [1] [x] 1) as (b & D & I & Eb & _); auto.
    - constructor; [apply flt_0_1|constructor].
    - apply flt_0_1.
    - intros M [<-|[]]. apply ones_semidefinite.
    - exists b. exact Eb.
  Qed.
  Example C117_instance : exists cl clb nf cl', compute_delta_cls (void_fc 1) None void_cls = Ok cl /\ compute_delta_cls (void_fc (1 + 1)) None void_cls = Ok clb /\ write_noise clb = Ok nf /\
    prepare (void_fc 1) (Some (Some nf)) None cl = Ok cl' /\ single cl' "Void_Void" = single clb "Void_Void" /\ single cl' "Void_Void" <> single cl "Void_Void" /\ entry cl' "Void" = single cl' "Void_Void".
  Proof.
    destruct (void_stage 1 flt_0_1) as (cl & E). destruct (void_stage (1 + 1) two_pos) as (clb & Eb).
    assert (Sg : forall x c, compute_delta_cls (void_fc x) None void_cls = Ok c -> exists b, single c "Void_Void" = Some b /\ b_noise b = Some (crepeat 1 1 1 (fun i j => if Nat.eqb i j then 1 * (1 / nth i [x] 0) else 0)) /\ singles c = [("Void_Void"%string, 0%nat)] /\ b = deref c 0 /\ b_name b = "Void"%string /\ entries c <> []).
    { intros x c Ec. destruct (stage_any (void_fc x) None void_cls c void_keyed Ec) as (T & _ & Ks & V). destruct (V _ _ (or_introl eq_refl)) as (b0 & b & N0 & Ev & Sb). injection N0 as <-.
      exists b. split; [exact Sb|]. destruct (evaluate_noise _ _ _ _ Ev) as (n & Bn & Hn & A1 & _). cbn [b_noise from_cl] in Hn. split; [rewrite Bn; f_equal; injection Hn as <-; reflexivity|].
      unfold compute_delta_cls in Ec. cbn [load_fiducials rfold void_cls] in Ec. change (load_cl empty_coll ("Void_Void"%string, ex_acl "Void" "Void" 1 1 1)) with (Ok (mkColl [from_cl "Void" (ex_acl "Void" "Void" 1 1 (1 : F))] [("Void_Void"%string, 0%nat)] [])) in Ec.
      cbn [rbind] in Ec. unfold evaluate_singles in Ec. cbn [singles rfold] in Ec. unfold evaluate_one in Ec. cbn [snd] in Ec.
      change (deref {| heap := [from_cl "Void" (ex_acl "Void" "Void" 1 1 1)]; singles := [("Void_Void"%string, 0%nat)]; entries := [] |} 0) with (from_cl "Void" (ex_acl "Void" "Void" 1 1 (1 : F))) in Ec.
      change (block_name (ex_acl "Void" "Void" 1 1 1)) with "Void"%string in *. cbn [option_map noisy] in Ev. rewrite Ev in Ec. cbn [rbind] in Ec. cbv zeta in Ec.
      destruct (is_auto_evaluate _ _ _ _ Ev) as [Au _]. change (is_auto_block (from_cl "Void" (ex_acl "Void" "Void" 1 1 1))) with true in Au. rewrite Au in Ec.
      unfold build_xc in Ec. cbn [xc_groups void_fc fc_probes dkeys map length Nat.leb rfold] in Ec. injection Ec as <-. cbn. repeat split; try discriminate. rewrite A1. reflexivity. }
    destruct (Sg _ _ E) as (b1 & S1 & N1 & L1 & D1 & M1 & He1). destruct (Sg _ _ Eb) as (b2 & S2 & N2 & L2 & D2 & M2 & _).
    assert (W : exists nf, write_noise clb = Ok nf). { unfold write_noise. rewrite L2. cbn [rmapM fst snd]. rewrite <- D2, N2. cbn. eexists; reflexivity. }
    destruct W as (nf & W). assert (R : compute_delta_cls (void_fc 1) (Some (Some nf)) void_cls = Ok clb).
    { apply (C84_replay (void_fc (1 + 1)) (void_fc 1) void_cls clb nf void_keyed); auto. intros k a [E0|[]]; injection E0 as <- <-; reflexivity. }
    destruct (C117_noise (void_fc 1) None (Some (Some nf)) None nf void_cls cl clb void_keyed E He1 ltac:(discriminate) (or_introl eq_refl) R) as (cl' & P & _ & Q).
    exists cl, clb, nf, cl'. repeat (split; [assumption|]). split; [apply Q|]. split.
    - rewrite Q, S1, S2. intros C. injection C as ->. rewrite N1 in N2. injection N2 as N2. apply (f_equal (fun m => m 0%nat 0%nat)) in N2. cbn in N2.
      assert (Nz : (1 + 1 : F) <> 0) by (intros Z; pose proof two_pos as T; rewrite Z in T; exact (flt_irrefl _ T)).
      apply (F_1_neq_0 (fth (F := F))). transitivity ((1 + 1) * (1 * (1 / 1)) - (1 + 1) * (1 * (1 / (1 + 1))) : F); [field; repeat split; auto; apply (F_1_neq_0 fth)|].
      rewrite N2. ring.
    - apply (C117_probes (void_fc 1) None (Some (Some nf)) None nf void_cls cl cl' void_keyed E He1 ltac:(discriminate) (or_introl eq_refl) P (ex_acl "Void" "Void" 1 1 1)); [left; reflexivity|reflexivity].
  Qed.
End Example117.

Print Assumptions C117_saved.
Print Assumptions C117_noise.
Print Assumptions C117_entries.
Print Assumptions C117_probes.
Print Assumptions C117_several_refuted.
Print Assumptions C117_missing_pair.
Print Assumptions C117_no_file.
Print Assumptions C117_empty_refuted.
