(** Lemmas about the whole stage that makes the noisy spectra. *)
From Verif Require Import Base SortLib StrLib MatInv LinalgModel LinalgLemmas EvalModel EvalSpec EllLemmas CovLemmas CovLemmas2 FrameModel
  NameModel NameLemmas OrdLib FishEval FishEval4 ConfigLemmas DeltaModel DeltaSpec DeltaLemmas DeltaLemmas2 DeltaLemmas3.
From Coq Require Import Field.
Open Scope list_scope.

Section DeltaL4.
  Context {F : Type} {K : Fld F} {O : OFld (F := F)} {SQ : SqrtFld F}.
  Open Scope fld_scope.

  (** ** Entries of the collection under the names of single probes *)
  Lemma auto_entries_other (cl : dcoll F) l : forall e name,
    (forall k r, In (k, r) l -> is_auto_block (deref cl r) = true -> b_name (deref cl r) <> name) ->
    dget String.eqb (auto_entries cl l e) name = dget String.eqb e name.
  Proof.
    induction l as [|[k r] l IH]; intros e name H; [reflexivity|]. unfold auto_entries. cbn [fold_left fst snd].
    change (dget String.eqb (auto_entries cl l (if is_auto_block (deref cl r) then dset String.eqb e (b_name (deref cl r)) r else e)) name = dget String.eqb e name).
    rewrite IH by (intros k' r' Hin; apply (H k'); right; exact Hin).
    destruct (is_auto_block (deref cl r)) eqn:E; [|reflexivity]. apply (dget_dset_other _ String.eqb_spec). apply (H k r); [left; reflexivity|exact E].
  Qed.
  Lemma auto_entries_get (cl : dcoll F) l : forall e k r, In (k, r) l -> is_auto_block (deref cl r) = true ->
    (forall k' r', In (k', r') l -> is_auto_block (deref cl r') = true -> b_name (deref cl r') = b_name (deref cl r) -> r' = r) ->
    dget String.eqb (auto_entries cl l e) (b_name (deref cl r)) = Some r.
  Proof.
    induction l as [|[k0 r0] l IH]; intros e k r Hin Ha U; [destruct Hin|]. unfold auto_entries. cbn [fold_left fst snd].
    set (e' := if is_auto_block (deref cl r0) then dset String.eqb e (b_name (deref cl r0)) r0 else e).
    change (dget String.eqb (auto_entries cl l e') (b_name (deref cl r)) = Some r).
    destruct (in_dec Nat.eq_dec r (map snd l)) as [Hr|Hr].
    - apply in_map_iff in Hr. destruct Hr as ([k1 r1] & E & Hin1). cbn in E. subst r1. apply (IH e' k1 r Hin1 Ha).
      intros k' r' H'. apply (U k'). right; exact H'.
    - destruct Hin as [E|Hin]; [|exfalso; apply Hr; apply (in_map snd) in Hin; exact Hin]. injection E as -> ->.
      rewrite auto_entries_other.
      + unfold e'. rewrite Ha. apply (dget_dset_same _ String.eqb_spec).
      + intros k' r' H' Ha' En. apply Hr. rewrite <- (U k' r' (or_intror H') Ha' En). apply (in_map snd) in H'. exact H'.
  Qed.

  Lemma heap_ext (h1 h2 : list (block F)) : length h1 = length h2 -> (forall r, (r < length h1)%nat -> nth r h1 no_block = nth r h2 no_block) -> h1 = h2.
  Proof. intros L H. apply (nth_ext _ _ no_block no_block L H). Qed.
  Lemma coll_eq (c1 c2 : dcoll F) : heap c1 = heap c2 -> singles c1 = singles c2 -> entries c1 = entries c2 -> c1 = c2.
  Proof. destruct c1, c2. cbn. intros -> -> ->. reflexivity. Qed.

  (** Spectra keyed by their own probes. *)
  Definition keyed (cls : dict string (acl F)) : Prop :=
    NoDup (dkeys cls) /\ forall k a, In (k, a) cls -> k = comb_key (a_p1 a) (a_p2 a) /\ has "_" (a_p1 a) = false /\ has "_" (a_p2 a) = false.
  Definition block_name (a : acl F) : string := if String.eqb (a_p1 a) (a_p2 a) then a_p1 a else comb_key (a_p1 a) (a_p2 a).
  Lemma load_keyed cls : keyed cls -> exists c1, load_fiducials cls empty_coll = Ok c1 /\ tidy c1 /\ entries c1 = [] /\ dkeys (singles c1) = dkeys cls /\
    (forall k a, In (k, a) cls -> exists r, In (k, r) (singles c1) /\ deref c1 r = from_cl (block_name a) a) /\
    (forall k r, In (k, r) (singles c1) -> exists a, In (k, a) cls /\ deref c1 r = from_cl (block_name a) a).
  Proof.
    intros [N H]. assert (S : exists c1, load_fiducials cls empty_coll = Ok c1).
    { unfold load_fiducials. generalize (empty_coll (F := F)). clear N. induction cls as [|[k a] cls IH]; intros cl; [eexists; reflexivity|]. cbn [rfold].
      destruct (H k a (or_introl eq_refl)) as (Ek & H1 & H2). unfold load_cl at 1. cbn [fst snd]. rewrite Ek, (comb_probes_key _ _ H1 H2). cbn [rbind].
      apply IH. intros k' a' Hin. apply H. right; exact Hin. }
    destruct S as (c1 & E1). destruct (load_fold cls empty_coll c1 E1 tidy_empty N) as (T & Ee & Ek & _ & L); [intros k _ []|].
    cbn in Ek. exists c1. split; [exact E1|]. split; [exact T|]. split; [exact Ee|]. split; [exact Ek|].
    assert (A : forall k a, In (k, a) cls -> exists r, In (k, r) (singles c1) /\ deref c1 r = from_cl (block_name a) a).
    { intros k a Hin. destruct (L k a Hin) as (r & name & Hr & D & Nm). destruct (H k a Hin) as (Ek' & H1 & H2).
      exists r. split; [exact Hr|]. rewrite D. unfold block_name. rewrite (Nm _ _ Ek' H1 H2), Ek'. reflexivity. }
    split; [exact A|]. intros k r Hin. assert (Hk : In k (dkeys cls)) by (rewrite <- Ek; apply (in_map fst) in Hin; exact Hin).
    apply in_map_iff in Hk. destruct Hk as ([k' a] & E & Hin'). cbn in E. subst k'. exists a. split; [exact Hin'|].
    destruct (A k a Hin') as (r' & Hr' & D). replace r with r'; [exact D|]. destruct T as (Nk & _).
    pose proof (@dget_NoDup_In _ _ String.eqb String.eqb_spec _ _ _ Nk Hin) as G1. pose proof (@dget_NoDup_In _ _ String.eqb String.eqb_spec _ _ _ Nk Hr') as G2. congruence.
  Qed.

  (** ** The steps of the stage *)
  Lemma evaluate_singles_inv fc fs (cl cl' : dcoll F) : evaluate_singles fc fs cl = Ok cl' -> tidy cl ->
    tidy cl' /\ singles cl' = singles cl /\ length (heap cl') = length (heap cl) /\
    (forall k r, In (k, r) (singles cl) -> evaluate fc fs (deref cl r) = Ok (deref cl' r)) /\
    (forall r, ~ In r (map snd (singles cl)) -> deref cl' r = deref cl r) /\
    entries cl' = auto_entries cl (singles cl) (entries cl).
  Proof.
    intros H (T1 & T2 & T3). destruct (evaluate_fold fc fs (singles cl) cl cl' H T2 T3) as (A & B & C & D & E).
    split; [|auto]. unfold tidy. rewrite A, B. auto.
  Qed.
  Lemma load_noise_inv nf (cl cl' : dcoll F) : load_noise (Some nf) cl = Ok cl' -> tidy cl ->
    tidy cl' /\ singles cl' = singles cl /\ length (heap cl') = length (heap cl) /\ entries cl' = entries cl /\
    (forall k r, In (k, r) (singles cl) -> exists a b v, dget String.eqb nf k = Some (a, b, v) /\
       deref cl' r = b_set_noise (deref cl r) (crepeat a b (length (b_ells (deref cl r))) v)) /\
    (forall r, ~ In r (map snd (singles cl)) -> deref cl' r = deref cl r).
  Proof.
    intros H (T1 & T2 & T3). destruct (load_noise_fold nf (singles cl) cl cl' H T2 T3) as (A & B & C & D & E).
    split; [|auto]. unfold tidy. rewrite A, B. auto.
  Qed.
  Lemma load_noise_twice nf (cl cl' : dcoll F) : load_noise (Some nf) cl = Ok cl' -> tidy cl -> load_noise (Some nf) cl' = Ok cl'.
  Proof.
    intros H T. destruct (load_noise_inv nf cl cl' H T) as (T' & Es & Eh & Ee & D & N).
    destruct (load_noise_fold_ok nf (singles cl') cl') as (cl2 & E2).
    { intros k Hk. rewrite Es in Hk. apply in_map_iff in Hk. destruct Hk as ([k' r] & Ek & Hin). cbn in Ek. subst k'. destruct (D k r Hin) as (a & b & v & G & _). eauto. }
    change (load_noise (Some nf) cl' = Ok cl2) in E2. rewrite E2. f_equal. destruct (load_noise_inv nf cl' cl2 E2 T') as (_ & Es2 & Eh2 & Ee2 & D2 & N2).
    apply coll_eq; [|exact Es2|exact Ee2]. apply heap_ext; [exact Eh2|]. intros r Hr. change (deref cl2 r = deref cl' r).
    destruct (in_dec Nat.eq_dec r (map snd (singles cl'))) as [Hin|Hn]; [|apply N2; exact Hn].
    apply in_map_iff in Hin. destruct Hin as ([k r'] & E & Hin). cbn in E. subst r'. destruct (D2 k r Hin) as (a & b & v & G & ->).
    rewrite Es in Hin. destruct (D k r Hin) as (a' & b' & v' & G' & ->). rewrite G in G'. injection G' as -> -> ->. cbn [b_ells b_set_noise]. reflexivity.
  Qed.

  Lemma evaluate_fc fc fc' fs (b : block F) : eff fc fs = eff fc' fs -> b_noise b <> None -> evaluate fc fs b = evaluate fc' fs b.
  Proof.
    intros E N. unfold evaluate. destruct (b_noise b) as [n|]; [|congruence]. cbn [rbind]. cbv zeta. unfold eff in E. rewrite E. reflexivity.
  Qed.
  Lemma evaluate_set fc fc' fs (b b' : block F) n : b_noise b = None -> evaluate fc fs b = Ok b' -> b_noise b' = Some n -> eff fc fs = eff fc' fs ->
    evaluate fc' fs (b_set_noise b n) = Ok b'.
  Proof.
    intros Nn E Bn Ef. unfold evaluate in E. rewrite Nn in E. destruct (compute_noise fc b) as [n0|] eqn:Ec; [|discriminate]. cbn [rbind] in E. cbv zeta in E.
    destruct (b_widths (b_set_noise b n0)) as [ws|] eqn:Ew; [|discriminate]. destruct (b_c (b_set_noise b n0)) as [c|] eqn:Ecc; [|discriminate].
    change (b_noise (b_set_noise b n0)) with (Some n0) in E. cbv iota in E. destruct (cop fadd c n0) as [s|] eqn:Es; [|discriminate]. cbn [rbind] in E.
    change (match fs with Some x => x | None => fc_fsky fc end) with (eff fc fs) in E.
    destruct (cop fmul (norm_cube (eff fc fs) ws) s) as [d|] eqn:Ed; [|discriminate]. cbn [rbind] in E.
    assert (En : n0 = n).
    { destruct (is_auto_block (b_set_delta (b_set_noise b n0) d)) eqn:Ea.
      - destruct (cube_inv d); [|discriminate]. cbn [rbind] in E. injection E as <-. cbn in Bn. congruence.
      - injection E as <-. cbn in Bn. congruence. }
    subst n0. unfold evaluate. cbn [b_noise b_set_noise rbind]. cbv zeta. fold (b_set_noise b n). rewrite Ew, Ecc. 
    change (match fs with Some x => x | None => fc_fsky fc' end) with (eff fc' fs). rewrite <- Ef.
    change (b_noise (b_set_noise b n)) with (Some n). cbv iota. rewrite Es. cbn [rbind]. rewrite Ed. cbn [rbind]. exact E.
  Qed.
  Lemma noise_repeats fc (b : block F) n c : b_c b = Some c -> compute_noise fc b = Ok n -> exists m, n = crepeat (cnr n) (cnc n) (length (crows c)) m.
  Proof.
    intros Ec H. unfold compute_noise in H. rewrite Ec in H. destruct (negb (oseqb (b_p1 b) (b_p2 b))); [injection H as <-; eexists; reflexivity|].
    destruct (b_p1 b); [|discriminate]. destruct (dget_str (fc_probes fc) _); [|discriminate]. cbn [rbind] in H. destruct (noise_factor _); [|discriminate]. cbn [rbind] in H.
    destruct (surface _); [|discriminate]. cbn [rbind] in H. cbv zeta in H. destruct (String.eqb _ _ && _).
    - destruct (dget_str (fc_probes fc) _); [|discriminate]. cbn [rbind] in H. destruct (total_number _ _); [|discriminate]. cbn [rbind] in H.
      destruct (total_number _ _); [|discriminate]. cbn [rbind] in H. injection H as <-. eexists; reflexivity.
    - injection H as <-. eexists; reflexivity.
  Qed.

  Lemma add_fold_names md (ld : dict string (list F)) gs : forall cl cl' : dcoll F, rfold (add_xc md ld) gs cl = Ok cl' -> 
    singles cl' = singles cl /\ (forall r, (r < length (heap cl))%nat -> deref cl' r = deref cl r) /\ (length (heap cl) <= length (heap cl'))%nat.
  Proof.
    induction gs as [|g gs IH]; intros cl cl' H; [injection H as <-; auto|]. cbn [rfold] in H. unfold add_xc at 1 in H.
    destruct (xc_matrix g md ld) as [[ells m]|]; [|discriminate]. cbn [rbind] in H. destruct (new_block _ _ _) as [b|]; [|discriminate]. cbn [rbind] in H.
    destruct (IH _ _ H) as (A & B & C). cbn [singles heap] in *. rewrite app_length in *. cbn in C. split; [exact A|]. split; [|lia].
    intros r Hr. rewrite B by (cbn; lia). unfold deref. cbn [heap]. apply app_nth1. exact Hr.
  Qed.
  Lemma build_xc_keys fc fc' (cl : dcoll F) : dkeys (fc_probes fc) = dkeys (fc_probes fc') -> build_xc fc cl = build_xc fc' cl.
  Proof. intros E. unfold build_xc. rewrite E. reflexivity. Qed.

  (** A stage without a noise file, taken apart. *)
  Lemma stage_inv fc cls (cl : dcoll F) : keyed cls -> compute_delta_cls fc None cls = Ok cl ->
    exists c1 c4, load_fiducials cls empty_coll = Ok c1 /\ tidy c1 /\ tidy c4 /\ evaluate_singles fc None c1 = Ok c4 /\ build_xc fc c4 = Ok cl /\
      singles c4 = singles c1 /\ singles cl = singles c1 /\ length (heap c4) = length (heap c1) /\
      (forall r, In r (map snd (singles c1)) -> deref cl r = deref c4 r) /\
      forall k r, In (k, r) (singles c1) -> exists a, In (k, a) cls /\ deref c1 r = from_cl (block_name a) a /\ evaluate fc None (from_cl (block_name a) a) = Ok (deref cl r).
  Proof.
    intros Ky H. destruct (load_keyed cls Ky) as (c1 & E1 & T & Ee & Ek & A & B). unfold compute_delta_cls in H. rewrite E1 in H. cbn [rbind] in H.
    destruct (evaluate_singles fc None c1) as [c4|] eqn:E4; [|discriminate]. cbn [rbind] in H. exists c1, c4.
    destruct (evaluate_singles_inv _ _ _ _ E4 T) as (T4 & S4 & H4 & V4 & _ & _). unfold build_xc in H.
    destruct (add_fold_names _ _ _ _ _ H) as (X1 & X2 & X3).
    assert (Dr : forall r, In r (map snd (singles c1)) -> deref cl r = deref c4 r).
    { intros r Hr. apply X2. rewrite H4. destruct T as (_ & _ & T3). apply T3. exact Hr. }
    repeat split; auto; try congruence; try (apply T); try (apply T4).
    intros k r Hin. destruct (B k r Hin) as (a & Ha & D). exists a. split; [exact Ha|]. split; [exact D|]. rewrite <- D, (V4 k r Hin). f_equal. symmetry. apply Dr.
    apply (in_map snd) in Hin. exact Hin.
  Qed.

  Lemma positions_In (nb : string -> nat) probes p i : In (p, i) (positions nb probes) <-> In p probes /\ (i < nb p)%nat.
  Proof.
    unfold positions. rewrite in_flat_map. split.
    - intros (q & Hq & H). apply in_map_iff in H. destruct H as (j & E & Hj). injection E as -> ->. apply in_seq in Hj. split; [exact Hq|lia].
    - intros [Hp Hi]. exists p. split; [exact Hp|]. apply in_map. apply in_seq. lia.
  Qed.
  Lemma positions_NoDup (nb : string -> nat) probes : NoDup probes -> NoDup (positions nb probes).
  Proof.
    unfold positions. induction probes as [|p ps IH]; intros N; [constructor|]. inversion N as [|? ? Np N']; subst. cbn [flat_map]. apply NoDup_app_intro.
    - apply FinFun.Injective_map_NoDup; [intros a b E; congruence|apply seq_NoDup].
    - apply IH. exact N'.
    - intros [q i] H1 H2. apply in_map_iff in H1. destruct H1 as (j & E & _). injection E as -> ->. apply (positions_In nb ps) in H2. tauto.
  Qed.
End DeltaL4.
