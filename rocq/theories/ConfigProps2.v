(** C52: the loaded probes and the check of their multipoles. C50: numbers in names of bias parameters. *)
From Coq Require Import Permutation.
From Verif Require Import Base SortLib StrLib OrdLib KeyModel NameModel NameLemmas ParamModel ParamLemmas NumModel EvalModel EvalSpec EllLemmas ConfigModel ConfigLemmas ConfigProps BiasModel WsLemmas.
Open Scope string_scope.
Open Scope list_scope.

Section Cfg.
  Context {F : Type} {K : Fld F} {O : OFld (F := F)}.

  (** A loaded probe is the entry of the file under its alias; lensing has neither a bias nor one to marginalise over. *)
  Theorem C52_loaded (probes : dict string (jprobe F)) d long c : load_probes probes = Ok d -> dget String.eqb d long = Some c ->
    exists i alias j g, nth_error long_names i = Some long /\ nth_error alias_names i = Some alias /\
      dget String.eqb probes alias = Some j /\ j_grid j = Ok g /\
      pc_name c = long /\ pc_ells c = fst g /\ pc_widths c = snd g /\ pc_density c = j_density j /\ pc_specific c = j_specific j /\
      (long = "Lensing" -> pc_bias c = None /\ pc_marg c = false) /\
      (long <> "Lensing" -> pc_bias c = Some (j_bias j) /\ pc_marg c = j_marg j).
  Proof.
    intros E D. destruct (load_spec _ _ E) as (_ & _ & G). destruct (G long c D) as (i & L & -> & P).
    assert (Q : nth_error long_names i = Some (name_of Long i) /\ nth_error alias_names i = Some (name_of Alias i)) by (destruct i as [|[|[|[|i]]]]; try lia; split; reflexivity).
    destruct (load_pcfg_spec _ _ _ L P) as (j & g & Hj & Hg & H1 & H2 & H3 & H4 & H5 & _).
    exists i, (name_of Alias i), j, g. do 9 (split; [solve [apply Q|assumption]|]).
    revert P. unfold load_pcfg.
    assert (Ep : probe_name (name_of Long i) = Ok (mkPn (name_of Long i) Long)) by (destruct i as [|[|[|[|i]]]]; try lia; reflexivity).
    rewrite Ep. cbn [rbind]. rewrite (pn_to_Ok Long Alias i L). cbn [rbind pn_name]. unfold dgetr. rewrite Hj. cbn [rbind]. rewrite Hg. cbn [rbind].
    intros P. injection P as <-. cbn [pc_bias pc_marg]. destruct (String.eqb_spec (name_of Long i) "Lensing") as [Q1|Q1]; split; intros; try congruence; split; reflexivity.
  Qed.

  (** The check accepts exactly the configurations in which any two probes have a multipole in common. *)
  Theorem C52_check (d : dict string (pcfg F)) : NoDup (dkeys d) ->
    (check_multipoles d (combinations d) = Ok tt <->
     forall p q a b, dget String.eqb d p = Some a -> dget String.eqb d q = Some b -> exists x, In x (pc_ells a) /\ In x (pc_ells b)) /\
    (check_multipoles d (combinations d) = Ok tt \/ check_multipoles d (combinations d) = Err EValueError).
  Proof.
    intros N. pose proof (C52_pairs d N) as (P1 & P2 & P3).
    assert (In_d : forall p, In p (dkeys d) -> exists a, dget String.eqb d p = Some a).
    { intros p H. destruct (dget String.eqb d p) as [a|] eqn:D; [eauto|]. exfalso. unfold dkeys in H. apply in_map_iff in H. destruct H as ([p' a] & <- & H). cbn in D. rewrite (dget_NoDup_In _ String.eqb_spec d p' a N H) in D. discriminate. }
    assert (G : forall ps, (forall p q, In (p, q) ps -> In p (dkeys d) /\ In q (dkeys d)) ->
      (check_multipoles d ps = Ok tt <-> forall p q, In (p, q) ps -> forall a b, dget String.eqb d p = Some a -> dget String.eqb d q = Some b -> exists x, In x (pc_ells a) /\ In x (pc_ells b)) /\
      (check_multipoles d ps = Ok tt \/ check_multipoles d ps = Err EValueError)).
    { induction ps as [|[p q] ps IH]; intros Hin.
      - split; [|left; reflexivity]. split; [intros _ p q []|reflexivity].
      - cbn [check_multipoles]. destruct (Hin p q (or_introl eq_refl)) as [Hp Hq]. destruct (In_d p Hp) as [a Ea]. destruct (In_d q Hq) as [b Eb].
        unfold dgetr. rewrite Ea, Eb. cbn [rbind]. unfold arrays_intersection. cbn [fold_left rbind].
        assert (Hx : forall x, In x (intersect1d (intersect1d (pc_ells a) (pc_ells b)) (pc_ells b)) <-> In x (pc_ells a) /\ In x (pc_ells b)) by (intros x; rewrite !intersect1d_In; tauto).
        destruct (IH (fun p' q' H => Hin p' q' (or_intror H))) as [IH1 IH2].
        destruct (intersect1d _ _) as [|x0 r].
        + split; [|right; reflexivity]. split; [discriminate|]. intros H. destruct (H p q (or_introl eq_refl) a b Ea Eb) as (x & Hxx). apply Hx in Hxx. destruct Hxx.
        + split; [|exact IH2]. rewrite IH1. split.
          * intros H p' q' [A|A] a' b' Ea' Eb'; [|exact (H _ _ A _ _ Ea' Eb')]. injection A as <- <-. rewrite Ea in Ea'. rewrite Eb in Eb'. injection Ea' as <-. injection Eb' as <-.
            exists x0. apply Hx. left; reflexivity.
          * intros H p' q' A. apply H. right; exact A. }
    destruct (G (combinations d) P3) as [G1 G2]. split; [|exact G2]. rewrite G1. split.
    - intros H p q a b Ea Eb.
      assert (Kp : In p (dkeys d)) by (apply (dget_In _ String.eqb_spec) in Ea; apply (in_map fst) in Ea; exact Ea).
      assert (Kq : In q (dkeys d)) by (apply (dget_In _ String.eqb_spec) in Eb; apply (in_map fst) in Eb; exact Eb).
      destruct (string_dec p q) as [->|Ne].
      + specialize (P2 q Kq). assert (I2 : In (q, q) (combinations d)) by (apply (count_occ_In spair_dec); lia). exact (H q q I2 a b Ea Eb).
      + specialize (P1 p q Kp Kq Ne).
        assert (Or : In (p, q) (combinations d) \/ In (q, p) (combinations d)) by (rewrite !(count_occ_In spair_dec); lia).
        destruct Or as [I2|I2]; [exact (H p q I2 a b Ea Eb)|]. destruct (H q p I2 b a Eb Ea) as (x & A & B). eauto.
    - intros H p q I2 a b. apply H.
  Qed.
End Cfg.
Section CfgBridge.
  Context {F : Type} {K : Fld F} {O : OFld (F := F)}.
  (** A checked configuration can be asked for the multipoles of any pair. *)
  Theorem C52_checked (probes : dict string (jprobe F)) d p q a b : load_probes probes = Ok d -> check_multipoles d (combinations d) = Ok tt ->
    dget String.eqb d p = Some a -> dget String.eqb d q = Some b -> increasing (pc_ells a) -> length (pc_ells a) = length (pc_widths a) ->
    exists r, comb_multipoles d (comb_key p q) = Ok r.
  Proof.
    intros E C Ea Eb I L. apply (C52_multipoles probes d p q a b E Ea Eb I L).
    apply (proj1 (C52_check d (proj1 (C52_present probes d E)))) with (p := p) (q := q); assumption.
  Qed.
End CfgBridge.

(** The number of a bias parameter is the first number written in its name. *)
Theorem C50_number a n b : all_chars (fun c => negb (is_digit c)) a = true -> (forall c r, b = String c r -> is_digit c = false) ->
  first_run (a ++ dec n ++ b) = Some n.
Proof.
  intros Ha Hb.
  assert (R : forall s acc, all_chars is_digit s = true -> read_digits acc (s ++ b) = number acc s).
  { induction s as [|c s IH]; intros acc H; cbn [append].
    - destruct b as [|c r]; [reflexivity|]. cbn [read_digits number]. rewrite (Hb c r eq_refl). reflexivity.
    - cbn [all_chars] in H. apply andb_true_iff in H. destruct H as [H1 H2]. cbn [read_digits number]. rewrite H1. rewrite IH by exact H2. reflexivity. }
  induction a as [|c a IH].
  - cbn [append]. pose proof (dec_digits n) as D. pose proof (dec_number n) as N. rewrite <- N at 2. pose proof (R (dec n) 0%nat D) as Q.
    destruct (dec_first n) as (k & r & Hk & E). rewrite E in *. cbn [append first_run all_chars] in *. apply andb_true_iff in D. destruct D as [D1 D2]. rewrite D1. rewrite Q. reflexivity.
  - cbn [all_chars] in Ha. apply andb_true_iff in Ha. destruct Ha as [A1 A2]. apply negb_true_iff in A1. cbn [append first_run]. rewrite A1. exact (IH A2).
Qed.
(** Without a digit there is none. *)
Theorem C50_no_number s : first_run s = None <-> all_chars (fun c => negb (is_digit c)) s = true.
Proof.
  induction s as [|c s IH]; [split; reflexivity|]. cbn [first_run all_chars]. destruct (is_digit c); [split; discriminate|exact IH].
Qed.
Example C50_number_instance : first_run ("bgph" ++ dec 10 ++ "") = Some 10%nat /\ first_run "b1z2" = Some 1%nat.
Proof. split; reflexivity. Qed.
Example C52_check_instance : check_multipoles wit_probes (combinations wit_probes) = Ok tt.
Proof. vm_compute; reflexivity. Qed.

Print Assumptions C52_loaded.
Print Assumptions C52_check.
Print Assumptions C52_checked.
Print Assumptions C50_number.
Print Assumptions C50_no_number.
