(** Properties C52 (multipoles of probe pairs), C53 (equality of forecast
    configurations), C75 (probe names), C76 (configuration editor) and C77
    (configuration identifiers). *)
From Verif Require Import Base SortLib StrLib KeyModel ParamModel EvalModel EvalSpec EllLemmas FishEval NameModel NameLemmas ConfigModel ConfigLemmas.
From Coq Require Import Sorted Permutation.
Open Scope list_scope.

(** ** C75 *)
(** Exactly the twelve names are accepted. *)
Theorem C75_accepts s : match probe_name s with
  | Ok p => pn_name p = s /\ In s (names (pn_kind p))
  | Err e => e = EValueError /\ forall k, ~ In s (names k) end.
Proof.
  unfold probe_name. destruct (smem_spec s long_names) as [A|A]; [split; [reflexivity|exact A]|].
  destruct (smem_spec s short_names) as [B|B]; [split; [reflexivity|exact B]|].
  destruct (smem_spec s alias_names) as [C|C]; [split; [reflexivity|exact C]|]. split; [reflexivity|]. intros [| |]; assumption.
Qed.
(** Conversions never fail, give the name at the same place of the other list, and compose. *)
Theorem C75_convert s p k : probe_name s = Ok p -> exists q, pn_to k p = Ok q /\ pn_kind q = k /\
  (forall i, nth_error (names (pn_kind p)) i = Some s <-> nth_error (names k) i = Some (pn_name q)) /\
  forall k', pn_to k' q = pn_to k' p.
Proof.
  intros E. pose proof (probe_name_In _ _ E) as H. apply all_names_index in H. destruct H as [i [L H]].
  destruct (probe_name_Ok i s H) as [kk [E' N]]. rewrite E in E'. injection E' as ->. subst s.
  exists (mkPn (name_of k i) k). split; [apply pn_to_Ok; exact L|]. split; [reflexivity|]. split; [|intros k'; rewrite !pn_to_Ok by exact L; reflexivity].
  cbn [pn_kind pn_name]. assert (G : forall k1 j, nth_error (names k1) j = Some (name_of k1 i) <-> j = i).
  { intros k1 j. assert (Lk : length (names k1) = 4) by (destruct k1; reflexivity). split.
    - intros Hj. assert (j < 4) by (rewrite <- Lk; apply nth_error_Some; rewrite Hj; discriminate). apply (name_of_inj k1); [assumption|exact L|]. unfold name_of at 1. apply nth_error_nth with (d := ""%string) in Hj. exact Hj.
    - intros ->. apply nth_error_nth'. lia. }
  intros j. rewrite !G. tauto.
Qed.
(** Two names are equal when they name the same probe: an equivalence. *)
Theorem C75_equality s t p q : probe_name s = Ok p -> probe_name t = Ok q ->
  exists b, pn_equiv p q = Ok b /\ pn_equiv q p = Ok b /\ (b = true <-> exists i, is_name i s /\ is_name i t).
Proof.
  intros E G. pose proof (probe_name_In _ _ E) as Hs. pose proof (probe_name_In _ _ G) as Ht. apply all_names_index in Hs, Ht.
  destruct Hs as [i [_ Hs]], Ht as [j [_ Ht]]. destruct (pn_equiv_iff s t i j Hs Ht) as (p' & q' & E1 & E2 & E3). destruct (pn_equiv_iff t s j i Ht Hs) as (q'' & p'' & G1 & G2 & G3).
  assert (p' = p) by congruence. assert (q' = q) by congruence. assert (p'' = p) by congruence. assert (q'' = q) by congruence. subst.
  exists (Nat.eqb i j). split; [exact E3|]. split; [rewrite Nat.eqb_sym; exact G3|]. rewrite Nat.eqb_eq. split; [intros ->; eauto|].
  intros [z [A B]]. rewrite (is_name_inj _ _ _ Hs A), (is_name_inj _ _ _ Ht B). reflexivity.
Qed.
Example C75_instance : exists p q, probe_name "GCph" = Ok p /\ probe_name "ph" = Ok q /\ pn_equiv p q = Ok true /\ is_ok (probe_name "GCPh") = false.
Proof. do 2 eexists. repeat split; reflexivity. Qed.

Section Cfg.
  Context {F : Type} {K : Fld F} {O : OFld (F := F)}.

  (** ** C52 *)
  (** The present probes are the flagged ones under their long names, each once. *)
  Theorem C52_present (probes : dict string (jprobe F)) d : load_probes probes = Ok d ->
    NoDup (dkeys d) /\
    forall long, In long (dkeys d) <-> exists i name j, In (name, j) probes /\ j_present j = true /\ is_name i name /\ nth_error long_names i = Some long.
  Proof.
    intros E. destruct (load_spec _ _ E) as (N & I & _). split; [exact N|]. intros long. rewrite I.
    split; intros (i & n & j & A & B & C & D); exists i, n, j; repeat split; try assumption.
    - subst long. pose proof (is_name_lt _ _ C) as L. destruct i as [|[|[|[|i]]]]; try lia; reflexivity.
    - unfold name_of. symmetry. apply nth_error_nth with (d := ""%string) in D. exact D.
  Qed.
  (** Every unordered pair of probes is listed exactly once, and nothing else is. *)
  Definition spair_dec : forall x y : string * string, {x = y} + {x <> y}.
  Proof. intros x y. decide equality; apply string_dec. Defined.
  Theorem C52_pairs (d : dict string (pcfg F)) : NoDup (dkeys d) ->
    (forall p q, In p (dkeys d) -> In q (dkeys d) -> p <> q ->
       count_occ spair_dec (combinations d) (p, q) + count_occ spair_dec (combinations d) (q, p) = 1) /\
    (forall p, In p (dkeys d) -> count_occ spair_dec (combinations d) (p, p) = 1) /\
    (forall p q, In (p, q) (combinations d) -> In p (dkeys d) /\ In q (dkeys d)).
  Proof.
    intros N. unfold combinations. destruct (pairs2_nodup (dkeys d) N) as [N1 N2].
    pose proof (NoDup_count_occ' spair_dec (pairs2 (dkeys d))) as [C _]. specialize (C N1).
    assert (All : forall a b, In a (dkeys d) -> In b (dkeys d) -> In (a, b) (pairs2 (dkeys d)) \/ In (b, a) (pairs2 (dkeys d))).
    { generalize (dkeys d) as l. induction l as [|x l IH]; cbn [pairs2]; [intros ? ? []|]. intros a b [<-|Ha] [<-|Hb].
      - left; left; reflexivity.
      - left; right. apply in_or_app. left. apply in_map. exact Hb.
      - right; right. apply in_or_app. left. apply in_map. exact Ha.
      - destruct (IH _ _ Ha Hb); [left|right]; right; apply in_or_app; right; assumption. }
    split; [|split].
    - intros p q Hp Hq Ne. destruct (All p q Hp Hq) as [H|H]; rewrite (C _ H); f_equal.
      + rewrite (proj1 (count_occ_not_In spair_dec _ _)); [reflexivity|]. intros G. apply Ne. apply N2; assumption.
      + rewrite (proj1 (count_occ_not_In spair_dec _ _)); [reflexivity|]. intros G. apply Ne. apply N2; assumption.
    - intros p Hp. apply C. destruct (All p p Hp Hp); assumption.
    - intros p q. apply pairs2_both.
  Qed.
  (** The multipoles of a pair are the common ones, in increasing order, each
      with the width the first probe has there. *)
  Theorem C52_multipoles (probes : dict string (jprobe F)) d p q a b : load_probes probes = Ok d ->
    dget String.eqb d p = Some a -> dget String.eqb d q = Some b -> increasing (pc_ells a) -> length (pc_ells a) = length (pc_widths a) ->
    ((exists x, In x (pc_ells a) /\ In x (pc_ells b)) <-> exists r, comb_multipoles d (comb_key p q) = Ok r) /\
    forall ells ws, comb_multipoles d (comb_key p q) = Ok (ells, ws) ->
      increasing ells /\ (forall x, In x ells <-> In x (pc_ells a) /\ In x (pc_ells b)) /\ length ws = length ells /\
      forall i s x, nth_error ells i = Some x -> nth_error (pc_ells a) s = Some x -> nth_error ws i = nth_error (pc_widths a) s.
  Proof.
    intros E Ha Hb Inc Len. destruct (load_spec _ _ E) as (_ & _ & C). destruct (C _ _ Ha) as [i [Li [Ei _]]], (C _ _ Hb) as [j [Lj [Ej _]]].
    assert (Up : has "_" p = false) by (rewrite Ei; apply (long_no_underscore i Li)). assert (Uq : has "_" q = false) by (rewrite Ej; apply (long_no_underscore j Lj)).
    rewrite (comb_value d p q a b Up Uq Ha Hb), (proj2 (Nat.eqb_eq _ _) Len).
    set (com := intersect1d (pc_ells a) (pc_ells b)). assert (Hc : forall x, In x com <-> In x (pc_ells a) /\ In x (pc_ells b)) by (intros x; apply intersect1d_In).
    assert (Ic : increasing com) by apply intersect1d_increasing.
    assert (Incl : incl com (pc_ells a)) by (intros x Hx; apply Hc in Hx; tauto).
    destruct (select_aligned com (pc_ells a) (pc_widths a) Ic Inc Incl Len) as [L1 L2]. split.
    - split.
      + intros [x Hx]. apply Hc in Hx. destruct com as [|c com']; [destruct Hx|eauto].
      + intros [r R]. destruct com as [|c com']; [discriminate|]. exists c. apply Hc. left. reflexivity.
    - intros ells ws R. assert (ells = com /\ ws = select com (pc_ells a) (pc_widths a)) as [-> ->] by (destruct com; [discriminate|]; injection R as <- <-; auto). auto.
  Qed.
  (** The spelling of the pair matters exactly when the probes disagree about the
      widths at common multipoles. *)
  Theorem C52_spelling (probes : dict string (jprobe F)) d p q a b : load_probes probes = Ok d ->
    dget String.eqb d p = Some a -> dget String.eqb d q = Some b -> increasing (pc_ells a) -> increasing (pc_ells b) ->
    length (pc_ells a) = length (pc_widths a) -> length (pc_ells b) = length (pc_widths b) ->
    rmap fst (comb_multipoles d (comb_key p q)) = rmap fst (comb_multipoles d (comb_key q p)) /\
    (comb_multipoles d (comb_key p q) = comb_multipoles d (comb_key q p) <->
     forall s t x, nth_error (pc_ells a) s = Some x -> nth_error (pc_ells b) t = Some x -> nth_error (pc_widths a) s = nth_error (pc_widths b) t).
  Proof.
    intros E Ha Hb Ia Ib La Lb. destruct (load_spec _ _ E) as (_ & _ & C). destruct (C _ _ Ha) as [i [Li [Ei _]]], (C _ _ Hb) as [j [Lj [Ej _]]].
    assert (Up : has "_" p = false) by (rewrite Ei; apply (long_no_underscore i Li)). assert (Uq : has "_" q = false) by (rewrite Ej; apply (long_no_underscore j Lj)).
    rewrite (comb_value d p q a b Up Uq Ha Hb), (proj2 (Nat.eqb_eq _ _) La). rewrite (comb_value d q p b a Uq Up Hb Ha), (proj2 (Nat.eqb_eq _ _) Lb).
    rewrite (intersect1d_sym (pc_ells b)).
    set (com := intersect1d (pc_ells a) (pc_ells b)). assert (Hc : forall x, In x com <-> In x (pc_ells a) /\ In x (pc_ells b)) by (intros x; apply intersect1d_In).
    assert (Ic : increasing com) by apply intersect1d_increasing.
    assert (Incl1 : incl com (pc_ells a)) by (intros x Hx; apply Hc in Hx; tauto). assert (Incl2 : incl com (pc_ells b)) by (intros x Hx; apply Hc in Hx; tauto).
    destruct (select_aligned com _ _ Ic Ia Incl1 La) as [L1 A1]. destruct (select_aligned com _ _ Ic Ib Incl2 Lb) as [L2 A2].
    split; [destruct com; reflexivity|].
    assert (G : select com (pc_ells a) (pc_widths a) = select com (pc_ells b) (pc_widths b) <->
      forall s t x, nth_error (pc_ells a) s = Some x -> nth_error (pc_ells b) t = Some x -> nth_error (pc_widths a) s = nth_error (pc_widths b) t).
    { split.
      - intros Q s t x Hs Ht. assert (Hx : In x com) by (apply Hc; split; eapply nth_error_In; eassumption).
        apply In_nth_error in Hx. destruct Hx as [r Hr]. rewrite <- (A1 r s x Hr Hs), <- (A2 r t x Hr Ht), Q. reflexivity.
      - intros H. apply nth_error_ext'. intros r. destruct (nth_error com r) as [x|] eqn:Hr.
        + assert (Hx : In x com) by (eapply nth_error_In; exact Hr). apply Hc in Hx. destruct Hx as [X Y]. apply In_nth_error in X, Y. destruct X as [s Hs], Y as [t Ht].
          rewrite (A1 r s x Hr Hs), (A2 r t x Hr Ht). apply (H s t x); assumption.
        + apply nth_error_None in Hr. rewrite (proj2 (nth_error_None _ r)), (proj2 (nth_error_None _ r)); [reflexivity| |]; lia. }
    rewrite <- G. clearbody com. clear G A1 A2. destruct com as [|c com']; [cbn; split; [intros _|reflexivity]|split; [intros Q; injection Q as Q; exact Q|intros Q; cbv zeta; do 2 f_equal; exact Q]].
    destruct (select [] (pc_ells a) (pc_widths a)); [|discriminate]. destruct (select [] (pc_ells b) (pc_widths b)); [reflexivity|discriminate].
  Qed.

  (** ** C53 *)
  Definition wf_fcfg (c : fcfg F) : Prop :=
    NoDup (dkeys (fc_probes c)) /\ (forall k p, dget String.eqb (fc_probes c) k = Some p -> wf_pcfg p) /\
    match fc_pars c with Some l => NoDup (dkeys (params l)) | None => True end.
  Definition both_pars (a b : fcfg F) : Prop := match fc_pars a, fc_pars b with Some _, Some _ | None, None => True | _, _ => False end.
  Definition same_pars (a b : fcfg F) : Prop :=
    match fc_pars a, fc_pars b with Some x, Some y => same_map same_par (params x) (params y) | None, None => True | _, _ => False end.
  (** What makes two configurations compare equal. *)
  Theorem C53_equal_iff (a b : fcfg F) : wf_fcfg a -> wf_fcfg b -> both_pars a b ->
    exists r, fcfg_eq a b = Ok r /\
      (r = true <-> same_pars a b /\ fc_flat a = fc_flat b /\ same_map same_probe (fc_probes a) (fc_probes b) /\
        fc_fsky a <> fz /\ fc_fsky b <> fz /\ fc_combs a = fc_combs b).
  Proof.
    intros (Na & Wa & Pa) (Nb & Wb & Pb) Bp. unfold fcfg_eq.
    assert (E1 : exists r, pars_eq (fc_pars a) (fc_pars b) = Ok r /\ (r = true <-> same_pars a b)).
    { unfold pars_eq, same_pars, both_pars in *. destruct (fc_pars a) as [x|], (fc_pars b) as [y|]; try contradiction.
      - apply (eqM_pure par_eq same_par _ _ par_eq_iff Pa Pb).
      - exists true. tauto. }
    destruct E1 as [r1 [-> H1]]. cbn [rbind].
    assert (T : forall k v w, In (k, v) (fc_probes a) -> dget String.eqb (fc_probes b) k = Some w -> pcfg_eq v w = Ok (match pcfg_eq v w with Ok r => r | Err _ => false end)).
    { intros k v w Hv Hw. apply (@dget_NoDup_In _ _ String.eqb String.eqb_spec _ _ _ Na) in Hv. destruct (pcfg_eq_iff v w (Wa _ _ Hv) (Wb _ _ Hw)) as [r [-> _]]. reflexivity. }
    destruct (dict_eqM_total _ pcfg_eq (fc_probes a) (fc_probes b) T) as [r2 H2]. rewrite H2. cbn [rbind]. eexists. split; [reflexivity|].
    assert (H2' : r2 = true <-> same_map same_probe (fc_probes a) (fc_probes b)).
    { assert (G : r2 = true <-> dict_eqM pcfg_eq (fc_probes a) (fc_probes b) = Ok true) by (rewrite H2; split; congruence).
      rewrite G, dict_eqM_map by assumption. apply same_map_mono. intros k x y Hx Hy. destruct (pcfg_eq_iff x y (Wa _ _ Hx) (Wb _ _ Hy)) as [r [-> Hr]]. rewrite <- Hr. split; congruence. }
    rewrite !andb_true_iff, H1, H2', Bool.eqb_true_iff, pairs_eqb_iff. unfold truthy.
    destruct (fdec (fc_fsky a) fz), (fdec (fc_fsky b) fz); intuition congruence.
  Qed.
  (** Different curvature flags or different probes are never equal; nor are the
      same probes loaded in a different order. *)
  Theorem C53_flag (a b : fcfg F) : fc_flat a <> fc_flat b -> fcfg_eq a b <> Ok true.
  Proof.
    intros N. unfold fcfg_eq. destruct (pars_eq _ _) as [p|]; [|discriminate]. cbn [rbind]. destruct (dict_eqM _ _ _) as [q|]; [|discriminate]. cbn [rbind].
    intros E. injection E as E. rewrite !andb_true_iff, Bool.eqb_true_iff in E. tauto.
  Qed.
  Theorem C53_probes (a b : fcfg F) : fc_combs a = combinations (fc_probes a) -> fc_combs b = combinations (fc_probes b) ->
    fcfg_eq a b = Ok true -> dkeys (fc_probes a) = dkeys (fc_probes b).
  Proof.
    intros Ca Cb. unfold fcfg_eq. destruct (pars_eq _ _) as [p|]; [|discriminate]. cbn [rbind]. destruct (dict_eqM _ _ _) as [q|]; [|discriminate]. cbn [rbind].
    intros E. injection E as E. rewrite !andb_true_iff, pairs_eqb_iff in E. destruct E as [_ E]. rewrite Ca, Cb in E. apply pairs2_inj. exact E.
  Qed.
  Theorem C53_marginalize (a b : fcfg F) k x y : wf_fcfg a -> wf_fcfg b -> dget String.eqb (fc_probes a) k = Some x -> dget String.eqb (fc_probes b) k = Some y ->
    pc_marg x <> pc_marg y \/ pc_density x <> pc_density y -> fcfg_eq a b <> Ok true.
  Proof.
    intros Wa Wb Hx Hy N E. assert (Bp : both_pars a b).
    { unfold both_pars, fcfg_eq, pars_eq in *. destruct (fc_pars a), (fc_pars b); try exact I; discriminate. }
    destruct (C53_equal_iff a b Wa Wb Bp) as [r [Er Hr]]. rewrite E in Er. injection Er as <-. destruct Hr as [Hr _]. destruct (Hr eq_refl) as (_ & _ & M & _).
    specialize (M k). rewrite Hx, Hy in M. destruct M as (_ & _ & _ & D & G & _). tauto.
  Qed.
  (** Only one side with loaded parameters: the comparison raises. *)
  Theorem C53_half_loaded (a b : fcfg F) : ~ both_pars a b -> fcfg_eq a b = Err EAttributeError.
  Proof. unfold both_pars, fcfg_eq, pars_eq. destruct (fc_pars a), (fc_pars b); intros H; try reflexivity; destruct H; exact I. Qed.
End Cfg.

From Coq Require Import QArith Qcanon.
Close Scope Qc_scope. Close Scope Q_scope.
Definition wit_wl : jprobe Qc := mkJp true (Ok ([qz 10; qz 20; qz 30], [qz 1; qz 2; qz 3])) "wl.h5" "" false [].
Definition wit_ph : jprobe Qc := mkJp true (Ok ([qz 20; qz 30; qz 40], [qz 5; qz 6; qz 7])) "ph.h5" "bias.h5" true [].
Definition wit_json : dict string (jprobe Qc) := [("WL", wit_wl); ("GCph", wit_ph)]%string.
Definition wit_probes : dict string (pcfg Qc) := match load_probes wit_json with Ok d => d | Err _ => [] end.
Theorem C52_spelling_refuted : exists (probes : dict string (jprobe Qc)) d p q ws ws', load_probes probes = Ok d /\
  comb_multipoles d (comb_key p q) = Ok ([qz 20; qz 30], ws) /\ comb_multipoles d (comb_key q p) = Ok ([qz 20; qz 30], ws') /\ ws <> ws'.
Proof.
  exists wit_json, wit_probes, "Lensing"%string, "PhotometricGalaxy"%string, [qz 2; qz 3], [qz 5; qz 6]. repeat split; try (vm_compute; reflexivity).
  intros E. assert (X : this (nth 0 [qz 2; qz 3] (qz 0)) = this (nth 0 [qz 5; qz 6] (qz 0))) by exact (f_equal (fun l => this (nth 0 l (qz 0))) E). vm_compute in X. discriminate.
Qed.
(** A multipole file in another order: the widths go to the wrong multipoles. *)
Definition wit_unsorted : dict string (jprobe Qc) := [("WL", mkJp true (Ok ([qz 20; qz 10], [qz 2; qz 1])) "wl.h5" "" false [])]%string.
Theorem C52_unsorted_refuted : exists probes d a, load_probes probes = Ok d /\ dget String.eqb d "Lensing" = Some a /\
  pc_ells a = [qz 20; qz 10] /\ pc_widths a = [qz 2; qz 1] /\ comb_multipoles d "Lensing_Lensing" = Ok ([qz 10; qz 20], [qz 2; qz 1]).
Proof. exists wit_unsorted. do 2 eexists. repeat split; vm_compute; reflexivity. Qed.
Example C52_instance : increasing (pc_ells (match dget String.eqb wit_probes "Lensing" with Some c => c | None => mkPc "" [] [] "" None false [] [] end)) /\ combinations wit_probes = [("Lensing", "Lensing"); ("Lensing", "PhotometricGalaxy"); ("PhotometricGalaxy", "PhotometricGalaxy")]%string.
Proof.
  split; [|vm_compute; reflexivity]. match goal with |- increasing ?l => replace l with (fsort [qz 10; qz 20; qz 30]) by (vm_compute; reflexivity) end. apply fsort_increasing. repeat constructor; intros H; repeat destruct H as [H|H]; try contradiction;
  match type of H with ?u = ?v => assert (X : this u = this v) by exact (f_equal this H) end; vm_compute in X; discriminate.
Qed.

Definition wit_par (free : bool) : param Qc := mkPar "Omm" (qq 32 100) (qq 32 100) true None (qz 1) free "" "" "SteM".
Definition wit_fc (fsky : Qc) (free : bool) (shot : option string) : fcfg Qc :=
  mkFc (Some (mkColl [("Omm"%string, wit_par free)] [] [] true)) true wit_probes fsky (combinations wit_probes) [] shot.
(** The sky fractions are never compared, *)
Theorem C53_fsky_refuted : exists a b : fcfg Qc, fc_fsky a <> fc_fsky b /\ fcfg_eq a b = Ok true.
Proof.
  exists (wit_fc (qq 1 3) true None), (wit_fc (qq 2 3) true None). split; [|vm_compute; reflexivity].
  intros E. assert (X : this (qq 1 3) = this (qq 2 3)) by exact (f_equal this E). vm_compute in X. discriminate.
Qed.
(** only tested for being non-zero, *)
Theorem C53_zero_fsky_refuted : exists a : fcfg Qc, fcfg_eq a a = Ok false.
Proof. exists (wit_fc (qz 0) true None). vm_compute; reflexivity. Qed.
(** nor is it compared which parameters are free, or the shot noise file. *)
Theorem C53_free_refuted : exists a b p q : _, fc_pars a = Some p /\ fc_pars b = Some q /\ dget String.eqb (params p) "Omm" = Some (wit_par true) /\
  dget String.eqb (params q) "Omm" = Some (wit_par false) /\ fcfg_eq a b = Ok true.
Proof. exists (wit_fc (qq 1 3) true None), (wit_fc (qq 1 3) false None). do 2 eexists. repeat split; vm_compute; reflexivity. Qed.
Theorem C53_shot_noise_refuted : exists a b : fcfg Qc, fc_shot a <> fc_shot b /\ fcfg_eq a b = Ok true.
Proof. exists (wit_fc (qq 1 3) true None), (wit_fc (qq 1 3) true (Some "shot.h5"%string)). split; [discriminate|vm_compute; reflexivity]. Qed.
Example C53_instance : wf_fcfg (wit_fc (qq 1 3) true None) /\ both_pars (wit_fc (qq 1 3) true None) (wit_fc (qq 2 3) false None).
Proof.
  split; [|exact I]. split; [vm_compute; repeat constructor; intros H; repeat destruct H as [H|H]; try discriminate; contradiction|]. split.
  - intros k p E. unfold wit_fc in E. cbn [fc_probes] in E. apply (dget_In _ String.eqb_spec) in E.
    change wit_probes with [("Lensing", mkPc "Lensing" [qz 10; qz 20; qz 30] [qz 1; qz 2; qz 3] "wl.h5" None false [] []);
      ("PhotometricGalaxy", mkPc "PhotometricGalaxy" [qz 20; qz 30; qz 40] [qz 5; qz 6; qz 7] "ph.h5" (Some "bias.h5") true [] [])]%string in E.
    destruct E as [E|[E|[]]]; (assert (X : pc_name p = _) by exact (f_equal (fun z => pc_name (snd z)) (eq_sym E))); (assert (Y : pc_nuis p = _) by exact (f_equal (fun z => pc_nuis (snd z)) (eq_sym E))); (assert (Z : pc_specific p = _) by exact (f_equal (fun z => pc_specific (snd z)) (eq_sym E)));
    unfold wf_pcfg; rewrite X, Y, Z; (split; [vm_compute; tauto|split; constructor]).
  - cbn. repeat constructor; intros [].
Qed.

Print Assumptions C75_accepts.
Print Assumptions C75_convert.
Print Assumptions C75_equality.
Print Assumptions C52_present.
Print Assumptions C52_pairs.
Print Assumptions C52_multipoles.
Print Assumptions C52_spelling.
Print Assumptions C52_spelling_refuted.
Print Assumptions C52_unsorted_refuted.
Print Assumptions C53_equal_iff.
Print Assumptions C53_flag.
Print Assumptions C53_probes.
Print Assumptions C53_marginalize.
Print Assumptions C53_half_loaded.
Print Assumptions C53_fsky_refuted.
Print Assumptions C53_zero_fsky_refuted.
Print Assumptions C53_free_refuted.
Print Assumptions C53_shot_noise_refuted.
