(** Property C108: the spectra of a forecast from its inputs. *)
From Coq Require Import Permutation Sorted Field QArith Qcanon.
From Verif Require Import Base SortLib StrLib NameModel NameLemmas StemLemmas3 KeyModel ParamModel ParamLemmas2 EvalModel EvalSpec EllLemmas OrdLib NumModel NumLemmas BiasModel BiasProps ConfigModel ConfigLemmas ClModel ClProps WeightModel CollModel CollLemmas.
Open Scope nat_scope.
Open Scope list_scope.

Section P.
  Context {F : Type} {K : Fld F} {O : OFld (F := F)}.
  Add Field FldCo : (fth (F := F)).
  Open Scope fld_scope.
  Context (N : numerics F).

  (** The Limber wave number of the l-th multipole at the z-th redshift. *)
  Definition wave (co : cosmology F) (ells : list F) (l z : nat) : F := (at_ ells l + 1 / (1 + 1)) / co_r co z.
  (** The factor by which voids suppress the power spectrum. *)
  Definition suppression (cfgs : dict string (pcfg F)) (p q : string) (cut : F -> F) : Prop :=
    ((p = "Void" \/ q = "Void")%string -> exists c vc vw kc kw, dget String.eqb cfgs "Void" = Some c /\
       dget String.eqb (pc_specific c) "void_kcut_invMpc" = Some vc /\ sv_num vc = Some kc /\
       dget String.eqb (pc_specific c) "void_kcut_width_invMpc" = Some vw /\ sv_num vw = Some kw /\
       forall k, cut k = 1 - smoothstep 3 (kc - kw) (kc + kw) k) /\
    ((p <> "Void" /\ q <> "Void")%string -> forall k, cut k = 1).
  (** Whether cell (i, j) of the spectrum of p and q is computed. *)
  Definition left_out (cfgs : dict string (pcfg F)) (p q : string) (i j : nat) : Prop :=
    p = q /\ p = "SpectroscopicGalaxy"%string /\ i <> j /\ exists c v, dget String.eqb cfgs p = Some c /\ dget String.eqb (pc_specific c) "compute_gcsp_cl_offdiag" = Some v /\ sv_true v = false.

  Lemma setting_inv (c : pcfg F) n x : setting_num c n = Ok x -> exists v, dget String.eqb (pc_specific c) n = Some v /\ sv_num v = Some x.
  Proof.
    unfold setting_num, dgetr. destruct (dget String.eqb (pc_specific c) n) as [v|]; [|discriminate]. cbn [rbind]. destruct (sv_num v) as [y|] eqn:E; [|discriminate]. intros H. injection H as <-. eauto.
  Qed.
  Lemma limber_inv cfgs p q co ells P : limber_of p q (dget String.eqb cfgs "Void") co ells = Ok P ->
    exists cut, suppression cfgs p q cut /\ forall l z, P l z = co_pk co z (wave co ells l z) * cut (wave co ells l z).
  Proof.
    unfold limber_of, suppression. destruct (String.eqb_spec p "Void") as [->|Np]; [|destruct (String.eqb_spec q "Void") as [->|Nq]]; cbn [orb].
    1,2: destruct (dget String.eqb cfgs "Void") as [c|]; [|discriminate]; cbn [rbind];
      destruct (setting_num c "void_kcut_invMpc") as [kc|] eqn:S1; [|discriminate]; cbn [rbind]; destruct (setting_num c "void_kcut_width_invMpc") as [kw|] eqn:S2; [|discriminate]; cbn [rbind];
      intros H; injection H as <-; apply setting_inv in S1; apply setting_inv in S2; destruct S1 as (vc & S1 & S1'), S2 as (vw & S2 & S2');
      exists (fun k => 1 - smoothstep 3 (kc - kw) (kc + kw) k); split; [split; [intros _; exists c, vc, vw, kc, kw; auto 10|intros [A B]; exfalso; auto]|reflexivity].
    intros H. injection H as <-. exists (fun _ => 1). split; [split; [intros [A|A]; contradiction|reflexivity]|]. intros l z. unfold wave. ring.
  Qed.

  (** Every spectrum is there, under the multipoles of its pair, and each cell is
      the integral of the power spectrum with the weights of its own two probes. *)
  Theorem C108_spectra an cfgs files pp dens co fid out : NoDup (dkeys cfgs) -> compute_cls N an cfgs files pp dens co fid = Ok out ->
    dkeys out = map (fun pq => (fst pq ++ "_" ++ snd pq)%string) (pairs2 (dkeys cfgs)) /\
    forall p q, In (p, q) (pairs2 (dkeys cfgs)) -> exists a b dp wp dq wq s cut,
      dget String.eqb cfgs p = Some a /\ dget String.eqb cfgs q = Some b /\
      dget String.eqb dens p = Some dp /\ dget String.eqb dens q = Some dq /\
      weight_of N an files pp dens co fid p a = Ok (dp, wp) /\ weight_of N an files pp dens co fid q b = Ok (dq, wq) /\
      dget String.eqb out (p ++ "_" ++ q)%string = Some s /\ sp_ni s = de_bins dp /\ sp_nj s = de_bins dq /\
      (p = q -> sp_ells s = pc_ells a /\ sp_widths s = pc_widths a) /\
      (p <> q -> increasing (sp_ells s) /\ sp_ells s <> [] /\ forall x, In x (sp_ells s) <-> In x (pc_ells a) /\ In x (pc_ells b)) /\
      suppression cfgs p q cut /\
      forall i j, (i < de_bins dp)%nat -> (j < de_bins dq)%nat ->
        (left_out cfgs p q i j -> forall l, sp_c s l i j = 0) /\
        (~ left_out cfgs p q i j -> exists f, integrator (fun x y => nu_simps N y x) (nu_quad N) (nu_romb N) (an_cl an) (co_zs co) = Ok f /\ forall l,
           sp_c s l i j = f (map (fun z => co_pk co z (wave co (sp_ells s) l z) * cut (wave co (sp_ells s) l z) *
                                           (wp i z * wq j z * co_c co / (co_H co z * (co_r co z * co_r co z)))) (seq 0 (length (co_zs co))))).
  Proof.
    intros Nd E. destruct (compute_inv N _ _ _ _ _ _ _ _ Nd E) as (_ & A & B). split; [exact A|]. intros p q Hpq.
    destruct (B p q Hpq) as (a & b & [dp wp] & [dq wq] & r & s & B1 & B2 & B3 & B4 & B5 & B6 & B7).
    destruct (weight_of_long N _ _ _ _ _ _ _ _ _ B3) as [Lp Dp], (weight_of_long N _ _ _ _ _ _ _ _ _ B4) as [Lq Dq]. cbn [fst] in Dp, Dq.
    unfold pair_setup in B5. destruct (multipoles p q a b) as [m|] eqn:M; [|discriminate]. cbn [rbind] in B5. destruct (limber_of p q (dget String.eqb cfgs "Void") co (fst m)) as [P|] eqn:L; [|discriminate]. cbn [rbind fst snd] in B5. injection B5 as <-.
    destruct (limber_inv _ _ _ _ _ _ L) as (cut & Sup & HP).
    unfold evaluate_one in B6. cbn [rd_P rd_k rd_p rd_q rd_ni rd_nj rd_ells rd_widths] in B6.
    match type of B6 with context [evaluate ?I ?z ?P ?k ?p ?q ?o ?n ?m] => destruct (evaluate I z P k p q o n m) as [[c dd]|] eqn:Ev; [|discriminate] end.
    cbn [rbind fst] in B6. injection B6 as <-.
    exists a, b, dp, wp, dq, wq, (mkSp (fst m) (snd m) (de_bins dp) (de_bins dq) c), cut. cbn [sp_ells sp_widths sp_ni sp_nj sp_c].
    repeat (split; [first [assumption|reflexivity]|]).
    split; [|split; [|split; [exact Sup|]]].
    - intros Epq. unfold multipoles in M. destruct (Nat.eqb _ _); [|discriminate]. destruct (intersect1d _ _); [discriminate|]. rewrite (proj2 (String.eqb_eq p q) Epq) in M. injection M as <-. auto.
    - intros Npq. unfold multipoles in M. destruct (Nat.eqb _ _); [|discriminate]. pose proof (intersect1d_increasing (pc_ells a) (pc_ells b)) as Inc. pose proof (fun x => intersect1d_In (pc_ells a) (pc_ells b) x) as Hin.
      destruct (intersect1d _ _) as [|e es]; [discriminate|]. rewrite (proj2 (String.eqb_neq p q) Npq) in M. injection M as <-. cbn [fst]. split; [exact Inc|]. split; [discriminate|exact Hin].
    - intros i j Hi Hj.
      assert (Int : forall f l, f (integrand (length (co_zs co)) P (kernel (String.eqb p q) wp wq (co_c co) (co_H co) (co_r co)) l i j) =
        f (map (fun z => co_pk co z (wave co (fst m) l z) * cut (wave co (fst m) l z) * (wp i z * wq j z * co_c co / (co_H co z * (co_r co z * co_r co z)))) (seq 0 (length (co_zs co)))) :> F).
      { intros f l. f_equal. unfold integrand. apply map_ext. intros z. rewrite HP. unfold kernel. destruct (String.eqb_spec p q) as [->|]; [|reflexivity].
        assert (wp = wq) as -> by congruence. reflexivity. }
      destruct (String.eqb_spec p q) as [->|Npq].
      + assert (wp = wq /\ dp = dq /\ a = b) as (-> & -> & ->) by (assert (a = b) by congruence; subst b; split; [congruence|split; congruence]).
        destruct (C59_kernel _ _ _ _ _ _ _ _ _ _ _ _ _ _ Ev ltac:(lia)) as (f & off & Ef & Sw & Val). destruct Sw as [Sw1 Sw2].
        assert (Off : off = false <-> q = "SpectroscopicGalaxy"%string /\ exists v, dget String.eqb (pc_specific b) "compute_gcsp_cl_offdiag" = Some v /\ sv_true v = false).
        { destruct (string_dec q "SpectroscopicGalaxy") as [Q|Q].
          - specialize (Sw1 Q). unfold dgetr at 1 in Sw1. rewrite <- Q in Sw1. rewrite B1 in Sw1. cbn [rbind] in Sw1. unfold dgetr in Sw1. destruct (dget String.eqb (pc_specific b) "compute_gcsp_cl_offdiag") as [v|]; [|discriminate]. cbn [rbind] in Sw1.
            injection Sw1 as <-. split; [intros X; split; [exact Q|eauto]|intros (_ & v' & Y & Z); congruence].
          - rewrite (Sw2 Q). split; [discriminate|intros [X _]; contradiction]. }
        split.
        * intros (_ & Hq & Hij & cc & v & C1 & C2 & C3) l. rewrite Val by assumption. rewrite (proj2 (Nat.eqb_neq i j) Hij), (proj2 Off); [reflexivity|]. split; [exact Hq|]. exists v. split; [congruence|exact C3].
        * intros Nl. exists f. split; [exact Ef|]. intros l. rewrite <- Int, Val by assumption. destruct (Nat.eqb_spec i j) as [Hij|Hij]; [reflexivity|]. cbn [orb].
          destruct off; [reflexivity|]. exfalso. apply Nl. destruct (proj1 Off eq_refl) as (Hq & v & V1 & V2). split; [reflexivity|]. split; [exact Hq|]. split; [exact Hij|]. exists b, v. auto.
      + destruct (C59_cross _ _ _ _ _ _ _ _ _ _ _ Npq Ev ltac:(lia) ltac:(lia)) as (f & Ef & Val & _). split.
        * intros (Q & _). contradiction.
        * intros _. exists f. split; [exact Ef|]. intros l. rewrite <- Int. apply Val; assumption.
  Qed.

  (** A spectrum depends on the inputs of its own two probes only. *)
  Definition same_inputs (cfgs cfgs' : dict string (pcfg F)) (files files' : dict string (bfile F)) (pp pp' : coll F) (dens dens' : dict string (density F)) (r : string) : Prop :=
    dget String.eqb cfgs r = dget String.eqb cfgs' r /\ nuisance_for r pp = nuisance_for r pp' /\ dget String.eqb dens r = dget String.eqb dens' r /\
    forall c path, dget String.eqb cfgs r = Some c -> pc_bias c = Some path -> dget String.eqb files path = dget String.eqb files' path.
  Lemma weight_same an cfgs cfgs' files files' pp pp' dens dens' co fid r a : same_inputs cfgs cfgs' files files' pp pp' dens dens' r -> dget String.eqb cfgs r = Some a ->
    weight_of N an files pp dens co fid r a = weight_of N an files' pp' dens' co fid r a.
  Proof.
    intros (S1 & S2 & S3 & S4) Ea. unfold weight_of. rewrite S2. assert (D : dgetr dens r = dgetr dens' r) by (unfold dgetr; rewrite S3; reflexivity). rewrite D. clear D. destruct (negb (smem r long_names)); [reflexivity|].
    destruct (dgetr dens' r) as [d|]; [|reflexivity]. cbn [rbind]. destruct (String.eqb r "Lensing"); [reflexivity|]. f_equal. unfold biased.
    destruct (pc_bias a) as [path|] eqn:Pa; [|reflexivity]. cbn [rbind]. rewrite (S4 a path Ea Pa). reflexivity.
  Qed.
  Theorem C108_own_inputs an cfgs cfgs' files files' pp pp' dens dens' co fid out out' p q : NoDup (dkeys cfgs) -> NoDup (dkeys cfgs') ->
    compute_cls N an cfgs files pp dens co fid = Ok out -> compute_cls N an cfgs' files' pp' dens' co fid = Ok out' ->
    In (p, q) (pairs2 (dkeys cfgs)) -> In (p, q) (pairs2 (dkeys cfgs')) ->
    same_inputs cfgs cfgs' files files' pp pp' dens dens' p -> same_inputs cfgs cfgs' files files' pp pp' dens dens' q ->
    exists s, dget String.eqb out (p ++ "_" ++ q)%string = Some s /\ dget String.eqb out' (p ++ "_" ++ q)%string = Some s.
  Proof.
    intros Nd Nd' E E' H H' Sp Sq. destruct (compute_inv N _ _ _ _ _ _ _ _ Nd E) as (_ & _ & B). destruct (compute_inv N _ _ _ _ _ _ _ _ Nd' E') as (_ & _ & B').
    destruct (B p q H) as (a & b & wp & wq & r & s & B1 & B2 & B3 & B4 & B5 & B6 & B7). destruct (B' p q H') as (a' & b' & wp' & wq' & r' & s' & B1' & B2' & B3' & B4' & B5' & B6' & B7').
    assert (a' = a) as -> by (destruct Sp as [S _]; congruence). assert (b' = b) as -> by (destruct Sq as [S _]; congruence).
    rewrite <- (weight_same _ _ _ _ _ _ _ _ _ _ _ _ _ Sp B1) in B3'. rewrite <- (weight_same _ _ _ _ _ _ _ _ _ _ _ _ _ Sq B2) in B4'.
    assert (wp' = wp) as -> by congruence. assert (wq' = wq) as -> by congruence.
    assert (Vd : pair_setup co p q a b (dget String.eqb cfgs "Void") wp wq = pair_setup co p q a b (dget String.eqb cfgs' "Void") wp wq).
    { unfold pair_setup. destruct (multipoles p q a b) as [m|]; [|reflexivity]. cbn [rbind]. unfold limber_of.
      destruct (String.eqb_spec p "Void") as [P|]; [subst p; destruct Sp as [-> _]; reflexivity|]. destruct (String.eqb_spec q "Void") as [Q|]; [subst q; destruct Sq as [-> _]; reflexivity|]. reflexivity. }
    rewrite <- Vd in B5'. assert (r' = r) as -> by congruence.
    assert (Rp : rd_p r = p /\ rd_q r = q). { unfold pair_setup in B5. destruct (multipoles p q a b) as [m|]; [|discriminate]. cbn [rbind] in B5. destruct (limber_of _ _ _ _ _); [|discriminate]. cbn [rbind] in B5. injection B5 as <-. auto. }
    destruct Rp as [R1 R2]. rewrite (evaluate_one_ext N an cfgs cfgs' co r) in B6; [|intros _ _; rewrite R1; apply Sp]. exists s. split; [exact B7|]. assert (s' = s) as <- by congruence. exact B7'.
  Qed.

  (** ** Displaced nuisance parameters *)
  Lemma filter_dset (g : param F -> bool) (d : dict string (param F)) n p p' : dget String.eqb d n = Some p -> g p = false -> g p' = false ->
    pfilter g (dset String.eqb d n p') = pfilter g d.
  Proof.
    unfold pfilter. induction d as [|[k v] d IH]; cbn [dget dset]; [discriminate|]. destruct (String.eqb_spec k n) as [->|Nk].
    - intros E A B. injection E as ->. cbn [filter snd]. rewrite A, B. reflexivity.
    - intros E A B. cbn [filter snd]. rewrite IH by assumption. reflexivity.
  Qed.
  Lemma filter_dset_keys (g : param F -> bool) (d : dict string (param F)) n p p' : dget String.eqb d n = Some p -> g p = g p' ->
    dkeys (pfilter g (dset String.eqb d n p')) = dkeys (pfilter g d).
  Proof.
    unfold pfilter, dkeys. induction d as [|[k v] d IH]; cbn [dget dset]; [discriminate|]. destruct (String.eqb_spec k n) as [->|Nk].
    - intros E A. injection E as ->. cbn [filter snd]. rewrite <- A. destruct (g p); reflexivity.
    - intros E A. cbn [filter snd]. destruct (g v); cbn [map]; rewrite IH by assumption; reflexivity.
  Qed.
  (** A displacement that succeeds, of a parameter that is no density parameter. *)
  Lemma update_plain dvar step pp pp' u p0 : ~ In dvar ["central"; "Omm"; "OmDE"]%string -> pget pp dvar = Some p0 -> update_step dvar step pp = (pp', Ok u) ->
    exists eps, pp' = pset pp dvar (ParamModel.displaced p0 eps).
  Proof.
    intros Nd E. unfold update_step. destruct (String.eqb_spec dvar "central") as [->|]; [exfalso; apply Nd; cbn; auto|]. rewrite E. destruct (negb (is_free p0)); [discriminate|].
    destruct (dget Z.eqb (stem_dict pp) step) as [eps|]; [|discriminate]. destruct (String.eqb_spec dvar "Omm") as [->|]; [exfalso; apply Nd; cbn; auto|]. destruct (String.eqb_spec dvar "OmDE") as [->|]; [exfalso; apply Nd; cbn; auto|].
    cbn [orb]. rewrite andb_false_r. intros H. injection H as <-. eauto.
  Qed.
  Lemma nuisance_keys pp n p eps r : pget pp n = Some p -> dkeys (nuisance_for r (pset pp n (ParamModel.displaced p eps))) = dkeys (nuisance_for r pp).
  Proof. intros E. apply (filter_dset_keys _ _ _ p); [exact E|reflexivity]. Qed.
  Lemma nuisance_other pp n p eps r : pget pp n = Some p -> pprobe p <> Some r -> nuisance_for r (pset pp n (ParamModel.displaced p eps)) = nuisance_for r pp.
  Proof.
    intros E Np. assert (G : is_nuis p && opt_eqb (pprobe p) (Some r) = false).
    { destruct (pprobe p) as [q|]; cbn; [|apply andb_false_r]. destruct (String.eqb_spec q r); [congruence|apply andb_false_r]. }
    apply (filter_dset _ _ _ p); [exact E|exact G|exact G].
  Qed.

  (** Values do not decide whether a weight can be computed. *)
  Lemma dget_keys {V W} (d : dict string V) (e : dict string W) k : dkeys d = dkeys e -> (exists v, dget String.eqb d k = Some v) -> exists w, dget String.eqb e k = Some w.
  Proof. intros Ek (v & Ev). apply dget_key. rewrite <- Ek. apply key_dget in Ev. exact Ev. Qed.
  Lemma read_values (nuis nuis' : dict string (param F)) : dkeys nuis = dkeys nuis' -> forall (names : dict string F) vals,
    rmapM (fun kv => match dget String.eqb nuis (fst kv) with Some p => Ok (fst kv, current p) | None => Err EKeyError end) names = Ok vals ->
    exists vals', rmapM (fun kv => match dget String.eqb nuis' (fst kv) with Some p => Ok (fst kv, current p) | None => Err EKeyError end) names = Ok vals' /\ dkeys vals' = dkeys vals.
  Proof.
    intros Ek. induction names as [|[n x] names IH]; intros vals E; cbn [rmapM fst] in *; [injection E as <-; exists []; auto|].
    destruct (dget String.eqb nuis n) as [p|] eqn:D; [|discriminate]. cbn [rbind] in E. destruct (rmapM _ names) as [v|] eqn:R; [|discriminate]. cbn [rbind] in E. injection E as <-.
    destruct (IH v eq_refl) as (v' & I1 & I2). destruct (dget_keys nuis nuis' n Ek (ex_intro _ p D)) as [p' ->]. cbn [rbind]. rewrite I1. cbn [rbind]. eexists. split; [reflexivity|]. cbn [dkeys map fst] in *. f_equal. exact I2.
  Qed.
  Lemma setup_bias_keys void (f : bfile F) (nuis nuis' : dict string (param F)) m (vals : dict string F) : dkeys nuis = dkeys nuis' -> setup_bias void f nuis = Ok (m, vals) -> exists vals' : dict string F, setup_bias void f nuis' = Ok (m, vals') /\ dkeys vals' = dkeys vals.
  Proof.
    intros Ek E. unfold setup_bias in *. destruct (rmapM _ (by_name (bf_nuis f))) as [v|] eqn:R in E; [|discriminate]. destruct (read_values nuis nuis' Ek _ _ R) as (v' & -> & Kv). cbn [rbind] in *.
    destruct void; [|injection E as <- <-; eauto]. destruct (String.eqb _ "vdn_void"); [injection E as <- <-; eauto|]. destruct (String.eqb _ _); [injection E as <- <-; eauto|discriminate].
  Qed.
  Lemma sorted_bias_keys (d d' : dict string F) b : dkeys d = dkeys d' -> sorted_bias d = Ok b -> exists b', sorted_bias d' = Ok b' /\ length b' = length b.
  Proof.
    intros Ek E. unfold sorted_bias in *.
    assert (G : forall (d d' : dict string F), dkeys d = dkeys d' -> forall l, rmapM (fun kv => i <- bias_idx (fst kv) ;; Ok (i, snd kv)) d = Ok l -> exists l', rmapM (fun kv => i <- bias_idx (fst kv) ;; Ok (i, snd kv)) d' = Ok l' /\ length l' = length l).
    { clear. induction d as [|[k v] d IH]; intros [|[k' v'] d'] Ek l E; try discriminate; [exists []; cbn in E; injection E as <-; auto|]. cbn [dkeys map fst] in Ek. injection Ek as <- Ek. cbn [rmapM fst snd] in *.
      destruct (bias_idx k) as [i|]; [|discriminate]. cbn [rbind] in *. destruct (rmapM _ d) as [m|] eqn:R in E; [|discriminate]. cbn [rbind] in E. injection E as <-. destruct (IH d' Ek m R) as (m' & -> & L). cbn [rbind]. eexists. split; [reflexivity|]. cbn [length]. congruence. }
    destruct (rmapM _ d) as [l|] eqn:R in E; [|discriminate]. cbn [rbind] in E. injection E as <-. destruct (G d d' Ek l R) as (l' & -> & L). cbn [rbind]. eexists. split; [reflexivity|]. rewrite !map_length, !isort_length. exact L.
  Qed.
  Lemma bias_keys m (vals vals' add : dict string F) edges co fid rows : dkeys vals = dkeys vals' -> evaluate_bias N m vals add edges co fid = Ok rows ->
    exists rows', evaluate_bias N m vals' add edges co fid = Ok rows' /\ length rows' = length rows.
  Proof.
    intros Ek. unfold evaluate_bias. destruct m as [[| | | |]|]; [| | | | |discriminate].
    - unfold piecewise_bias, conditions. destruct (sorted_bias vals) as [b|] eqn:S; [|discriminate]. cbn [rbind]. destruct (sorted_bias_keys _ _ _ Ek S) as (b' & -> & L). cbn [rbind]. rewrite L.
      destruct (negb _); [discriminate|]. destruct (Nat.eqb (length b) 0); [discriminate|]. cbn [rbind]. intros H. injection H as <-. eexists. split; [reflexivity|]. rewrite !repeat_length. reflexivity.
    - unfold constant_bias. assert (L : length vals' = length vals) by (rewrite <- (map_length fst vals), <- (map_length fst vals'); unfold dkeys in Ek; congruence). rewrite L.
      destruct (negb _); [discriminate|]. intros H. injection H as <-. eexists. split; [reflexivity|]. rewrite !map_length. exact L.
    - intros H.
      assert (G : forall n, (exists v, dgetr vals n = Ok v) -> exists v, dgetr vals' n = Ok v).
      { intros n (v & Ev). unfold dgetr in *. destruct (dget String.eqb vals n) as [x|] eqn:D; [|discriminate]. destruct (dget_keys vals vals' n Ek (ex_intro _ x D)) as [w ->]. eauto. }
      destruct (dgetr vals "Aph") as [a|] eqn:A1; [|discriminate]. cbn [rbind] in H. destruct (dgetr vals "Bph") as [b|] eqn:A2; [|discriminate]. cbn [rbind] in H.
      destruct (dgetr vals "Cph") as [c|] eqn:A3; [|discriminate]. cbn [rbind] in H. destruct (dgetr vals "Dph") as [d|] eqn:A4; [|discriminate]. cbn [rbind] in H. injection H as <-.
      destruct (G _ (ex_intro _ a A1)) as [a' ->], (G _ (ex_intro _ b A2)) as [b' ->], (G _ (ex_intro _ c A3)) as [c' ->], (G _ (ex_intro _ d A4)) as [d' ->]. cbn [rbind]. eexists. split; [reflexivity|]. rewrite !repeat_length. reflexivity.
    - intros H. exists rows. auto.
    - destruct fid as [f|]; [|discriminate]. destruct (negb _); [discriminate|]. unfold dgetr. destruct (dget String.eqb vals "voidbias0") as [v|] eqn:D; [|discriminate]. destruct (dget_keys vals vals' "voidbias0"%string Ek (ex_intro _ v D)) as [w ->].
      cbn [rbind]. intros H. injection H as <-. eexists. split; [reflexivity|]. rewrite !map_length. reflexivity.
  Qed.
  Lemma par_now_keys (nuis nuis' : dict string (param F)) n x : dkeys nuis = dkeys nuis' -> par_now nuis n = Ok x -> exists x', par_now nuis' n = Ok x'.
  Proof.
    intros Ek. unfold par_now, dgetr. destruct (dget String.eqb nuis n) as [p|] eqn:D; [|discriminate]. destruct (dget_keys nuis nuis' n Ek (ex_intro _ p D)) as [w ->]. cbn [rbind]. eauto.
  Qed.
  Lemma weight_keys an files pp pp' dens co fid r a d w : dkeys (nuisance_for r pp) = dkeys (nuisance_for r pp') -> weight_of N an files pp dens co fid r a = Ok (d, w) ->
    exists w', weight_of N an files pp' dens co fid r a = Ok (d, w').
  Proof.
    intros Ek. unfold weight_of. destruct (negb (smem r long_names)); [discriminate|]. destruct (dgetr dens r) as [d0|]; [|discriminate]. cbn [rbind]. destruct (String.eqb r "Lensing").
    - unfold lensing. destruct (efficiency _ _ _ _ _ _ _) as [eff|]; [|discriminate]. cbn [rbind]. destruct (dgetr (pc_specific a) "include_IA") as [inc|]; [|discriminate]. cbn [rbind]. destruct (sv_true inc).
      + destruct (par_now (nuisance_for r pp) "aIA") as [x1|] eqn:A1; [|discriminate]. cbn [rbind]. destruct (par_now (nuisance_for r pp) "cIA") as [x2|] eqn:A2; [|discriminate]. cbn [rbind].
        destruct (par_now (nuisance_for r pp) "etaIA") as [x3|] eqn:A3; [|discriminate]. cbn [rbind]. destruct (par_now (nuisance_for r pp) "betaIA") as [x4|] eqn:A4; [|discriminate]. cbn [rbind]. intros H. injection H as <- <-.
        destruct (par_now_keys _ _ _ _ Ek A1) as [y1 ->], (par_now_keys _ _ _ _ Ek A2) as [y2 ->], (par_now_keys _ _ _ _ Ek A3) as [y3 ->], (par_now_keys _ _ _ _ Ek A4) as [y4 ->]. cbn [rbind]. eauto.
      + cbn [rbind]. intros H. injection H as <- <-. eauto.
    - unfold biased. destruct (pc_bias a) as [path|]; [|discriminate]. cbn [rbind]. destruct (dget String.eqb files path) as [f|]; [|discriminate]. cbn [rbind].
      destruct (setup_bias (String.eqb r "Void") f (nuisance_for r pp)) as [[m vals]|] eqn:S; [|discriminate]. cbn [rbind fst snd]. destruct (setup_bias_keys _ _ _ _ _ _ Ek S) as (vals' & -> & Kv). cbn [rbind fst snd].
      destruct (evaluate_bias N m vals _ _ co fid) as [rows|] eqn:Eb; [|discriminate]. cbn [rbind]. destruct (bias_keys _ _ _ _ _ _ _ _ (eq_sym Kv) Eb) as (rows' & -> & L). cbn [rbind]. rewrite L.
      destruct (_ || _ || _); [|discriminate]. cbn [rbind]. intros H. injection H as <- <-. eauto.
  Qed.
  Lemma evaluate_total integ nz P P' (k k' : arr3 (F := F)) p q o n m r : evaluate integ nz P k p q o n m = Ok r -> exists r', evaluate integ nz P' k' p q o n m = Ok r'.
  Proof.
    unfold evaluate. destruct (String.eqb p q).
    - destruct (if String.eqb p "SpectroscopicGalaxy" then o else Ok true) as [off|]; [|discriminate]. cbn [rbind]. destruct integ as [f|e].
      + intros _. rewrite auto_pure. eauto.
      + destruct (pairs2 (seq 0 n)) as [|[i j] ps] eqn:Ps; [cbn; eauto|]. intros H.
        assert (G : exists n', n = Datatypes.S n') by (destruct n; [discriminate|eauto]). destruct G as [n' ->]. cbn [seq pairs2] in Ps. injection Ps as <- <- <-. cbn [fold_left] in H. unfold auto_step at 2 in H. cbn in H. rewrite auto_err in H. discriminate.
    - destruct integ as [f|e].
      + intros _. rewrite cross_pure. eauto.
      + destruct (list_prod (seq 0 n) (seq 0 m)) as [|ij ps]; [cbn; eauto|]. cbn [fold_left]. unfold cross_step at 2. cbn. rewrite cross_err. discriminate.
  Qed.

  (** Displacing a nuisance parameter of one probe changes no spectrum without that
      probe; nor does it make the computation fail. *)
  Theorem C108_displaced an cfgs files pp dens co fid out dvar step pp' u p0 r : NoDup (dkeys cfgs) -> compute_cls N an cfgs files pp dens co fid = Ok out ->
    ~ In dvar ["central"; "Omm"; "OmDE"]%string -> pget pp dvar = Some p0 -> is_nuis p0 = true -> pprobe p0 = Some r -> update_step dvar step pp = (pp', Ok u) ->
    exists out', compute_cls N an cfgs files pp' dens co fid = Ok out' /\ dkeys out' = dkeys out /\
      forall p q, In (p, q) (pairs2 (dkeys cfgs)) -> p <> r -> q <> r -> dget String.eqb out' (p ++ "_" ++ q)%string = dget String.eqb out (p ++ "_" ++ q)%string.
  Proof.
    intros Nd E Nv Ep Nu Pr Up. destruct (update_plain _ _ _ _ _ _ Nv Ep Up) as [eps ->]. clear Up.
    assert (Ok' : exists out', compute_cls N an cfgs files (pset pp dvar (ParamModel.displaced p0 eps)) dens co fid = Ok out').
    { destruct (compute_inv N _ _ _ _ _ _ _ _ Nd E) as (W & A & B).
      assert (Ws : exists ws', rmapM (fun kc => w <- weight_of N an files (pset pp dvar (ParamModel.displaced p0 eps)) dens co fid (fst kc) (snd kc) ;; Ok (fst kc, w)) cfgs = Ok ws').
      { apply (rmapM_dict_total (fun kc => weight_of N an files (pset pp dvar (ParamModel.displaced p0 eps)) dens co fid (fst kc) (snd kc))). intros k c Hi. cbn [fst snd].
        destruct (W k) as (a & [d w] & W1 & W2); [apply (in_map fst) in Hi; exact Hi|]. pose proof (dget_NoDup_In _ String.eqb_spec _ _ _ Nd Hi) as D. assert (a = c) as -> by congruence.
        destruct (weight_keys an files pp (pset pp dvar (ParamModel.displaced p0 eps)) dens co fid k c d w) as [w' ->]; [symmetry; apply nuisance_keys; exact Ep|exact W2|]. eauto. }
      destruct Ws as [ws' Ws]. pose proof (rmapM_dict (fun kc => weight_of N an files (pset pp dvar (ParamModel.displaced p0 eps)) dens co fid (fst kc) (snd kc)) _ _ Ws) as [Kw Gw]. cbn [fst snd] in Gw.
      assert (St : forall p q, In (p, q) (combinations cfgs) -> exists rd s, setup_spectrum cfgs ws' co (p, q) = Ok (comb_key p q, rd) /\ evaluate_one N an cfgs co rd = Ok s).
      { intros p q Hpq. destruct (B p q Hpq) as (a & b & [dp wp] & [dq wq] & rd & s & B1 & B2 & B3 & B4 & B5 & B6 & B7).
        pose proof (Gw p) as Gp. rewrite B1 in Gp. destruct Gp as ([dp' wp'] & Gp1 & Gp2). pose proof (Gw q) as Gq. rewrite B2 in Gq. destruct Gq as ([dq' wq'] & Gq1 & Gq2).
        destruct (weight_of_long N _ _ _ _ _ _ _ _ _ B3) as [Lp Dp], (weight_of_long N _ _ _ _ _ _ _ _ _ B4) as [Lq Dq].
        destruct (weight_of_long N _ _ _ _ _ _ _ _ _ Gp1) as [_ Dp'], (weight_of_long N _ _ _ _ _ _ _ _ _ Gq1) as [_ Dq']. cbn [fst] in *. assert (dp' = dp) as -> by congruence. assert (dq' = dq) as -> by congruence.
        rewrite (setup_pair cfgs ws' co p q a b _ _ Lp Lq B1 B2 Gp2 Gq2). unfold pair_setup in *. destruct (multipoles p q a b) as [m|]; [|discriminate]. cbn [rbind] in *. destruct (limber_of _ _ _ _ _) as [P|]; [|discriminate]. cbn [rbind fst snd] in *. injection B5 as <-.
        eexists. unfold evaluate_one in *. cbn [rd_P rd_k rd_p rd_q rd_ni rd_nj rd_ells rd_widths] in *.
        match type of B6 with context [evaluate ?I ?z ?P ?k ?p ?q ?o ?n ?m] => destruct (evaluate I z P k p q o n m) as [c|] eqn:Ev; [|discriminate] end.
        destruct (evaluate_total _ _ _ P _ (kernel (String.eqb p q) wp' wq' (co_c co) (co_H co) (co_r co)) _ _ _ _ _ _ Ev) as [c' Ev'].
        eexists. split; [reflexivity|]. cbn [rd_P rd_k rd_p rd_q rd_ni rd_nj rd_ells rd_widths]. rewrite Ev'. reflexivity. }
      destruct (rfold_total (setup_spectrum cfgs ws' co) (combinations cfgs)) with (d := @nil (string * ready F)) as [d Hd].
      { intros [p q] Hpq. destruct (St p q Hpq) as (rd & s & -> & _). eauto. }
      assert (Sd : setup N an cfgs files (pset pp dvar (ParamModel.displaced p0 eps)) dens co fid = Ok d) by (unfold setup; rewrite Ws; exact Hd).
      unfold compute_cls. rewrite Sd. cbn [rbind]. apply (rmapM_dict_total (fun kr => evaluate_one N an cfgs co (snd kr))). intros k rd Hi. cbn [snd].
      destruct (setup_inv N _ _ _ _ _ _ _ _ Nd Sd) as (_ & Ks & Gs). assert (Hk : In k (dkeys d)) by (apply (in_map fst) in Hi; exact Hi). rewrite Ks in Hk. apply in_map_iff in Hk. destruct Hk as ([p q] & <- & Hpq). cbn [fst snd] in *.
      destruct (Gs p q Hpq) as (a & b & wp & wq & rd' & G1 & G2 & G3 & G4 & G5 & G6).
      assert (NdK : NoDup (dkeys d)). { rewrite Ks. apply pair_keys_nodup; [exact Nd|]. intros x Hx. destruct (W x Hx) as (? & ? & _ & Hw). exact (proj1 (weight_of_long N _ _ _ _ _ _ _ _ _ Hw)). }
      pose proof (dget_NoDup_In _ String.eqb_spec _ _ _ NdK Hi) as D. assert (rd' = rd) as -> by congruence.
      destruct (St p q Hpq) as (rd0 & s & S1 & S2). exists s.
      destruct (weight_of_long N _ _ _ _ _ _ _ _ _ G3) as [Lp _], (weight_of_long N _ _ _ _ _ _ _ _ _ G4) as [Lq _].
      pose proof (Gw p) as Gp. rewrite G1 in Gp. destruct Gp as (wp' & Gp1 & Gp2). pose proof (Gw q) as Gq. rewrite G2 in Gq. destruct Gq as (wq' & Gq1 & Gq2). assert (wp' = wp) as -> by congruence. assert (wq' = wq) as -> by congruence.
      rewrite (setup_pair cfgs ws' co p q a b _ _ Lp Lq G1 G2 Gp2 Gq2) in S1. assert (rd0 = rd) as -> by congruence. exact S2. }
    destruct Ok' as [out' E']. exists out'. split; [exact E'|].
    destruct (compute_inv N _ _ _ _ _ _ _ _ Nd E) as (_ & A & _). destruct (compute_inv N _ _ _ _ _ _ _ _ Nd E') as (_ & A' & _). split; [congruence|].
    intros p q Hpq Np Nq.
    assert (S : forall x, x <> r -> same_inputs cfgs cfgs files files pp (pset pp dvar (ParamModel.displaced p0 eps)) dens dens x).
    { intros x Nx. split; [reflexivity|]. split; [|split; reflexivity]. symmetry. apply nuisance_other; [exact Ep|]. rewrite Pr. congruence. }
    destruct (C108_own_inputs _ _ _ _ _ _ _ _ _ _ _ _ _ p q Nd Nd E E' Hpq Hpq (S p Np) (S q Nq)) as (s & -> & ->). reflexivity.
  Qed.
End P.

(** ** A forecast with lensing, photometric galaxies and voids *)
Definition ex_sum (ys : list Qc) : Qc := fold_right Qcplus 0%Qc ys.
Definition ex_num : numerics Qc := mkNu (fun ys _ => ex_sum ys) (fun _ ys => ex_sum ys) (fun ys _ => ex_sum ys)
  (fun _ _ _ _ => qz 1) (fun a b _ _ z => a + b * z)%Qc (fun _ ys _ => ex_sum ys) (fun _ _ cs => Ok cs) (fun e b z => e + b * z)%Qc.
Definition ex_co : cosmology Qc := mkCo [qz 0; qz 1; qz 2] (fun z => qz (Z.of_nat z + 1)) (fun z => qz (Z.of_nat z + 1)) (fun z => qz (Z.of_nat z + 1)) (fun _ => qz 1) (qz 1) (qz 1) (qz 1) (fun _ k => k).
Definition ex_den : density Qc := mkDe 2 [qz 0; qz 1; qz 2] (fun i z => qz (Z.of_nat (i + z + 1))).
Definition ex_dens : dict string (density Qc) := [("Lensing", ex_den); ("PhotometricGalaxy", ex_den); ("Void", ex_den)]%string.
Definition ex_cfgs : dict string (pcfg Qc) :=
  [("Lensing", mkPc "Lensing" [qz 10; qz 20] [qz 1; qz 1] "wl.h5" None false [] [("include_IA", SBool true)]);
   ("PhotometricGalaxy", mkPc "PhotometricGalaxy" [qz 20; qz 30] [qz 1; qz 1] "gcph.h5" (Some "gcph_bias.h5") false [] []);
   ("Void", mkPc "Void" [qz 20] [qz 1] "v.h5" (Some "v_bias.h5") false [] [("void_kcut_invMpc", SFloat (qz 100)); ("void_kcut_width_invMpc", SFloat (qz 1))])]%string.
Definition ex_files : dict string (bfile Qc) :=
  [("gcph_bias.h5", mkBf None "constant" [("bgph1", qz 0); ("bgph0", qz 0)] []); ("v_bias.h5", mkBf None "fiducial_growth_void" [("voidbias0", qz 0)] [])]%string.
Definition ex_par (name probe : string) (v : Z) : string * param Qc := (name, mkPar name (qz v) (qz v) false (Some probe) (qz 1) true "" "" "SteM").
Definition ex_pp : coll Qc := mkColl
  [ex_par "aIA" "Lensing" 1; ex_par "cIA" "Lensing" 1; ex_par "etaIA" "Lensing" 1; ex_par "betaIA" "Lensing" 1;
   ex_par "bgph0" "PhotometricGalaxy" 3; ex_par "bgph1" "PhotometricGalaxy" 5; ex_par "voidbias0" "Void" 2]%string [] [(1%Z, qq 1 2)] false.
Definition ex_an : angular := mkAn "simpson" "simpson".
Definition ex_out := compute_cls ex_num ex_an ex_cfgs ex_files ex_pp ex_dens ex_co (Some ex_co).
Definition cell (o : res (dict string (spectrum Qc))) (k : string) (l i j : nat) : option Q :=
  match o with Ok d => match dget String.eqb d k with Some s => Some (this (sp_c s l i j)) | None => None end | Err _ => None end.
Example C108_instance : NoDup (dkeys ex_cfgs) /\ (exists out, ex_out = Ok out /\
    dkeys out = ["Lensing_Lensing"; "Lensing_PhotometricGalaxy"; "Lensing_Void"; "PhotometricGalaxy_PhotometricGalaxy"; "PhotometricGalaxy_Void"; "Void_Void"]%string) /\
  (exists q, cell ex_out "PhotometricGalaxy_PhotometricGalaxy" 0 0 1 = Some q /\ ~ (q == 0)%Q) /\
  (match ex_out with Ok d => match dget String.eqb d "Lensing_PhotometricGalaxy" with Some s => map this (sp_ells s) | None => [] end | Err _ => [] end = map this [qz 20]).
Proof.
  split; [repeat constructor; cbn; intros H; repeat destruct H as [H|H]; discriminate || contradiction|]. split; [|split].
  - assert (G : match ex_out with Ok d => dkeys d | Err _ => [] end = ["Lensing_Lensing"; "Lensing_PhotometricGalaxy"; "Lensing_Void"; "PhotometricGalaxy_PhotometricGalaxy"; "PhotometricGalaxy_Void"; "Void_Void"]%string) by (vm_compute; reflexivity).
    destruct ex_out as [d|]; [|discriminate]. exists d. auto.
  - eexists. split; [vm_compute; reflexivity|]. vm_compute. discriminate.
  - vm_compute. reflexivity.
Qed.
(** Displacing bgph1 changes a spectrum of the galaxies, and none without them. *)
Definition ex_moved : coll Qc := fst (update_step "bgph1" 1 ex_pp).
Example C108_displaced_instance : snd (update_step "bgph1" 1 ex_pp) = Ok tt /\
  (let o := compute_cls ex_num ex_an ex_cfgs ex_files ex_moved ex_dens ex_co (Some ex_co) in
   (exists p q, cell ex_out "PhotometricGalaxy_PhotometricGalaxy" 0 0 1 = Some p /\ cell o "PhotometricGalaxy_PhotometricGalaxy" 0 0 1 = Some q /\ ~ (p == q)%Q) /\
   cell ex_out "Lensing_Void" 0 0 1 = cell o "Lensing_Void" 0 0 1 /\ cell o "Lensing_Void" 0 0 1 <> None).
Proof. split; [vm_compute; reflexivity|]. cbn zeta. split; [eexists; eexists; split; [vm_compute; reflexivity|]; split; [vm_compute; reflexivity|]; vm_compute; discriminate|]. split; [vm_compute; reflexivity|vm_compute; discriminate]. Qed.
(** Other probes and their parameters do not matter. *)
Example C108_own_instance : same_inputs ex_cfgs (tl ex_cfgs) ex_files ex_files ex_pp (mkColl (skipn 4 (params ex_pp)) [] [] true) ex_dens (tl ex_dens) "Void" /\
  cell (compute_cls ex_num ex_an (tl ex_cfgs) ex_files (mkColl (skipn 4 (params ex_pp)) [] [] true) (tl ex_dens) ex_co (Some ex_co)) "Void_Void" 0 0 1 = cell ex_out "Void_Void" 0 0 1 /\ cell ex_out "Void_Void" 0 0 1 <> None.
Proof. split; [repeat split; reflexivity|]. split; [vm_compute; reflexivity|vm_compute; discriminate]. Qed.

(** Which values switch an option on. *)
Theorem C108_flags {F} {K : Fld F} (v : sval F) : sv_true v = false <-> v = SNull \/ v = SBool false \/ v = SInt 0 \/ v = SFloat fz \/ v = SStr "".
Proof.
  unfold sv_true. destruct v as [|b|z|x|s].
  - split; auto.
  - destruct b; split; try (intros [E|[E|[E|[E|E]]]]; discriminate E); try discriminate; auto.
  - destruct (Z.eqb_spec z 0) as [->|n]; cbn [negb]; split; auto; try discriminate. intros [E|[E|[E|[E|E]]]]; try discriminate E. congruence.
  - unfold truthy. destruct (fdec x fz) as [->|n]; split; auto; try discriminate. intros [E|[E|[E|[E|E]]]]; try discriminate E. congruence.
  - destruct (String.eqb_spec s "") as [->|n]; cbn [negb]; split; auto; try discriminate; auto 6. intros [E|[E|[E|[E|E]]]]; try discriminate E. congruence.
Qed.

Print Assumptions C108_flags.
Print Assumptions C108_spectra.
Print Assumptions C108_own_inputs.
Print Assumptions C108_displaced.
