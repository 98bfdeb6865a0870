(** C125: files of earlier versions. *)
From Verif Require Import Base SortLib StrLib NameModel StemLemmas3 CompareProps RetroModel.
Open Scope nat_scope.
Open Scope string_scope.
Open Scope list_scope.

Definition dg (n : nat) : ascii := ascii_of_nat (48 + n).
Lemma digit_dg n : n < 10 -> digit_of (dg n) = Some n.
Proof. intros H. do 10 (destruct n as [|n]; [reflexivity|]). lia. Qed.
(** The text of a version: three digits and a letter or none. *)
Definition vtext (x y z : nat) (l : string) : string := String (dg x) (String "." (String (dg y) (String "." (String (dg z) l)))).
Definition older (x y z : nat) (l : string) : Prop := x = 0 \/ x = 1 /\ y = 0 \/ x = 1 /\ y = 1 /\ z = 0 /\ In l ["a"; "b"; "c"].
Definition newer (x y z : nat) (l : string) : Prop := 1 < x \/ x = 1 /\ 1 < y \/ x = 1 /\ y = 1 /\ 0 < z \/ x = 1 /\ y = 1 /\ z = 0 /\ l = "r".
Definition letters : list string := [""; "a"; "b"; "c"; "r"].
Lemma version_text x y z l : x < 10 -> y < 10 -> z < 10 -> In l letters -> exists p, phase l = Some p /\ version (vtext x y z l) = Ok [x; y; z; p].
Proof.
  intros Hx Hy Hz Hl. assert (P : exists p, phase l = Some p) by (cbn in Hl; decompose [or] Hl; subst; try contradiction; eexists; reflexivity). destruct P as (p & P). exists p. split; [exact P|]. cbn [version vtext]. rewrite !digit_dg, P by assumption. reflexivity.
Qed.
Lemma before_old x y z l p : In l letters -> phase l = Some p -> (before [x; y; z; p] v110 = true <-> older x y z l).
Proof.
  intros Hl P. unfold older, before, v110. rewrite !orb_true_iff, !andb_true_iff, !orb_true_iff, !andb_true_iff, !orb_true_iff, !andb_true_iff, !orb_true_iff, !andb_true_iff, !Nat.ltb_lt, !Nat.eqb_eq. cbn in Hl. decompose [or] Hl; subst; try contradiction; cbn in P; injection P as <-; cbn [In]; split; intros H; decompose [or and] H; try lia; try discriminate; try contradiction; auto 10; try (right; right; repeat split; auto; lia).
Qed.
Lemma before_new x y z l p : In l letters -> phase l = Some p -> (before v110 [x; y; z; p] = true <-> newer x y z l).
Proof.
  intros Hl P. unfold newer, before, v110. rewrite !orb_true_iff, !andb_true_iff, !orb_true_iff, !andb_true_iff, !orb_true_iff, !andb_true_iff, !orb_true_iff, !andb_true_iff, !Nat.ltb_lt, !Nat.eqb_eq. cbn in Hl. decompose [or] Hl; subst; try contradiction; cbn in P; injection P as <-; split; intros H; decompose [or and] H; try lia; try discriminate; try contradiction; subst; auto 10; right; right; right; repeat split; auto; lia.
Qed.

Section Props.
  Context {D F : Type}.
  Notation h5 := (h5 D F).
  (** The dataset at a path of a file. *)
  Inductive leaf : h5 -> list string -> D -> Prop :=
  | leaf_here d : leaf (DS d) [] d
  | leaf_in a ch n g p d : dget String.eqb ch n = Some g -> leaf g p d -> leaf (GRP a ch) (n :: p) d.
  Lemma array_leaf p d : forall f : h5, array f p = Ok d <-> leaf f p d.
  Proof.
    unfold array. induction p as [|n p IH]; intros f; cbn [node].
    - destruct f; cbn; split; intros H; try discriminate; [injection H as <-; constructor|inversion H; reflexivity|inversion H].
    - destruct f as [e|a ch]; cbn [rbind]; [split; [discriminate|intros H; inversion H]|]. destruct (dget String.eqb ch n) as [g|] eqn:E; cbn [rbind].
      + rewrite IH. split; [intros H; econstructor; eauto|intros H; inversion H; subst; congruence].
      + split; [discriminate|intros H; inversion H; subst; congruence].
  Qed.
  (** An entry of the file itself that is a dataset, or none. *)
  Definition top (f : h5) (n : string) (o : option D) : Prop := match o with Some d => leaf f [n] d | None => node f [n] = Err EKeyError end.
  Lemma top_read f n o : top f n o -> top_array f n = Ok o.
  Proof.
    unfold top, top_array. destruct o as [d|]; intros H; [|rewrite H; reflexivity]. apply array_leaf in H. unfold array in H. destruct (node f [n]) as [[e|]|]; cbn in H; congruence.
  Qed.
  Lemma top_leaf f n o : top_array f n = Ok o -> forall d, o = Some d -> leaf f [n] d.
  Proof. unfold top_array. intros H d ->. apply array_leaf. unfold array. destruct (node f [n]) as [[e|]|]; try discriminate. injection H as <-. reflexivity. Qed.

  Section Cosmo.
    Context (load_new : h5 -> bool -> res (cosmo D F)).
    Notation read_cosmo := (read_cosmo load_new).
    (** Cosmologies of runs before 1.1.0. *)
    Theorem C125_old_cosmology f x y z l b ez rz zg k lin non g t : x < 10 -> y < 10 -> z < 10 -> In l letters -> older x y z l ->
      leaf f ["cosmology"; "dimensionless_hubble_parameter"] ez -> leaf f ["cosmology"; "dimensionless_comoving_distance"] rz -> leaf f ["cosmology"; "z_array"] zg ->
      leaf f ["power_spectrum"; "k_array"] k -> leaf f ["power_spectrum"; "p_mm_values"; "lin_p_mm_z_k"] lin -> leaf f ["power_spectrum"; "p_mm_values"; "nonlin_p_mm_z_k"] non ->
      top f "growth_factor_z" g -> top f "transfer_function" t ->
      exists c, read_cosmo f (vtext x y z l) b = Ok c /\ co_z c = Some zg /\ co_hub c = Some ez /\ co_dist c = Some rz /\ co_pmm c = Some (mkPmm zg k lin non t).
    Proof.
      intros Hx Hy Hz Hl Ho H1 H2 H3 H4 H5 H6 H7 H8. apply array_leaf in H1, H2, H3, H4, H5, H6. apply top_read in H7, H8. destruct (version_text x y z l Hx Hy Hz Hl) as (p & P & V). unfold RetroModel.read_cosmo. rewrite V. cbn [rbind]. rewrite (proj2 (before_old x y z l p Hl P) Ho). unfold read_104. rewrite H1, H2, H3, H4, H5, H6, H7, H8. cbn [rbind]. eexists. split; [reflexivity|]. auto.
    Qed.
    (** The growth factor of the file is not in the cosmology. *)
    Theorem C125_growth_refuted f x y z l b c : x < 10 -> y < 10 -> z < 10 -> In l letters -> older x y z l -> read_cosmo f (vtext x y z l) b = Ok c -> co_growth c = None /\ co_params c = None.
    Proof.
      intros Hx Hy Hz Hl Ho H. destruct (version_text x y z l Hx Hy Hz Hl) as (p & P & V). unfold RetroModel.read_cosmo in H. rewrite V in H. cbn [rbind] in H. rewrite (proj2 (before_old x y z l p Hl P) Ho) in H. unfold read_104 in H.
      repeat match type of H with rbind ?a _ = _ => destruct a; cbn [rbind] in H; [|discriminate] end. injection H as <-. auto.
    Qed.
    (** What write_old_cosmo_file writes cannot be read again. *)
    Theorem C125_rewritten_refuted (c : cosmo D F) f x y z l b : x < 10 -> y < 10 -> z < 10 -> In l letters -> older x y z l -> write_old c = Ok f -> read_cosmo f (vtext x y z l) b = Err EKeyError.
    Proof.
      intros Hx Hy Hz Hl Ho H. destruct (version_text x y z l Hx Hy Hz Hl) as (p & P & V). unfold RetroModel.read_cosmo. rewrite V. cbn [rbind]. rewrite (proj2 (before_old x y z l p Hl P) Ho). unfold write_old in H. destruct (co_pmm c); [|discriminate]. destruct (co_z c); [|discriminate]. injection H as <-. reflexivity.
    Qed.
    (** A parameter of version 1.1.0. *)
    Definition group_of (f : h5) (p : list string) (a : dict string (attr F)) (ch : list (string * h5)) : Prop := node f p = Ok (GRP a ch).
    Theorem C125_110 f b ez rz zg a ch : leaf f ["cosmology"; "z_grid"] zg -> leaf f ["cosmology"; "dimensionless_hubble_array"] ez -> leaf f ["cosmology"; "dimensionless_comoving_distance_array"] rz ->
      group_of f ["cosmology"; "cosmological_parameters"] a ch ->
      (forall n, In n (dkeys ch) -> exists q h u v w, group_of f ["cosmology"; "cosmological_parameters"; n] q h /\ dget String.eqb q "fiducial" = Some (AF u) /\ dget String.eqb q "is_present" = Some (AB v) /\ dget String.eqb q "current" = Some (AF w)) ->
      exists c ps, read_cosmo f (vtext 1 1 0 "") b = Ok c /\ co_z c = Some zg /\ co_hub c = Some ez /\ co_dist c = Some rz /\ co_params c = Some ps /\ dkeys ps = dkeys ch /\
        forall n r, In (n, r) ps -> exists q h u v w, group_of f ["cosmology"; "cosmological_parameters"; n] q h /\ dget String.eqb q "fiducial" = Some (AF u) /\ dget String.eqb q "is_present" = Some (AB v) /\ dget String.eqb q "current" = Some (AF w) /\ r = mkPar n u w v.
    Proof.
      intros H1 H2 H3 H4 H. apply array_leaf in H1, H2, H3. change (read_cosmo f (vtext 1 1 0 "") b) with (read_110 f). unfold read_110. rewrite H1, H2, H3. cbn [rbind]. unfold entries. rewrite H4. cbn [rbind].
      assert (R : exists ps, rmapM (read_par f) (dkeys ch) = Ok ps /\ dkeys ps = dkeys ch /\ forall n r, In (n, r) ps -> exists q h u v w, group_of f ["cosmology"; "cosmological_parameters"; n] q h /\ dget String.eqb q "fiducial" = Some (AF u) /\ dget String.eqb q "is_present" = Some (AB v) /\ dget String.eqb q "current" = Some (AF w) /\ r = mkPar n u w v).
      { induction (dkeys ch) as [|n ns IH]; [exists []; repeat split; intros ? ? []|]. destruct (H n (or_introl eq_refl)) as (q & h & u & v & w & G & E1 & E2 & E3). destruct IH as (ps & E & Ek & Es); [intros m Hm; apply H; right; exact Hm|].
        exists ((n, mkPar n u w v) :: ps). cbn [rmapM]. unfold read_par at 1. rewrite G. cbn [rbind]. unfold attr_of. rewrite E1, E2, E3. cbn [rbind]. rewrite E. cbn [rbind]. split; [reflexivity|]. split; [cbn; f_equal; exact Ek|]. intros m r [Q|Q]; [injection Q as <- <-; exists q, h, u, v, w; auto|apply Es; exact Q]. }
      destruct R as (ps & -> & Ek & Es). cbn [rbind]. eexists. exists ps. split; [reflexivity|]. cbn. auto 10.
    Qed.
    (** The option for the power spectrum matters in newer versions only. *)
    Theorem C125_newer f x y z l b : x < 10 -> y < 10 -> z < 10 -> In l letters -> newer x y z l -> read_cosmo f (vtext x y z l) b = load_new f b.
    Proof.
      intros Hx Hy Hz Hl Hn. destruct (version_text x y z l Hx Hy Hz Hl) as (p & P & V). unfold RetroModel.read_cosmo. rewrite V. cbn [rbind]. rewrite (proj2 (before_new x y z l p Hl P) Hn). destruct (before [x; y; z; p] v110) eqn:E; [|reflexivity]. apply (before_old x y z l p Hl P) in E. exfalso. unfold older, newer in *. decompose [or and] Hn; decompose [or and] E; try lia; subst; cbn in *; intuition discriminate.
    Qed.
    Theorem C125_power_spectrum_refuted f : (forall c, read_cosmo f (vtext 1 1 0 "") true = Ok c -> co_pmm c = None) /\
      (forall x y z l c, x < 10 -> y < 10 -> z < 10 -> In l letters -> older x y z l -> read_cosmo f (vtext x y z l) false = Ok c -> co_pmm c <> None).
    Proof.
      split.
      - intros c H. change (read_110 f = Ok c) in H. unfold read_110 in H. repeat match type of H with rbind ?a _ = _ => destruct a; cbn [rbind] in H; [|discriminate] end. injection H as <-. reflexivity.
      - intros x y z l c Hx Hy Hz Hl Ho H. destruct (version_text x y z l Hx Hy Hz Hl) as (p & P & V). unfold RetroModel.read_cosmo in H. rewrite V in H. cbn [rbind] in H. rewrite (proj2 (before_old x y z l p Hl P) Ho) in H. unfold read_104 in H.
        repeat match type of H with rbind ?a _ = _ => destruct a; cbn [rbind] in H; [|discriminate] end. injection H as <-. discriminate.
    Qed.
    Theorem C125_letters_refuted f x y z a b : ~ In (String a "") letters -> read_cosmo f (vtext x y z (String a "")) b = Err EValueError.
    Proof.
      intros N. unfold RetroModel.read_cosmo. cbn [version vtext]. assert (E : phase (String a "") = None). { cbn. cbn in N. destruct (Ascii.eqb_spec a "a"); [subst; tauto|]. destruct (Ascii.eqb_spec a "b"); [subst; tauto|]. destruct (Ascii.eqb_spec a "c"); [subst; tauto|]. destruct (Ascii.eqb_spec a "r"); [subst; tauto|]. reflexivity. }
      rewrite E. cbn [Ascii.eqb Bool.eqb andb]. destruct (digit_of (dg x)), (digit_of (dg y)), (digit_of (dg z)); reflexivity.
    Qed.
  End Cosmo.

  (** ** Spectra *)
  Section Spectra.
    Context (classes : list string) (load_new : h5 -> res (coll D)).
    Notation read_cls := (read_cls classes load_new).
    Definition weight_at (f : h5) (p : string) (w : wgt D) : Prop := wg_probe w = p /\ leaf f ["weight_functions"; p] (wg_w w) /\ leaf f ["density_functions"; p; "norm_density_i_z"] (wg_dens w).
    Definition spectrum_at (f : h5) (key : string) (s : spectrum D) : Prop :=
      key = (sp_p1 s ++ "_" ++ sp_p2 s)%string /\ has "_" (sp_p1 s) = false /\ has "_" (sp_p2 s) = false /\
      leaf f ["cls"; key; "c_lij"] (sp_c s) /\ leaf f ["cls"; key; "l_bin_centers"] (sp_l s) /\ leaf f ["cls"; key; "l_bin_widths"] (sp_dl s) /\ leaf f ["kernels"; key; "k_ijz"] (sp_k s) /\
      weight_at f (sp_p1 s) (sp_w1 s) /\ weight_at f (sp_p2 s) (sp_w2 s).
    Lemma read_wgt_at f p w : In p classes -> weight_at f p w -> read_wgt classes f p = Ok w.
    Proof. intros I (E & A & B). apply array_leaf in A, B. unfold read_wgt. apply smem_In in I. rewrite I, A, B. cbn [rbind]. destruct w; cbn in *; subst. reflexivity. Qed.
    Lemma wgt_inv f p w : read_wgt classes f p = Ok w -> weight_at f p w.
    Proof.
      unfold read_wgt. destruct (smem p classes); cbn [rbind]; [|discriminate]. destruct (array f ["weight_functions"; p]) eqn:A; cbn [rbind]; [|discriminate]. destruct (array f ["density_functions"; p; "norm_density_i_z"]) eqn:B; cbn [rbind]; [|discriminate]. intros E. injection E as <-. apply array_leaf in A, B. split; [reflexivity|]. auto.
    Qed.
    Lemma cl_inv f key n s : read_cl classes f key = Ok (n, s) -> n = key /\ spectrum_at f key s.
    Proof.
      unfold read_cl. destruct (split_char "_" key) as [|p1 [|p2 [|]]] eqn:E; try discriminate. intros H.
      destruct (array f ["cls"; key; "c_lij"]) eqn:A1; cbn [rbind] in H; [|discriminate]. destruct (array f ["cls"; key; "l_bin_centers"]) eqn:A2; cbn [rbind] in H; [|discriminate]. destruct (array f ["cls"; key; "l_bin_widths"]) eqn:A3; cbn [rbind] in H; [|discriminate]. destruct (array f ["kernels"; key; "k_ijz"]) eqn:A4; cbn [rbind] in H; [|discriminate].
      destruct (read_wgt classes f p1) as [w1|] eqn:W1; cbn [rbind] in H; [|discriminate]. destruct (read_wgt classes f p2) as [w2|] eqn:W2; cbn [rbind] in H; [|discriminate]. injection H as <- <-. split; [reflexivity|]. apply array_leaf in A1, A2, A3, A4. apply wgt_inv in W1, W2.
      unfold spectrum_at. cbn. split; [|split; [apply (split_parts "_" key); rewrite E; left; reflexivity|split; [apply (split_parts "_" key); rewrite E; right; left; reflexivity|auto 10]]].
      pose proof (join_split "_" key) as J. rewrite E in J. symmetry. exact J.
    Qed.
    Theorem C125_old_spectra f x y z l c : x < 10 -> y < 10 -> z < 10 -> In l letters -> older x y z l -> read_cls f (vtext x y z l) = Ok c ->
      exists a ch, node f ["cls"] = Ok (GRP a ch) /\ (forall k, In k (dkeys (co_cls c)) <-> In k (dkeys ch)) /\ forall k s, dget String.eqb (co_cls c) k = Some s -> spectrum_at f k s.
    Proof.
      intros Hx Hy Hz Hl Ho H. destruct (version_text x y z l Hx Hy Hz Hl) as (p & P & V). unfold RetroModel.read_cls in H. rewrite V in H. cbn [rbind] in H. rewrite (proj2 (before_old x y z l p Hl P) Ho) in H. unfold read_cls_104 in H.
      do 3 (match type of H with rbind ?u _ = _ => destruct u as [?|]; cbn [rbind] in H; [|discriminate] end). unfold entries in H. destruct (node f ["cls"]) as [[|aa ch]|]; cbn [rbind] in H; try discriminate. destruct (rmapM (read_cl classes f) (dkeys ch)) as [ss|] eqn:E; cbn [rbind] in H; [|discriminate]. injection H as <-. exists aa, ch. split; [reflexivity|]. cbn [co_cls].
      assert (Kx : map fst ss = dkeys ch). { clear -E. revert ss E. induction (dkeys ch) as [|k ks IH]; intros ss E; cbn [rmapM] in E; [injection E as <-; reflexivity|]. destruct (read_cl classes f k) as [[n s]|] eqn:R; cbn [rbind] in E; [|discriminate]. destruct (rmapM (read_cl classes f) ks) as [t|]; cbn [rbind] in E; [|discriminate]. injection E as <-. cbn. rewrite (IH t eq_refl). apply cl_inv in R. destruct R as [-> _]. reflexivity. }
      assert (Fk : forall (t : list (string * spectrum D)) d k, In k (dkeys (fold_left (fun d kv => dset String.eqb d (fst kv) (snd kv)) t d)) <-> In k (map fst t) \/ In k (dkeys d)).
      { induction t as [|[k0 s0] t IH]; intros d k; cbn [fold_left map fst snd]; [cbn; tauto|]. rewrite IH. assert (Q : In k (dkeys (dset String.eqb d k0 s0)) <-> k = k0 \/ In k (dkeys d)). { clear. induction d as [|[q w] d IH]; cbn; [intuition congruence|]. destruct (String.eqb_spec q k0) as [->|]; cbn; [intuition congruence|]. unfold dkeys in IH. rewrite IH. intuition congruence. } rewrite Q. cbn. intuition congruence. }
      split; [intros k; rewrite Fk, Kx; cbn; tauto|].
      assert (Fg : forall (t : list (string * spectrum D)) d k s, dget String.eqb (fold_left (fun d kv => dset String.eqb d (fst kv) (snd kv)) t d) k = Some s -> In (k, s) t \/ dget String.eqb d k = Some s).
      { induction t as [|[k0 s0] t IH]; intros d k s G; cbn [fold_left] in G; [auto|]. apply IH in G. destruct G as [G|G]; [left; right; exact G|]. cbn [fst snd] in G. destruct (String.eqb_spec k0 k) as [->|N]; [rewrite (dget_dset_same _ String.eqb_spec) in G; injection G as ->; left; left; reflexivity|rewrite (dget_dset_other _ String.eqb_spec) in G by exact N; right; exact G]. }
      intros k s G. apply Fg in G. destruct G as [G|G]; [|discriminate]. destruct (rmapM_In _ _ _ _ E G) as (key & _ & R). apply cl_inv in R. destruct R as [-> R]. exact R.
    Qed.
    Theorem C125_old_spectra_total f x y z l a ch : x < 10 -> y < 10 -> z < 10 -> In l letters -> older x y z l -> node f ["cls"] = Ok (GRP a ch) ->
      (forall g, In g ["density_functions"; "weight_functions"; "kernels"] -> exists n, node f [g] = Ok n) ->
      (forall k, In k (dkeys ch) -> exists s, spectrum_at f k s /\ In (sp_p1 s) classes /\ In (sp_p2 s) classes) -> exists c, read_cls f (vtext x y z l) = Ok c.
    Proof.
      intros Hx Hy Hz Hl Ho N G H. destruct (version_text x y z l Hx Hy Hz Hl) as (p & P & V). unfold RetroModel.read_cls. rewrite V. cbn [rbind]. rewrite (proj2 (before_old x y z l p Hl P) Ho). unfold read_cls_104. destruct (G "density_functions") as (n1 & ->); [cbn; auto|]. destruct (G "weight_functions") as (n2 & ->); [cbn; auto|]. destruct (G "kernels") as (n3 & ->); [cbn; auto|]. cbn [rbind]. unfold entries. rewrite N. cbn [rbind].
      assert (R : exists r, rmapM (read_cl classes f) (dkeys ch) = Ok r); [|destruct R as (r & ->); cbn [rbind]; eexists; reflexivity].
      apply rmapM_total. intros k Ik. destruct (H k Ik) as (s & (E & E1 & E2 & A1 & A2 & A3 & A4 & W1 & W2) & I1 & I2). exists (k, s). unfold read_cl. replace (split_char "_" k) with [sp_p1 s; sp_p2 s] by (rewrite E; change ("_" ++ sp_p2 s)%string with (String "_" (sp_p2 s)); rewrite (split_app "_" _ _ E1), (split_none "_" _ E2); reflexivity).
      apply array_leaf in A1, A2, A3, A4. rewrite A1, A2, A3, A4. cbn [rbind]. rewrite (read_wgt_at _ _ _ I1 W1), (read_wgt_at _ _ _ I2 W2). cbn [rbind]. destruct s; reflexivity.
    Qed.
    (** Spectra of older versions have no grid, so neither has the run. *)
    Theorem C125_grid_refuted f x y z l c : x < 10 -> y < 10 -> z < 10 -> In l letters -> older x y z l -> read_cls f (vtext x y z l) = Ok c -> run_grid None c = None.
    Proof.
      intros Hx Hy Hz Hl Ho H. destruct (version_text x y z l Hx Hy Hz Hl) as (p & P & V). unfold RetroModel.read_cls in H. rewrite V in H. cbn [rbind] in H. rewrite (proj2 (before_old x y z l p Hl P) Ho) in H. unfold read_cls_104 in H. repeat match type of H with rbind ?a _ = _ => destruct a; cbn [rbind] in H; [|discriminate] end. injection H as <-. reflexivity.
    Qed.
    Theorem C125_new_spectra f x y z l : x < 10 -> y < 10 -> z < 10 -> In l letters -> ~ older x y z l -> read_cls f (vtext x y z l) = load_new f.
    Proof.
      intros Hx Hy Hz Hl Ho. destruct (version_text x y z l Hx Hy Hz Hl) as (p & P & V). unfold RetroModel.read_cls. rewrite V. cbn [rbind]. destruct (before [x; y; z; p] v110) eqn:E; [|reflexivity]. apply (before_old x y z l p Hl P) in E. contradiction.
    Qed.
  End Spectra.

  (** ** Derivatives: files of datasets and files of groups *)
  Theorem C125_derivatives a ch r : read_dcl (GRP a ch : h5) = Ok r -> dkeys r = dkeys ch /\ forall n k d, nth_error ch n = Some (k, d) -> exists x, nth_error r n = Some (k, x) /\ (leaf d [] x \/ leaf d ["dc_lij"] x).
  Proof.
    cbn [read_dcl]. revert r. induction ch as [|[k g] ch IH]; intros r H; cbn [rmapM] in H; [injection H as <-; split; [reflexivity|intros [|n] ? ? ?; discriminate]|]. cbn [fst snd] in H.
    match type of H with rbind (rbind ?e _) _ = _ => destruct e as [x|] eqn:E; cbn [rbind] in H; [|discriminate] end. match type of H with rbind ?e _ = _ => destruct e as [r'|] eqn:R; cbn [rbind] in H; [|discriminate] end. injection H as <-. destruct (IH r' eq_refl) as [Ek Es]. split; [cbn; f_equal; exact Ek|]. intros [|n] k' d Hn; cbn [nth_error] in *; [|apply Es; exact Hn]. injection Hn as <- <-. exists x. split; [reflexivity|]. destruct g as [e|b c]; [injection E as <-; left; constructor|right; apply array_leaf; exact E].
  Qed.
  Theorem C125_derivatives_total a ch : (forall k g, In (k, g) ch -> (exists x : D, leaf g [] x) \/ exists x, leaf g ["dc_lij"] x) -> exists r, read_dcl (GRP a ch : h5) = Ok r.
  Proof.
    cbn [read_dcl]. induction ch as [|[k g] ch IH]; intros H; [eexists; reflexivity|]. destruct IH as (r & E); [intros; apply (H k0); right; assumption|]. cbn [rmapM fst snd]. rewrite E. destruct g as [e|b c]; [cbn [rbind]; eexists; reflexivity|].
    destruct (H k (GRP b c) (or_introl eq_refl)) as [(x & L)|(x & L)]; [inversion L|]. apply array_leaf in L. rewrite L. cbn [rbind]. eexists. reflexivity.
  Qed.
End Props.

(** ** Files *)
Definition ex_old : h5 nat nat := GRP [] [("cls", GRP [] [("Lensing_Void", GRP [] [("c_lij", DS 1); ("l_bin_centers", DS 2); ("l_bin_widths", DS 3)])]);
  ("cosmology", GRP [] [("dimensionless_comoving_distance", DS 4); ("dimensionless_hubble_parameter", DS 5); ("z_array", DS 6)]);
  ("density_functions", GRP [] [("Lensing", GRP [] [("norm_density_i_z", DS 7)]); ("Void", GRP [] [("norm_density_i_z", DS 8)])]);
  ("growth_factor_z", DS 9); ("kernels", GRP [] [("Lensing_Void", GRP [] [("k_ijz", DS 10)])]);
  ("power_spectrum", GRP [] [("k_array", DS 11); ("p_mm_values", GRP [] [("lin_p_mm_z_k", DS 12); ("nonlin_p_mm_z_k", DS 13)])]);
  ("weight_functions", GRP [] [("Lensing", DS 14); ("Void", DS 15)])].
Definition ex_110 : h5 nat nat := GRP [] [("cosmology", GRP [] [("cosmological_parameters", GRP [] [("h", GRP [("fiducial", AF 7); ("is_present", AB true); ("current", AF 8)] [])]);
  ("dimensionless_comoving_distance_array", DS 1); ("dimensionless_hubble_array", DS 2); ("z_grid", DS 3)])].
Example C125_instance : older 1 0 4 "" /\ older 1 1 0 "b" /\ newer 1 3 8 "" /\
  (match read_cosmo (fun _ _ => Err EException) ex_old (vtext 1 0 4 "") false with Ok c => co_z c = Some 6 /\ co_hub c = Some 5 /\ co_dist c = Some 4 /\ co_pmm c = Some (mkPmm 6 11 12 13 None) | Err _ => False end) /\
  (match read_cls ["Lensing"; "Void"] (fun _ => Err EException) ex_old (vtext 1 0 4 "") with Ok c => co_cls c = [("Lensing_Void", mkSp "Lensing" "Void" 1 2 3 10 (mkWgt "Lensing" 14 7) (mkWgt "Void" 15 8))] | Err _ => False end) /\
  (match read_cosmo (fun _ _ => Err EException) ex_110 "1.1.0" false with Ok c => co_params c = Some [("h", mkPar "h" 7 8 true)] | Err _ => False end) /\
  read_dcl (GRP [] [("a", DS 1); ("b", GRP [] [("dc_lij", DS 2)])] : h5 nat nat) = Ok [("a", 1); ("b", 2)].
Proof. repeat split; try reflexivity; unfold older, newer; cbn; auto 10. Qed.

Print Assumptions C125_old_cosmology.
Print Assumptions C125_growth_refuted.
Print Assumptions C125_rewritten_refuted.
Print Assumptions C125_110.
Print Assumptions C125_newer.
Print Assumptions C125_power_spectrum_refuted.
Print Assumptions C125_letters_refuted.
Print Assumptions C125_old_spectra.
Print Assumptions C125_old_spectra_total.
Print Assumptions C125_grid_refuted.
Print Assumptions C125_new_spectra.
Print Assumptions C125_derivatives.
Print Assumptions C125_derivatives_total.
