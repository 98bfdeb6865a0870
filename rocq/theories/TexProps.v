(** TeX names (C67). *)
From Verif Require Import Base SortLib StrLib NameModel NameLemmas KeyModel IniModel IniProps TexModel.
Open Scope list_scope.

(** ** Finite tables *)
Definition nodup_snd (d : dict string string) : bool :=
  forallb (fun a : string * string => forallb (fun b : string * string => if String.eqb (snd a) (snd b) then String.eqb (fst a) (fst b) else true) d) d.
Lemma table_In (d : dict string string) k v : dgetr d k = Ok v -> In (k, v) d.
Proof. unfold dgetr. destruct (dget String.eqb d k) as [x|] eqn:E; [|discriminate]. intros H. injection H as <-. apply (dget_In _ String.eqb_spec) in E. exact E. Qed.
Lemma table_inj (d : dict string string) k1 k2 v : nodup_snd d = true -> dgetr d k1 = Ok v -> dgetr d k2 = Ok v -> k1 = k2.
Proof.
  intros H H1 H2. apply table_In in H1, H2. unfold nodup_snd in H. rewrite forallb_forall in H. specialize (H _ H1).
  rewrite forallb_forall in H. specialize (H _ H2). cbn in H. rewrite String.eqb_refl in H. apply String.eqb_eq, H.
Qed.
Lemma table_each (P : string -> string -> bool) (d : dict string string) k v : forallb (fun kv => P (fst kv) (snd kv)) d = true -> dgetr d k = Ok v -> P k v = true.
Proof. intros H G. rewrite forallb_forall in H. apply (H _ (table_In _ _ _ G)). Qed.
Lemma table_missing {V} (d : dict string V) k : (exists e, dgetr d k = Err e) <-> ~ In k (dkeys d).
Proof.
  rewrite <- (dget_None _ String.eqb_spec). unfold dgetr. destruct (dget String.eqb d k); split; try congruence; [intros (e & X); discriminate|eauto].
Qed.

(** ** Cosmological parameters *)
(** Different names have different TeX names, which give them back; exactly the
    unknown names raise. *)
Theorem C67_cosmological n1 n2 t : cosmo_par_to_tex n1 = Ok t ->
  (cosmo_par_to_tex n2 = Ok t -> n1 = n2) /\ cosmo_par_from_tex t = Ok n1.
Proof.
  intros H. split; [intros H2; eapply table_inj; eauto; reflexivity|].
  pose proof (table_each (fun k v => match cosmo_par_from_tex v with Ok n => String.eqb n k | _ => false end) phys_par_name_to_tex _ _ (eq_refl true) H) as X.
  cbv beta in X. destruct (cosmo_par_from_tex t) as [n|]; [|discriminate]. apply String.eqb_eq in X. congruence.
Qed.
Theorem C67_cosmological_unknown n : (exists e, cosmo_par_to_tex n = Err e) <->
  ~ In n ["w0"; "wa"; "mnu"; "Omm"; "OmDE"; "Omb"; "sigma8"; "ns"; "h"; "gamma"; "aIA"; "etaIA"; "betaIA"; "FoM"]%string.
Proof. apply table_missing. Qed.

(** ** Physical parameters, with biases *)
Definition bias_name (sp : bool) (i : nat) : string := ("bg" ++ (if sp then "sp" else "ph") ++ dec i)%string.
Inductive known : string -> Prop :=
| known_table n t : cosmo_par_to_tex n = Ok t -> known n
| known_bias sp i : i < 10 -> known (bias_name sp i).
Lemma bias_text sp i b : phys_par_text b (bias_name sp i) =
  (("b^{\mathrm{" ++ (if sp then "sp" else "ph") ++ "}}_{") ++ String (digit (match dec i with String d _ => digit_val d | _ => 0 end)) "}")%string.
Proof.
  destruct (dec_first i) as (d & r & Hd & E). unfold bias_name, phys_par_text.
  destruct (digit_props d Hd) as [D V].
  assert (M : match_bias ("bg" ++ (if sp then "sp" else "ph") ++ dec i) = Some ((if sp then "sp" else "ph")%string, String (digit d) "")).
  { rewrite E. destruct sp; unfold match_bias; cbn [String.append strip_prefix Ascii.eqb Bool.eqb]; rewrite D; reflexivity. }
  assert (T : dget String.eqb phys_par_name_to_tex ("bg" ++ (if sp then "sp" else "ph") ++ dec i)%string = None) by (destruct sp; reflexivity).
  rewrite T, M, E, V. destruct sp; reflexivity.
Qed.
Lemma known_no_underscore n : known n -> has "_" n = false.
Proof.
  intros [n' t H|sp i Hi].
  - exact (proj1 (negb_true_iff _) (table_each (fun k _ => negb (has "_" k)) phys_par_name_to_tex _ _ (eq_refl true) H)).
  - unfold bias_name. rewrite dec_small by exact Hi. destruct (digit_props i Hi) as [D _].
    assert (H : Ascii.eqb (digit i) "_" = false).
    { destruct (Ascii.eqb_spec (digit i) "_") as [E|]; [|reflexivity]. rewrite E in D. discriminate D. }
    destruct sp; cbn [String.append has]; rewrite H; reflexivity.
Qed.
Lemma known_text n b : known n -> phys_par_to_tex n b = Ok (dollars b (phys_par_text "" n)).
Proof. intros H. unfold phys_par_to_tex. rewrite (known_no_underscore n H). reflexivity. Qed.
Theorem C67_physical n1 n2 t b : known n1 -> known n2 -> phys_par_to_tex n1 b = Ok t -> phys_par_to_tex n2 b = Ok t -> n1 = n2.
Proof.
  intros K1 K2 H1 H2. rewrite known_text in H1, H2 by assumption.
  assert (E : phys_par_text "" n1 = phys_par_text "" n2).
  { destruct b; cbn [dollars] in *; [|congruence].
    assert (X : (phys_par_text "" n1 ++ "$" = phys_par_text "" n2 ++ "$")%string) by (injection H1 as <-; injection H2 as H2; congruence).
    revert X. generalize (phys_par_text "" n1) (phys_par_text "" n2). induction s as [|x s IH]; intros [|y s'] X; cbn in X.
    - reflexivity.
    - injection X as _ X. destruct s'; discriminate X.
    - injection X as _ X. destruct s; discriminate X.
    - injection X as -> X. f_equal. apply IH, X. }
  clear H1 H2 t b.
  assert (T : forall n t, cosmo_par_to_tex n = Ok t -> phys_par_text "" n = t).
  { intros n t H. unfold phys_par_text. unfold cosmo_par_to_tex, dgetr in H. destruct (dget _ _ n); congruence. }
  assert (NB : forall n t, cosmo_par_to_tex n = Ok t -> forall x, t <> ("b^{\mathrm{" ++ x)%string).
  { intros n t H x ->. pose proof (table_each (fun _ v => negb (starts "b^{\mathrm{" v)) phys_par_name_to_tex _ _ (eq_refl true) H) as X. apply negb_true_iff in X.
    assert (Y : starts "b^{\mathrm{" ("b^{\mathrm{" ++ x) = true) by (apply starts_iff; eauto). congruence. }
  destruct K1 as [n1 t1 H1|sp1 i1 Hi1], K2 as [n2 t2 H2|sp2 i2 Hi2].
  - rewrite (T _ _ H1), (T _ _ H2) in E. subst t2. apply (C67_cosmological n1 n2 t1 H1), H2.
  - exfalso. rewrite (T _ _ H1), bias_text, sapp_assoc in E. exact (NB _ _ H1 _ E).
  - exfalso. rewrite (T _ _ H2), bias_text, sapp_assoc in E. exact (NB _ _ H2 _ (eq_sym E)).
  - rewrite !bias_text, !dec_small in E by assumption. rewrite (proj2 (digit_props i1 Hi1)), (proj2 (digit_props i2 Hi2)) in E.
    assert (P : sp1 = sp2 /\ digit i1 = digit i2) by (generalize dependent (digit i1); generalize dependent (digit i2); intros; destruct sp1, sp2; cbn in E; split; congruence).
    destruct P as [<- P]. apply digit_inj in P; [congruence|assumption|assumption].
Qed.
(** No name raises: the error is swallowed, and an unknown name without "_" has
    the empty TeX name. *)
Theorem C67_unknown_refuted s b : has "_" s = false -> ~ In s (dkeys phys_par_name_to_tex) -> match_bias s = None ->
  phys_par_to_tex s b = Ok (if b then "$$" else "")%string.
Proof.
  intros U N M. unfold phys_par_to_tex, phys_par_text. rewrite U, M. apply (dget_None _ String.eqb_spec) in N. rewrite N. destruct b; reflexivity.
Qed.
Theorem C67_never_raises s b : exists t, phys_par_to_tex s b = Ok t.
Proof. unfold phys_par_to_tex. eauto. Qed.
(** Bins from ten on share the TeX name of the bin of their first digit. *)
Theorem C67_two_digits_refuted sp i b : i < 10 -> forall j, j < 10 -> 1 <= i ->
  phys_par_to_tex (bias_name sp (10 * i + j)) b = phys_par_to_tex (bias_name sp i) b.
Proof.
  intros Hi j Hj H1. assert (E : dec (10 * i + j) = String (digit i) (String (digit j) "")).
  { unfold dec. cbn [dec_fuel]. destruct (Nat.ltb_spec (10 * i + j) 10); [lia|].
    replace ((10 * i + j) / 10) with i by (apply Nat.div_unique with j; lia).
    replace ((10 * i + j) mod 10) with j by (apply Nat.mod_unique with i; lia).
    destruct (10 * i + j) as [|k] eqn:K; [lia|]. cbn [dec_fuel]. destruct (Nat.ltb_spec i 10); [reflexivity|lia]. }
  assert (U : forall n, has "_" (bias_name sp n) = has "_" (dec n)) by (intros n; unfold bias_name; destruct sp; reflexivity).
  assert (ND : forall d, d < 10 -> Ascii.eqb (digit d) "_" = false).
  { intros d Hd. destruct (digit_props d Hd) as [D _]. destruct (Ascii.eqb_spec (digit d) "_") as [X|]; [|reflexivity]. rewrite X in D. discriminate D. }
  unfold phys_par_to_tex. rewrite !U, E, (dec_small i Hi). cbn [has]. rewrite (ND i Hi), (ND j Hj). cbn [orb].
  rewrite !bias_text, E, (dec_small i Hi). reflexivity.
Qed.

(** ** Probes *)
(** A combination of probe names. *)
Definition four : list string := ["Lensing"; "Void"; "PhotometricGalaxy"; "SpectroscopicGalaxy"]%string.
Lemma rmapM_ext {A B} (f g : A -> res B) l : (forall x, In x l -> f x = g x) -> rmapM f l = rmapM g l.
Proof. induction l as [|x l IH]; intros H; cbn; [reflexivity|]. rewrite H, IH; auto; [|left; reflexivity]. intros y Hy. apply H. right. exact Hy. Qed.
Definition clean (s : string) : Prop := has "+" s = false /\ strip s = s.
Lemma has_join_sep c l x y : has c (join (cstr c) (x :: y :: l)) = true.
Proof. cbn. rewrite has_app. cbn. rewrite Ascii.eqb_refl. rewrite orb_true_r. reflexivity. Qed.
Lemma plus_list (f : string -> res string) g l : 2 <= length l -> (forall x, In x l -> clean x) ->
  (forall s, has "+" s = true -> g s = (m <- rmapM f (map strip (split_char "+" s)) ;; Ok (join "+" m))) ->
  g (join "+" l) = (m <- rmapM f l ;; Ok (join "+" m)).
Proof.
  intros L C G. destruct l as [|x [|y l]]; cbn in L; try lia.
  rewrite G by apply has_join_sep. change "+"%string with (cstr "+"). rewrite split_join; [|discriminate|intros z Hz; apply C, Hz].
  replace (map strip (x :: y :: l)) with (x :: y :: l); [reflexivity|].
  symmetry. rewrite <- (map_id (x :: y :: l)) at 2. apply map_ext_in. intros z Hz. apply C, Hz.
Qed.
Lemma name_clean n t : dgetr probe_name_to_tex n = Ok t -> clean n /\ clean t.
Proof.
  intros H. pose proof (table_each (fun k v => negb (has "+" k) && String.eqb (strip k) k && negb (has "+" v) && String.eqb (strip v) v) probe_name_to_tex _ _ (eq_refl true) H) as X.
  cbv beta in X. rewrite !andb_true_iff, !negb_true_iff, !String.eqb_eq in X. unfold clean. tauto.
Qed.
Lemma rmapM_Forall {A B} (f : A -> res B) l m : rmapM f l = Ok m -> Forall2 (fun x y => f x = Ok y) l m.
Proof.
  revert m. induction l as [|x l IH]; cbn; intros m H; [injection H as <-; constructor|].
  destruct (f x) as [y|] eqn:E; cbn in H; [|discriminate]. destruct (rmapM f l) as [ys|]; cbn in H; [|discriminate]. injection H as <-. constructor; auto.
Qed.
Lemma probe_list_tex l : (forall x, In x l -> In x (dkeys probe_name_to_tex)) -> l <> [] ->
  exists m, probe_to_tex (join "+" l) = Ok (join "+" m) /\ Forall2 (fun x y => dgetr probe_name_to_tex x = Ok y) l m.
Proof.
  intros H N.
  assert (X : forall x, In x l -> exists t, dgetr probe_name_to_tex x = Ok t).
  { intros x Hx. destruct (dgetr probe_name_to_tex x) as [t|e] eqn:E; [eauto|]. destruct (proj1 (table_missing probe_name_to_tex x)); [eauto|]. apply H, Hx. }
  assert (M : exists m, rmapM (dgetr probe_name_to_tex) l = Ok m).
  { clear H N. induction l as [|x l IH]; [exists []; reflexivity|]. destruct (X x (or_introl eq_refl)) as (t & Et).
    destruct IH as (m & Em); [intros y Hy; apply X; right; exact Hy|]. exists (t :: m). cbn. rewrite Et, Em. reflexivity. }
  destruct M as (m & M). pose proof (rmapM_Forall _ _ _ M) as F. exists m. split; [|exact F].
  destruct l as [|x [|y l]]; [congruence| |].
  - cbn in M. destruct (X x (or_introl eq_refl)) as (t & Et). rewrite Et in M. cbn in M. injection M as <-. cbn.
    destruct (name_clean _ _ Et) as ((C1 & C2) & _). unfold probe_to_tex. rewrite C1. exact Et.
  - rewrite (plus_list (dgetr probe_name_to_tex) probe_to_tex); [rewrite M; reflexivity|cbn; lia| |].
    + intros z Hz. destruct (X z Hz) as (t & Et). apply (name_clean _ _ Et).
    + intros s Hs. unfold probe_to_tex. rewrite Hs. reflexivity.
Qed.
(** Different combinations of the four probes have different TeX names. *)
Theorem C67_probes l1 l2 t : incl l1 four -> incl l2 four -> l1 <> [] -> l2 <> [] ->
  probe_to_tex (join "+" l1) = Ok t -> probe_to_tex (join "+" l2) = Ok t -> l1 = l2.
Proof.
  intros I1 I2 N1 N2 H1 H2.
  assert (K : forall l, incl l four -> forall x, In x l -> In x (dkeys probe_name_to_tex)) by (intros l I x Hx; destruct (I x Hx) as [<-|[<-|[<-|[<-|[]]]]]; cbn; tauto).
  destruct (probe_list_tex l1 (K l1 I1) N1) as (m1 & E1 & F1). destruct (probe_list_tex l2 (K l2 I2) N2) as (m2 & E2 & F2).
  rewrite E1 in H1. rewrite E2 in H2. assert (E : join "+" m1 = join "+" m2) by congruence. clear E1 E2 H1 H2 t K.
  assert (C : forall l m, Forall2 (fun x y => dgetr probe_name_to_tex x = Ok y) l m -> forall x, In x m -> has "+" x = false).
  { intros l m F. induction F as [|a b l m H F IH]; intros x []; [subst; apply (name_clean _ _ H)|auto]. }
  assert (L : forall l m, Forall2 (fun x y => dgetr probe_name_to_tex x = Ok y) l m -> l <> [] -> m <> []) by (intros l m []; congruence).
  assert (M : m1 = m2).
  { rewrite <- (split_join "+" m1), <- (split_join "+" m2); [|exact (L _ _ F2 N2)|exact (C _ _ F2)|exact (L _ _ F1 N1)|exact (C _ _ F1)].
    change (cstr "+") with "+"%string. rewrite E. reflexivity. }
  subst m2. clear N1 N2 E C L. revert l2 F2 I2. induction F1 as [|x y l m H F IH]; intros l2 F2 I2; inversion F2; subst; [reflexivity|]. f_equal.
  - assert (J : forall a b, In a four -> In b four -> dgetr probe_name_to_tex a = Ok y -> dgetr probe_name_to_tex b = Ok y -> a = b).
    { intros a b Ha Hb A B. assert (X : forallb (fun a => forallb (fun b => match dgetr probe_name_to_tex a, dgetr probe_name_to_tex b with Ok s, Ok t => negb (String.eqb s t) || String.eqb a b | _, _ => false end) four) four = true) by reflexivity.
      rewrite forallb_forall in X. specialize (X a Ha). rewrite forallb_forall in X. specialize (X b Hb). cbv beta in X. rewrite A, B, String.eqb_refl in X. apply String.eqb_eq, X. }
    apply J; auto; [apply I1; left; reflexivity|apply I2; left; reflexivity].
  - apply IH; [intros z Hz; apply I1; right; exact Hz|assumption|intros z Hz; apply I2; right; exact Hz].
Qed.
(** An unknown probe anywhere raises. *)
Theorem C67_unknown_probe l x : In x l -> (forall y, In y l -> clean y) -> ~ In x (dkeys probe_name_to_tex) ->
  exists e, probe_to_tex (join "+" l) = Err e.
Proof.
  intros Hx C N. destruct l as [|a [|b l]]; [destruct Hx| |].
  - destruct Hx as [->|[]]. cbn. destruct (C x (or_introl eq_refl)) as [P _]. unfold probe_to_tex. rewrite P. apply table_missing, N.
  - rewrite (plus_list (dgetr probe_name_to_tex) probe_to_tex); [|cbn; lia|exact C|intros s Hs; unfold probe_to_tex; rewrite Hs; reflexivity].
    remember (a :: b :: l) as m. clear Heqm C. induction m as [|y m IH]; [destruct Hx|]. cbn.
    destruct (dgetr probe_name_to_tex y) as [t|e] eqn:E; cbn; [|eauto]. destruct Hx as [->|Hx].
    + destruct (proj2 (table_missing probe_name_to_tex x) N) as (e & X). congruence.
    + destruct (IH Hx) as (e & X). destruct (rmapM (dgetr probe_name_to_tex) m); cbn in *; [discriminate|eauto].
Qed.
(** A combination of two or more is recovered up to the choice among names with
    the same TeX name. *)
Theorem C67_combination_recovered l : 2 <= length l -> (forall x, In x l -> In x (dkeys probe_name_to_tex)) ->
  exists t l', probe_to_tex (join "+" l) = Ok t /\ probe_from_tex t = Ok (join "+" l') /\
    Forall2 (fun x x' => dgetr probe_name_to_tex x = dgetr probe_name_to_tex x') l l' /\
    ((forall x, In x l -> In x ["WL"; "V"; "GCph"; "GCsp(Pk)"; "XC"]%string) -> l' = l).
Proof.
  intros L H. destruct (probe_list_tex l H) as (m & E & F); [destruct l; [cbn in L; lia|discriminate]|].
  assert (Lm : length m = length l) by (clear -F; induction F; cbn; auto).
  assert (R : exists l', rmapM (dgetr probe_tex_to_name) m = Ok l' /\ Forall2 (fun x x' => dgetr probe_name_to_tex x = dgetr probe_name_to_tex x') l l' /\
     ((forall x, In x l -> In x ["WL"; "V"; "GCph"; "GCsp(Pk)"; "XC"]%string) -> l' = l)).
  { clear E L H Lm. induction F as [|x y l m Hx F IH]; [exists []; cbn; auto|]. destruct IH as (l' & E' & F' & W).
    pose proof (table_each (fun k v => match dgetr probe_tex_to_name v with Ok k' => match dgetr probe_name_to_tex k, dgetr probe_name_to_tex k' with Ok a, Ok b => String.eqb a b | _, _ => false end
       && (negb (smem k ["WL"; "V"; "GCph"; "GCsp(Pk)"; "XC"]%string) || String.eqb k' k) | _ => false end) probe_name_to_tex _ _ (eq_refl true) Hx) as X. cbv beta in X.
    destruct (dgetr probe_tex_to_name y) as [x'|] eqn:Ey; [|discriminate X]. apply andb_true_iff in X as [X1 X2].
    exists (x' :: l'). cbn [rmapM]. rewrite Ey, E'. cbn [rbind]. split; [reflexivity|]. split.
    - constructor; [|exact F']. destruct (dgetr probe_name_to_tex x), (dgetr probe_name_to_tex x'); try discriminate X1. apply String.eqb_eq in X1. congruence.
    - intros I. rewrite W by (intros z Hz; apply I; right; exact Hz). f_equal.
      specialize (I x (or_introl eq_refl)). apply smem_In in I. rewrite I in X2. apply String.eqb_eq in X2. exact X2. }
  destruct R as (l' & E' & F' & W). exists (join "+" m), l'. split; [exact E|]. split; [|auto].
  rewrite (plus_list (dgetr probe_tex_to_name) probe_from_tex); [rewrite E'; reflexivity|lia| |].
  - clear -F. induction F as [|a b l m H F IH]; intros x []; [subst; apply (name_clean _ _ H)|auto].
  - intros s Hs. unfold probe_from_tex. rewrite Hs. f_equal.
    induction (split_char "+" s) as [|p ps IH]; [reflexivity|]. cbn [rmapM map]. rewrite IH. reflexivity.
Qed.
(** The TeX name of a single probe is looked up in the wrong table and never
    recovered. *)
Theorem C67_single_probe_refuted n t : has "+" n = false -> probe_to_tex n = Ok t -> probe_from_tex t = Err EKeyError.
Proof.
  intros P H. unfold probe_to_tex in H. rewrite P in H.
  pose proof (table_each (fun _ v => match probe_from_tex v with Err EKeyError => true | _ => false end) probe_name_to_tex _ _ (eq_refl true) H) as X. cbv beta in X.
  destruct (probe_from_tex t) as [|[]]; try discriminate X. reflexivity.
Qed.
(** The spectroscopic probe and the imported one share a TeX name. *)
Theorem C67_shared_name_refuted : probe_to_tex "GCsp" = probe_to_tex "IST_GCsp" /\ exists t, probe_to_tex "WL+GCsp" = Ok t /\ probe_from_tex t = Ok "WL+IST_GCsp"%string.
Proof. vm_compute. eauto. Qed.

(** ** Cosmologies *)
Theorem C67_cosmologies n t : cosmology_to_tex n = Ok t -> exists n', cosmology_from_tex t = Ok n' /\ cosmology_to_tex n' = Ok t /\
  (In n ["LCDM"; "mnuLCDM"; "w0waCDM"; "mnuw0waCDM"]%string -> n' = n).
Proof.
  intros H. pose proof (table_each (fun k v => match cosmology_from_tex v with Ok k' => match cosmology_to_tex k' with Ok v' => String.eqb v v' | _ => false end
    && (negb (smem k ["LCDM"; "mnuLCDM"; "w0waCDM"; "mnuw0waCDM"]%string) || String.eqb k' k) | _ => false end) cosmology_name_to_tex _ _ (eq_refl true) H) as X. cbv beta in X.
  destruct (cosmology_from_tex t) as [n'|]; [|discriminate X]. apply andb_true_iff in X as [X1 X2]. exists n'. split; [reflexivity|]. split.
  - destruct (cosmology_to_tex n'); [|discriminate X1]. apply String.eqb_eq in X1. congruence.
  - intros I. apply smem_In in I. rewrite I in X2. apply String.eqb_eq in X2. exact X2.
Qed.

Example C67_instance :
  cosmo_par_to_tex "w0" = Ok "w_0"%string /\ known "bgph3" /\ phys_par_to_tex "bgph3" true = Ok "$b^{\mathrm{ph}}_{3}$"%string /\
  incl ["Lensing"; "PhotometricGalaxy"]%string four /\ probe_to_tex "Lensing+PhotometricGalaxy" = Ok "\mathrm{WL}+\mathrm{GC_{ph}}"%string /\
  phys_par_to_tex "Omm_h_tau" false = Ok "\Omega_m h "%string /\ cosmology_to_tex "w0_wa_CDM" = Ok "w_0w_a\mathrm{CDM}"%string.
Proof.
  split; [reflexivity|]. split; [exact (known_bias false 3 ltac:(lia))|]. split; [reflexivity|].
  split; [intros x [<-|[<-|[]]]; cbn; tauto|]. vm_compute. auto.
Qed.
Print Assumptions C67_cosmological. Print Assumptions C67_cosmological_unknown. Print Assumptions C67_physical. Print Assumptions C67_unknown_refuted. Print Assumptions C67_never_raises.
Print Assumptions C67_two_digits_refuted. Print Assumptions C67_probes. Print Assumptions C67_unknown_probe. Print Assumptions C67_combination_recovered.
Print Assumptions C67_single_probe_refuted. Print Assumptions C67_shared_name_refuted. Print Assumptions C67_cosmologies.
