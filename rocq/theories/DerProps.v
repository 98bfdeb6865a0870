(** Property C115: the derivative stage. *)
From Verif Require Import Base SortLib StrLib FrameModel KeyModel ParamModel EvalModel OrdLib NameModel WsModel StemModel DerModel
  ParamLemmas ParamLemmas2 StemLemmas StemLemmas2 StemLemmas3 NameLemmas WsLemmas WsProps ParamProps StemProps FileLemmas.
From Coq Require Import Permutation Sorted Qcanon.
Close Scope Qc_scope.
Open Scope list_scope.

Lemma rmapM_same {A B C} (f : A -> res C) (g : B -> res C) l m ys : rmapM g l = Ok ys -> length m = length l ->
  (forall k s x y, nth_error l k = Some s -> nth_error m k = Some x -> g s = Ok y -> f x = Ok y) -> rmapM f m = Ok ys.
Proof.
  revert m ys. induction l as [|s l IH]; intros [|x m] ys E Le H; cbn in Le; try discriminate; cbn [rmapM] in *; [exact E|].
  destruct (g s) as [y|] eqn:Eg; cbn [rbind] in E; [|discriminate]. destruct (rmapM g l) as [r|] eqn:El; cbn [rbind] in E; [|discriminate].
  rewrite (H 0%nat s x y eq_refl eq_refl Eg). cbn [rbind]. rewrite (IH m r eq_refl); [exact E|lia|]. intros k s2 x2 y2 H1 H2. exact (H (Datatypes.S k) s2 x2 y2 H1 H2).
Qed.
Lemma comb_inj p q p' q' : has "_" p = false -> has "_" q = false -> has "_" p' = false -> has "_" q' = false -> comb_key p q = comb_key p' q' -> p = p' /\ q = q'.
Proof. intros A B C D E. assert (X : comb_probes (comb_key p q) = comb_probes (comb_key p' q')) by congruence. rewrite !comb_probes_key in X by assumption. injection X as -> ->. auto. Qed.

Lemma In_dkeys_dget {A} (d : dict string A) k : In k (dkeys d) <-> dget String.eqb d k <> None.
Proof. rewrite (dget_None _ String.eqb_spec). destruct (in_dec string_dec k (dkeys d)); tauto. Qed.

Section Props.
  Context {F : Type} {K : Fld F} {O : OFld (F := F)}.
  Context (degen : list F -> list F -> F * F).
  Context (read : string * string -> string -> string -> res (list F * cube F)).
  Context (load_cosmology : string -> string -> res unit).
  Context (analytic : param F -> string -> string -> cube F -> res (cube F)).
  Notation evaluate := (evaluate degen read load_cosmology analytic).
  Notation stage := (stage degen read load_cosmology analytic).
  Notation evaluate_all := (evaluate_all degen read load_cosmology analytic).

  Definition related (p : param F) (p1 p2 : string) : Prop := is_cosmo p = true \/ pprobe p = Some p1 \/ pprobe p = Some p2.
  Definition fresh (p1 p2 : string) : derivative F := mkDer p1 p2 None None.
  (** The directory of step [s] of [dvar]; the files of the directory Angular hold the
      spectra [vs] of all steps. *)
  Definition step_dir (dvar : string) (s : Z) : string := if Z.eqb s 0 then jobdir_name "central" 0 else jobdir_name dvar s.
  Definition stored (L : listing) (dvar : string) (ells : string -> list F) (vs : dict Z (dict string (cube F))) : Prop :=
    forall s d f p1 p2 y, dget Z.eqb vs s = Some d -> In (step_dir dvar s, f) L -> is_cl_file f = true ->
      dget String.eqb d (comb_key p1 p2) = Some y -> read (step_dir dvar s, f) p1 p2 = Ok (ells (comb_key p1 p2), y).

  Lemma collected_cl L par files : collect_files L par = Ok files -> forall df, In df files -> is_cl_file (snd df) = true.
  Proof.
    unfold collect_files. destruct (cl_file L "central" 0) as [c|] eqn:C; cbn [rbind]; [|discriminate].
    set (g := filter _ L). destruct (rmapM _ (g ++ [c])) as [keyed|] eqn:M; cbn [rbind]; [|discriminate]. destruct (_ <=? 1)%nat; [discriminate|]. intros [= <-] df H.
    apply in_map_iff in H. destruct H as ([z x] & <- & H). apply isort_In in H. destruct (rmapM_In _ _ _ _ M H) as (df & Hd & E). destruct (parse_jobdir (fst df)); cbn [rbind] in E; [|discriminate]. injection E as _ <-. cbn [snd].
    apply in_app_or in Hd. destruct Hd as [Hd|[<-|[]]].
    - apply filter_In in Hd. destruct Hd as [_ Hd]. apply andb_true_iff in Hd. apply Hd.
    - unfold cl_file in C. destruct (filter _ L) as [|x [|]] eqn:E in C; try discriminate. injection C as ->. assert (I : In c [c]) by (left; reflexivity). rewrite <- E in I. apply filter_In in I. destruct I as [_ I]. apply andb_true_iff in I. apply I.
  Qed.

  (** From files or in memory: the same derivatives. *)
  Theorem C115_agree compute dvar (fid : dict string (cube F)) (c c' : coll F) vs r p L ells p1 p2 cb :
    NoDup (dkeys (params c)) -> (forall n q, pget c n = Some q -> current q = fiducial q) -> dvar <> "central"%string -> alnum dvar ->
    pget c dvar = Some p -> pp_name p = dvar -> dmethod p = "SteM"%string -> related p p1 p2 ->
    cls_variations compute dvar fid c = (c', Ok vs) -> derivatives_wrt degen compute dvar fid c = (c', Ok r) -> In (comb_key p1 p2, cb) r ->
    complete_listing L dvar 7 -> stored L dvar ells vs ->
    evaluate L c p (fresh p1 p2) = Ok (mkDer p1 p2 (Some (ells (comb_key p1 p2))) (Some cb)).
  Proof.
    intros N Hf Hd Ha Ep Ename Em R Ev H Hk Hc St. destruct (variations_ok compute dvar fid c c' vs N Hf Hd Ev) as (-> & h & Evs & _).
    unfold derivatives_wrt, collector in H. rewrite Ev in H. injection H as H. assert (E0 : dget Z.eqb vs 0%Z = Some fid) by (rewrite Evs; reflexivity). rewrite E0 in H. cbn [rbind] in H.
    assert (Ek : zsort (dkeys vs) = zrange 7) by (rewrite Evs; unfold dkeys; cbn [map fst]; rewrite map_map; cbn [fst]; rewrite map_id; exact zsort_seven). rewrite Ek in H.
    destruct (rmapM_In _ _ _ _ H Hk) as (k & _ & E). clear H. destruct (rmapM _ (zrange 7)) as [ys|] eqn:Ey in E; cbn [rbind] in E; [|discriminate].
    destruct (stack ys) as [cs|] eqn:Es; cbn [rbind] in E; [|discriminate]. destruct (phys_stem_values dvar c) as [x|] eqn:Ex; cbn [rbind] in E; [|discriminate]. destruct (do_derivative _ _ _ _) as [z|] eqn:Ez; cbn [rbind] in E; [|discriminate]. injection E as -> ->.
    destruct (collect_aligned L dvar 7 Ha) as (files & Ef & Le & Hin & Hnth); [lia|lia|exact Hc|]. pose proof (collected_cl L dvar files Ef) as Hcl.
    assert (Eq : rmapM (fun f => x <- read f p1 p2 ;; Ok (snd x)) files = Ok ys).
    { apply (rmapM_same _ _ (zrange 7) files ys Ey); [rewrite Le, zrange_length; reflexivity|]. intros k s f y Hs Hfk G. destruct (dget Z.eqb vs s) as [d|] eqn:Ed; [|discriminate].
      unfold cget in G. destruct (dget String.eqb d (comb_key p1 p2)) as [y'|] eqn:Ey'; [|discriminate]. injection G as ->. destruct (Hnth k s Hs) as (g & Eg). rewrite Eg in Hfk. injection Hfk as <-.
      pose proof (nth_error_In _ _ Eg) as I. change (if Z.eqb s 0 then jobdir_name "central" 0 else jobdir_name dvar s) with (step_dir dvar s) in *. rewrite (St s d g p1 p2 y Ed (Hin _ I) (Hcl _ I) Ey'). reflexivity. }
    assert (Fid : exists f0, cl_file L "central" 0 = Ok f0 /\ exists y, read f0 p1 p2 = Ok (ells (comb_key p1 p2), y)).
    { destruct Hc as (_ & f & Cf). exists (jobdir_name "central" 0, f). unfold cl_file. rewrite Cf. split; [reflexivity|].
      assert (I : In (jobdir_name "central" 0, f) [(jobdir_name "central" 0, f)]) by (left; reflexivity). rewrite <- Cf in I. apply filter_In in I. destruct I as [I Q]. apply andb_true_iff in Q. destruct Q as [_ Q].
      destruct (rmapM_nth _ _ _ _ _ Ey (zrange_nth 7 7 ltac:(lia))) as (y & _ & G). change (Z.of_nat 7 - Z.of_nat 7)%Z with 0%Z in G. rewrite E0 in G. unfold cget in G. destruct (dget String.eqb fid (comb_key p1 p2)) as [y'|] eqn:Ey'; [|discriminate]. exists y'. exact (St 0%Z fid f p1 p2 y' E0 I Q Ey'). }
    destruct Fid as (f0 & Ef0 & y & Ry). unfold evaluate. cbn [d_p1 d_p2 fresh]. rewrite Em, String.eqb_refl, Ef0. cbn [rbind]. rewrite Ry. cbn [rbind]. rewrite Ename, Ef. cbn [rbind]. rewrite Eq. cbn [rbind]. rewrite Es. cbn [rbind fst snd].
    rewrite C42_related by exact R. rewrite Ex. cbn [rbind]. rewrite Ez. reflexivity.
  Qed.
  (** A step without a file never goes unnoticed; a spectrum of other probes has derivative
      zero. *)
  Theorem C115_complete L c p d d' : dmethod p = "SteM"%string -> evaluate L c p d = Ok d' -> related p (d_p1 d) (d_p2 d) ->
    exists files q, collect_files L (pp_name p) = Ok files /\ pget c (pp_name p) = Some q /\ length files = length (stem_values q (stem_disps c)).
  Proof.
    intros Em H R. unfold evaluate in H. rewrite Em, String.eqb_refl in H. destruct (cl_file L "central" 0) as [f0|]; cbn [rbind] in H; [|discriminate]. destruct (read f0 _ _) as [fid|]; cbn [rbind] in H; [|discriminate].
    destruct (collect_files L (pp_name p)) as [files|]; cbn [rbind] in H; [|discriminate]. destruct (rmapM _ files) as [cubes|] eqn:M; cbn [rbind] in H; [|discriminate]. destruct (stack cubes) as [cs|] eqn:S; cbn [rbind] in H; [|discriminate].
    rewrite C42_related in H by exact R. unfold phys_stem_values in H. destruct (pget c (pp_name p)) as [q|]; cbn [rbind] in H; [|discriminate]. destruct (do_derivative _ _ _ _) as [dc|] eqn:D; cbn [rbind] in H; [|discriminate].
    exists files, q. split; [reflexivity|]. split; [reflexivity|]. apply do_derivative_lengths in D. destruct (stack_ok _ _ S) as (-> & _). rewrite (rmapM_length _ _ _ M) in D. symmetry. exact D.
  Qed.
  Theorem C115_unrelated L c p d d' q : evaluate L c p d = Ok d' -> is_cosmo p = false -> pprobe p = Some q -> q <> d_p1 d -> q <> d_p2 d ->
    exists f0 l fid z, cl_file L "central" 0 = Ok f0 /\ read f0 (d_p1 d) (d_p2 d) = Ok (l, fid) /\ d' = mkDer (d_p1 d) (d_p2 d) (Some l) (Some z) /\
      same_shape fid z = true /\ forall t, In t (indices z) -> centry z t = fz.
  Proof.
    intros H Hc Hp N1 N2. unfold evaluate in H. destruct (cl_file L "central" 0) as [f0|]; cbn [rbind] in H; [|destruct (String.eqb _ _); [discriminate|]; destruct (String.eqb _ _); discriminate]. destruct (read f0 _ _) as [[l fid]|] eqn:Rd; cbn [rbind fst snd] in H; [|destruct (String.eqb _ _); [discriminate|]; destruct (String.eqb _ _); discriminate].
    exists f0, l, fid.
    destruct (String.eqb (dmethod p) "SteM").
    - destruct (collect_files L (pp_name p)) as [files|]; cbn [rbind] in H; [|discriminate]. destruct (rmapM _ files) as [cubes|] eqn:M; cbn [rbind] in H; [|discriminate]. destruct (stack cubes) as [cs|] eqn:S; cbn [rbind] in H; [|discriminate].
      match type of H with rbind (compute_derivative _ _ _ _ ?i) _ = _ => destruct (C42_zero p (d_p1 d) (d_p2 d) fid i q Hc Hp N1 N2) as (z & E & A & B & _); rewrite E in H end. cbn [rbind] in H. injection H as <-. exists z. repeat (split; [reflexivity || assumption|]). exact B.
    - destruct (String.eqb (dmethod p) "Analytic"); [|discriminate]. destruct (load_cosmology _ _); cbn [rbind] in H; [|discriminate].
      match type of H with rbind (compute_derivative _ _ _ _ ?i) _ = _ => destruct (C42_zero p (d_p1 d) (d_p2 d) fid i q Hc Hp N1 N2) as (z & E & A & B & _); rewrite E in H end. cbn [rbind] in H. injection H as <-. exists z. repeat (split; [reflexivity || assumption|]). exact B.
  Qed.
  (** The method of the parameter decides; no other method exists. *)
  Theorem C115_analytic L c p d d' : dmethod p = "Analytic"%string -> related p (d_p1 d) (d_p2 d) -> evaluate L c p d = Ok d' ->
    exists f0 l fid z, cl_file L "central" 0 = Ok f0 /\ read f0 (d_p1 d) (d_p2 d) = Ok (l, fid) /\ load_cosmology (d_p1 d) (d_p2 d) = Ok tt /\ analytic p (d_p1 d) (d_p2 d) fid = Ok z /\ d' = mkDer (d_p1 d) (d_p2 d) (Some l) (Some z).
  Proof.
    intros Em R H. unfold evaluate in H. rewrite Em in H. cbn [String.eqb Ascii.eqb Bool.eqb] in H. destruct (cl_file L "central" 0) as [f0|]; cbn [rbind] in H; [|discriminate]. destruct (read f0 _ _) as [[l fid]|] eqn:Rd; cbn [rbind fst snd] in H; [|discriminate]. destruct (load_cosmology _ _) as [[]|]; cbn [rbind] in H; [|discriminate].
    rewrite C42_related in H by exact R. destruct (analytic p _ _ fid) as [z|] eqn:A; cbn [rbind] in H; [|discriminate]. injection H as <-. exists f0, l, fid, z. auto.
  Qed.
  Theorem C115_method L c p d : dmethod p <> "SteM"%string -> dmethod p <> "Analytic"%string -> evaluate L c p d = Err ENotImplemented.
  Proof. intros A B. unfold evaluate. destruct (String.eqb_spec (dmethod p) "SteM"); [contradiction|]. destruct (String.eqb_spec (dmethod p) "Analytic"); [contradiction|]. reflexivity. Qed.

  (** ** Files of derivatives *)
  Definition written (h : hfile F) (k : string) (x : derivative F) : Prop := exists dc l, d_dc x = Some dc /\ d_ells x = Some l /\ dget String.eqb h k = Some (mkGroup (Some dc) (Some l)).
  Definition evaluated (x : derivative F) : Prop := d_dc x <> None /\ d_ells x <> None.
  Definition grp (x : derivative F) : group F := mkGroup (d_dc x) (d_ells x).
  Lemma write_all d h : NoDup (dkeys h ++ dkeys d) -> (forall k x, In (k, x) d -> evaluated x) -> write_groups d h = (h ++ map (fun kx => (fst kx, grp (snd kx))) d, Ok tt).
  Proof.
    revert h. induction d as [|[k x] d IH]; intros h N H; cbn [write_groups map]; [rewrite app_nil_r; reflexivity|].
    cbn [dkeys map fst] in N. assert (Nk : ~ In k (dkeys h)) by (apply NoDup_remove_2 in N; intros I; apply N, in_or_app; left; exact I).
    assert (M : dmem String.eqb h k = false) by (unfold dmem; rewrite (proj2 (dget_None _ String.eqb_spec h k) Nk); reflexivity). rewrite M.
    destruct (H k x (or_introl eq_refl)) as [A B]. destruct (d_dc x) as [dc|] eqn:D; [|congruence]. destruct (d_ells x) as [l|] eqn:L; [|congruence].
    assert (E : forall g, dset String.eqb h k g = h ++ [(k, g)]) by (intros g; clear -Nk; induction h as [|[k' g'] h IH]; cbn [dset app]; [reflexivity|]; cbn [dkeys map fst] in Nk; destruct (String.eqb_spec k' k) as [->|_]; [destruct Nk; left; reflexivity|]; rewrite IH; [reflexivity|intros I; apply Nk; right; exact I]).
    rewrite E, IH.
    - rewrite <- app_assoc. cbn [app fst snd]. unfold grp at 2. rewrite D, L. reflexivity.
    - unfold dkeys in *. rewrite map_app. cbn [map fst]. rewrite <- app_assoc. exact N.
    - intros k' x' I. apply (H k' x'). right. exact I.
  Qed.
  Definition good_key (k : string) (x : derivative F) : Prop := has "_" (d_p1 x) = false /\ has "_" (d_p2 x) = false /\ k = comb_key (d_p1 x) (d_p2 x).
  Lemma load_keys (h : hfile F) ks acc (x : string -> derivative F) : NoDup ks -> (forall k, In k ks -> ~ In k (dkeys acc)) -> (forall k, In k ks -> evaluated (x k) /\ good_key k (x k) /\ dget String.eqb h k = Some (grp (x k))) ->
    fold_left (fun acc k =>
      d <- acc ;;
      match comb_probes k with
      | [p1; p2] =>
          g <- dgetr h k ;;
          match g_dc g, g_ells g with
          | Some dc, Some l => Ok (dset String.eqb d k (mkDer p1 p2 (Some l) (Some dc)))
          | _, _ => Err EKeyError
          end
      | _ => Err EValueError
      end) ks (Ok acc) = Ok (acc ++ map (fun k => (k, x k)) ks).
  Proof.
    revert acc. induction ks as [|k ks IH]; intros acc N D H; cbn [fold_left map]; [rewrite app_nil_r; reflexivity|]. cbn [rbind].
    destruct (H k (or_introl eq_refl)) as ((A & B) & (G1 & G2 & G3) & E). rewrite G3 at 1. rewrite comb_probes_key by assumption. unfold dgetr at 2. rewrite E. cbn [rbind]. unfold grp. cbn [g_dc g_ells]. destruct (d_dc (x k)) as [dc|] eqn:Dc; [|congruence]. destruct (d_ells (x k)) as [l|] eqn:El; [|congruence].
    assert (Ex : mkDer (d_p1 (x k)) (d_p2 (x k)) (Some l) (Some dc) = x k) by (destruct (x k); cbn in *; congruence). rewrite Ex. inversion N as [|? ? Nk N']; subst.
    assert (E' : forall g, dset String.eqb acc k g = acc ++ [(k, g)]).
    { intros g. pose proof (D k (or_introl eq_refl)) as Nk'. clear -Nk'. induction acc as [|[k' g'] acc IH]; cbn [dset app]; [reflexivity|]. cbn [dkeys map fst] in Nk'. destruct (String.eqb_spec k' k) as [->|_]; [destruct Nk'; left; reflexivity|]. rewrite IH; [reflexivity|intros I; apply Nk'; right; exact I]. }
    rewrite E', IH; [rewrite <- app_assoc; reflexivity|exact N'| |intros k' I; apply H; right; exact I].
    intros k' I. unfold dkeys. rewrite map_app. cbn [map fst]. intros J. apply in_app_or in J. destruct J as [J|[->|[]]]; [exact (D k' (or_intror I) J)|contradiction].
  Qed.
  Theorem C115_round_trip (d : dcoll F) : NoDup (dkeys d) -> (forall k x, In (k, x) d -> evaluated x /\ good_key k x) ->
    exists h d', write_file d = (h, Ok tt) /\ load_file h = Ok d' /\ Permutation d' d /\ StronglySorted (fun a b => String.leb a b = true) (dkeys d') /\ forall k, dget String.eqb d' k = dget String.eqb d k.
  Proof.
    intros N H. set (h := map (fun kx => (fst kx, grp (snd kx))) d). assert (Ek : dkeys h = dkeys d) by (unfold h, dkeys; rewrite map_map; reflexivity).
    set (x := fun k => match dget String.eqb d k with Some x => x | None => fresh "" "" end).
    set (d' := map (fun k => (k, x k)) (isort String.leb (dkeys d))).
    assert (Hx : forall k, In k (dkeys d) -> In (k, x k) d).
    { intros k I. unfold x. destruct (dget String.eqb d k) as [y|] eqn:E; [exact (dget_In _ String.eqb_spec _ _ E)|]. apply (dget_None _ String.eqb_spec) in E. contradiction. }
    assert (Kd : dkeys d' = isort String.leb (dkeys d)) by (unfold d', dkeys; rewrite map_map, map_id; reflexivity).
    assert (P : Permutation d' d).
    { apply NoDup_Permutation.
      - apply (NoDup_map_inv fst). fold (dkeys d'). rewrite Kd. apply isort_NoDup. exact N.
      - apply (NoDup_map_inv fst). exact N.
      - intros [k y]. split; intros I.
        + unfold d' in I. apply in_map_iff in I. destruct I as (k' & E & I). injection E as -> <-. apply isort_In in I. exact (Hx k I).
        + assert (I' : In k (dkeys d)) by (apply in_map_iff; exists (k, y); auto). assert (E : y = x k) by (unfold x; rewrite (dget_NoDup_In _ String.eqb_spec _ _ _ N I); reflexivity). rewrite E. apply in_map_iff. exists k. split; [reflexivity|]. apply isort_In. exact I'. }
    exists h, d'. split; [|split; [|split; [exact P|split]]].
    - unfold write_file. rewrite write_all; [reflexivity|exact N|intros k y I; apply (H k y I)].
    - unfold load_file, dcoll. rewrite Ek. refine (eq_trans (load_keys h (isort String.leb (dkeys d)) [] x _ _ _) _); [apply isort_NoDup; exact N|intros k _ []| |reflexivity].
      intros k I. apply isort_In in I. pose proof (Hx k I) as I'. destruct (H k (x k) I') as [A B]. split; [exact A|]. split; [exact B|]. apply (dget_NoDup_In _ String.eqb_spec); [rewrite Ek; exact N|]. unfold h. apply in_map_iff. exists (k, x k). auto.
    - rewrite Kd. apply isort_ssorted; [|exact str_leb_trans]. intros a b. destruct (String.leb_total a b); auto.
    - intros k. destruct (dget String.eqb d k) as [y|] eqn:E.
      + apply (dget_NoDup_In _ String.eqb_spec); [rewrite Kd; apply isort_NoDup; exact N|]. apply (Permutation_in _ (Permutation_sym P)). exact (dget_In _ String.eqb_spec _ _ E).
      + apply (dget_None _ String.eqb_spec). apply (dget_None _ String.eqb_spec) in E. rewrite Kd. intros I. apply isort_In in I. contradiction.
  Qed.
  (** What was not evaluated is not written. *)
  Theorem C115_not_evaluated (d1 d2 : dcoll F) k x : NoDup (dkeys (d1 ++ (k, x) :: d2)) -> (forall k x, In (k, x) d1 -> evaluated x) -> ~ evaluated x ->
    exists h g, write_file (d1 ++ (k, x) :: d2) = (h, Err ETypeError) /\ dkeys h = dkeys d1 ++ [k] /\ dget String.eqb h k = Some g /\ (g_dc g = None \/ g_ells g = None).
  Proof.
    intros N H U. unfold write_file.
    assert (G : forall h, NoDup (dkeys h ++ dkeys (d1 ++ (k, x) :: d2)) -> write_groups (d1 ++ (k, x) :: d2) h = write_groups ((k, x) :: d2) (h ++ map (fun kx => (fst kx, grp (snd kx))) d1)).
    { clear N. generalize ((k, x) :: d2). intros t. induction d1 as [|[k1 x1] d1 IH]; intros h N; cbn [app map]; [rewrite app_nil_r; reflexivity|]. cbn [write_groups].
      cbn [app dkeys map fst] in N. assert (Nk : ~ In k1 (dkeys h)) by (apply NoDup_remove_2 in N; intros I; apply N, in_or_app; left; exact I).
      assert (M : dmem String.eqb h k1 = false) by (unfold dmem; rewrite (proj2 (dget_None _ String.eqb_spec h k1) Nk); reflexivity). rewrite M.
      destruct (H k1 x1 (or_introl eq_refl)) as [A B]. destruct (d_dc x1) as [dc|] eqn:D; [|congruence]. destruct (d_ells x1) as [l|] eqn:L; [|congruence].
      assert (E : forall g, dset String.eqb h k1 g = h ++ [(k1, g)]) by (intros g; clear -Nk; induction h as [|[k' g'] h IH]; cbn [dset app]; [reflexivity|]; cbn [dkeys map fst] in Nk; destruct (String.eqb_spec k' k1) as [->|_]; [destruct Nk; left; reflexivity|]; rewrite IH; [reflexivity|intros I; apply Nk; right; exact I]).
      rewrite E, IH.
      - rewrite <- app_assoc. cbn [app fst snd]. replace (grp x1) with (mkGroup (Some dc) (Some l)) by (unfold grp; rewrite D, L; reflexivity). reflexivity.
      - intros k' x' I. apply (H k' x'). right. exact I.
      - unfold dkeys in *. rewrite map_app. cbn [map fst]. rewrite <- app_assoc. exact N. }
    rewrite G by exact N. cbn [app write_groups]. set (h := map _ d1). assert (Ek : dkeys h = dkeys d1) by (unfold h, dkeys; rewrite map_map; reflexivity).
    assert (Nk : ~ In k (dkeys h)) by (rewrite Ek; unfold dkeys in N; rewrite map_app in N; cbn [map fst] in N; apply NoDup_remove_2 in N; intros I; apply N, in_or_app; left; exact I).
    assert (M : dmem String.eqb h k = false) by (unfold dmem; rewrite (proj2 (dget_None _ String.eqb_spec h k) Nk); reflexivity). rewrite M.
    assert (E : forall g, dset String.eqb h k g = h ++ [(k, g)]) by (intros g; clear -Nk; induction h as [|[k' g'] h IH]; cbn [dset app]; [reflexivity|]; cbn [dkeys map fst] in Nk; destruct (String.eqb_spec k' k) as [->|_]; [destruct Nk; left; reflexivity|]; rewrite IH; [reflexivity|intros I; apply Nk; right; exact I]).
    assert (Kh : forall g, dkeys (dset String.eqb h k g) = dkeys d1 ++ [k]) by (intros g; rewrite E; unfold dkeys in *; rewrite map_app, Ek; reflexivity).
    destruct (d_dc x) as [dc|] eqn:D; [destruct (d_ells x) as [l|] eqn:L; [destruct U; split; congruence|]|]; eexists; eexists; (split; [reflexivity|split; [apply Kh|split; [apply (dget_dset_same _ String.eqb_spec)|cbn; auto]]]).
  Qed.
  (** A name of a group that is no pair of probes makes the file unreadable. *)
  Theorem C115_foreign_group (h : hfile F) k : In k (dkeys h) -> (forall p q, comb_probes k <> [p; q]) -> exists e, load_file h = Err e.
  Proof.
    intros I H. unfold load_file, dcoll. apply (isort_In String.leb) in I. apply in_split in I. destruct I as (l1 & l2 & ->). rewrite fold_left_app. cbn [fold_left].
    assert (G : forall e l, fold_left (fun acc k => d <- acc ;; match comb_probes k with [p1; p2] => g <- dgetr h k ;; match g_dc g, g_ells g with Some dc, Some l => Ok (dset String.eqb d k (mkDer p1 p2 (Some l) (Some dc))) | _, _ => Err EKeyError end | _ => Err EValueError end) l (@Err (dict string (derivative F)) e) = Err e) by (intros e l; induction l as [|a l IH]; [reflexivity|exact IH]).
    match goal with |- context [rbind ?a _] => destruct a as [d|e] end; cbn [rbind]; [|exists e; apply G]. exists EValueError. destruct (comb_probes k) as [|p [|q [|r l]]] eqn:E; try apply G. destruct (H p q eq_refl).
  Qed.

  (** ** The stage *)
  Lemma set_up_spec pairs : NoDup (dkeys (set_up (F := F) pairs)) /\ (forall k, In k (dkeys (set_up (F := F) pairs)) <-> exists p q, In (p, q) pairs /\ k = comb_key p q) /\ (forall k x, In (k, x) (set_up (F := F) pairs) -> exists p q, In (p, q) pairs /\ k = comb_key p q /\ x = fresh p q).
  Proof.
    unfold set_up. induction pairs as [|pq pairs IH] using rev_ind; [cbn; split; [constructor|]; split; [intros k; split; [intros []|intros (p & q & [] & _)]|intros k x []]|].
    rewrite fold_left_app. cbn [fold_left]. destruct IH as (A & B & C). match type of A with NoDup (dkeys ?x) => set (d := x) in * end. destruct pq as [p0 q0]. cbn [fst snd]. split; [apply (NoDup_dset _ String.eqb_spec); exact A|]. split.
    - intros k. rewrite (dkeys_dset _ String.eqb_spec). split.
      + intros I. assert (I' : k = comb_key p0 q0 \/ In k (dkeys d)).
        { destruct (dmem String.eqb d (comb_key p0 q0)); [right; exact I|]. apply in_app_or in I. destruct I as [I|[I|[]]]; auto. }
        destruct I' as [->|I']; [exists p0, q0; split; [apply in_elt|reflexivity]|]. apply B in I'. destruct I' as (p & q & I' & E). exists p, q. split; [apply in_or_app; left; exact I'|exact E].
      + intros (p & q & I & ->). apply in_app_or in I. destruct I as [I|[E|[]]].
        * assert (J : In (comb_key p q) (dkeys d)) by (apply B; eauto). destruct (dmem String.eqb d (comb_key p0 q0)); [exact J|apply in_or_app; left; exact J].
        * injection E as -> ->. destruct (dmem String.eqb d (comb_key p q)) eqn:M; [|apply in_elt]. unfold dmem in M. destruct (dget String.eqb d (comb_key p q)) eqn:G; [|discriminate]. apply (dget_In _ String.eqb_spec) in G. apply in_map_iff. eexists. split; [|exact G]. reflexivity.
    - intros k x I. assert (N' : NoDup (dkeys (dset String.eqb d (comb_key p0 q0) (mkDer p0 q0 None None)))) by (apply (NoDup_dset _ String.eqb_spec); exact A). apply (dget_NoDup_In _ String.eqb_spec _ _ _ N') in I. destruct (String.eqb_spec k (comb_key p0 q0)) as [->|n].
      + rewrite (dget_dset_same _ String.eqb_spec) in I. injection I as <-. exists p0, q0. split; [apply in_elt|auto].
      + rewrite (dget_dset_other _ String.eqb_spec) in I by congruence. apply (dget_In _ String.eqb_spec) in I. destruct (C k x I) as (p & q & J & E). exists p, q. split; [apply in_or_app; left; exact J|exact E].
  Qed.
  Lemma evaluate_fields L c p d d' : evaluate L c p d = Ok d' -> d_p1 d' = d_p1 d /\ d_p2 d' = d_p2 d /\ evaluated d'.
  Proof.
    unfold evaluate. destruct (String.eqb (dmethod p) "SteM").
    - repeat (match goal with |- context [rbind ?a _] => destruct a; cbn [rbind]; [|discriminate] end). intros [= <-]. cbn. repeat split; discriminate.
    - destruct (String.eqb (dmethod p) "Analytic"); [|discriminate]. repeat (match goal with |- context [rbind ?a _] => destruct a; cbn [rbind]; [|discriminate] end). intros [= <-]. cbn. repeat split; discriminate.
  Qed.
  (** The file of a parameter, once read, has the derivative of every pair of probes. *)
  Theorem C115_stage L c dir probes pairs name h : stage L c dir probes pairs = Ok (name, h) -> (forall p q, In (p, q) pairs -> has "_" p = false /\ has "_" q = false) ->
    exists par d, pget c dir = Some par /\ name = outfile_name dir probes /\ load_file h = Ok d /\
      (forall k, In k (dkeys d) <-> exists p q, In (p, q) pairs /\ k = comb_key p q) /\
      (forall p q, In (p, q) pairs -> exists x, evaluate L c par (fresh p q) = Ok x /\ dget String.eqb d (comb_key p q) = Some x).
  Proof.
    intros H U. unfold stage, parse_derivative_dir in H. destruct (pget c dir) as [par|] eqn:Ep; cbn [rbind] in H; [|discriminate].
    destruct (evaluate_all L c par (set_up pairs)) as [d|] eqn:E; cbn [rbind] in H; [|discriminate]. destruct (set_up_spec pairs) as (N & Kk & Kx).
    assert (A : Forall2 (fun kv kx => fst kv = fst kx /\ evaluate L c par (snd kv) = Ok (snd kx)) (set_up pairs) d).
    { unfold evaluate_all in E. clear -E. revert d E. induction (set_up pairs) as [|[k x] s IH]; intros d E; cbn [rmapM fst snd] in E; [injection E as <-; constructor|]. destruct (evaluate L c par x) as [y|] eqn:Y; cbn [rbind] in E; [|discriminate]. destruct (rmapM _ s) as [r|] eqn:R; cbn [rbind] in E; [|discriminate]. injection E as <-. constructor; [cbn; auto|apply IH; reflexivity]. }
    assert (Ek : dkeys d = dkeys (set_up (F := F) pairs)) by (clear -A; unfold dkeys; induction A as [|[k x] [k' y] s d [B _] A IH]; [reflexivity|]; cbn [map fst] in *; rewrite B, IH; reflexivity).
    assert (G : forall k x, In (k, x) d -> exists p q, In (p, q) pairs /\ k = comb_key p q /\ evaluate L c par (fresh p q) = Ok x).
    { intros k x I. assert (J : exists y, In (k, y) (set_up pairs) /\ evaluate L c par y = Ok x).
      { clear -A I. induction A as [|[k1 x1] [k2 y2] s d [B C] A IH]; [destruct I|]. cbn [fst snd] in B, C. destruct I as [I|I]; [injection I as -> ->; exists x1; split; [left; congruence|exact C]|]. destruct (IH I) as (y & J & Ey). exists y. split; [right; exact J|exact Ey]. }
      destruct J as (y & J & Ey). destruct (Kx k y J) as (p & q & Ip & Eq & ->). exists p, q. auto. }
    assert (V : forall k x, In (k, x) d -> evaluated x /\ good_key k x).
    { intros k x I. destruct (G k x I) as (p & q & Ip & -> & Ex). destruct (evaluate_fields _ _ _ _ _ Ex) as (E1 & E2 & E3). cbn [fresh d_p1 d_p2] in E1, E2. split; [exact E3|]. unfold good_key. rewrite E1, E2. destruct (U p q Ip). auto. }
    destruct (C115_round_trip d) as (h' & d' & W & Ld & _ & _ & Gd); [rewrite Ek; exact N|exact V|]. rewrite W in H. injection H as <- <-.
    exists par, d'. split; [reflexivity|]. split; [reflexivity|]. split; [exact Ld|]. split.
    - intros k. rewrite <- Kk, <- Ek. rewrite !In_dkeys_dget. rewrite Gd. reflexivity.
    - intros p q Ip. assert (I : In (comb_key p q) (dkeys d)) by (rewrite Ek; apply Kk; eauto). apply in_map_iff in I. destruct I as ([k x] & Ek' & I). cbn [fst] in Ek'. subst k. destruct (G _ x I) as (p' & q' & Ip' & Eq & Ex). destruct (U p q Ip) as [U1 U2]. destruct (U p' q' Ip') as [U3 U4]. destruct (comb_inj p q p' q' U1 U2 U3 U4 Eq) as [-> ->].
      exists x. split; [exact Ex|]. rewrite Gd. apply (dget_NoDup_In _ String.eqb_spec); [rewrite Ek; exact N|exact I].
  Qed.

  (** The Fisher stage reads for every directory of Derivative its only file of derivatives, or
      fails. *)
  Theorem C115_read {SO : SetOrder} (D : entries) (content : string * string -> hfile F) : NoDup (map fst D) -> (forall d fs, In (d, Some fs) D -> NoDup fs) ->
    (forall m, read_derivatives D content = Ok m -> NoDup (dkeys m) /\ (forall v, In v (dkeys m) <-> exists fs, In (v, Some fs) D) /\
      forall v d, dget String.eqb m v = Some d -> exists fs f, In (v, Some fs) D /\ filter is_der_file fs = [f] /\ load_file (content (v, f)) = Ok d) /\
    ((forall v fs, In (v, Some fs) D -> exists f d, filter is_der_file fs = [f] /\ load_file (content (v, f)) = Ok d) -> exists m, read_derivatives D content = Ok m).
  Proof.
    intros Hn Hf. assert (Hp : forall v, In v (der_params D) <-> exists fs, In (v, Some fs) D) by (intros v; unfold der_params; rewrite In_set_of, map_id; apply in_dirs).
    assert (E : read_derivatives D content = rmapM (fun v => d <- (f <- get_der_file D v ;; load_file (content f)) ;; Ok (v, d)) (der_params D)).
    { unfold read_derivatives. generalize (der_params D). intros l. induction l as [|v l IH]; [reflexivity|]. cbn [rmapM]. rewrite IH. destruct (get_der_file D v); reflexivity. }
    rewrite E. split.
    - intros m M. destruct (rmapM_keys _ _ _ M) as [Ek Hx]. assert (Nm : NoDup (dkeys m)) by (unfold dkeys; rewrite Ek; apply set_of_NoDup). split; [exact Nm|]. split; [intros v; unfold dkeys; rewrite Ek; apply Hp|].
      intros v d I. apply (dget_In _ String.eqb_spec) in I. apply Hx in I. destruct (get_der_file D v) as [x|] eqn:G; cbn [rbind] in I; [|discriminate]. apply (der_file D v Hn) in G. destruct G as (fs & f & A & B & ->). exists fs, f. auto.
    - intros H. assert (G : forall l, (forall v, In v l -> In v (der_params D)) -> exists m, rmapM (fun v => d <- (f <- get_der_file D v ;; load_file (content f)) ;; Ok (v, d)) l = Ok m).
      { induction l as [|v l IH]; intros Hl; [exists []; reflexivity|]. destruct IH as (m & Em); [intros w Hw; apply Hl; right; exact Hw|]. destruct (proj1 (Hp v) (Hl v (or_introl eq_refl))) as (fs & Hd). destruct (H v fs Hd) as (f & d & A & B).
        assert (X : get_der_file D v = Ok (v, f)) by (apply (der_file D v Hn); exists fs, f; auto). exists ((v, d) :: m). cbn [rmapM]. rewrite X. cbn [rbind]. rewrite B. cbn [rbind]. rewrite Em. reflexivity. }
      apply G. auto.
  Qed.
  Lemma outfile_der dvar probes : is_der_file (outfile_name dvar probes) = true.
  Proof. apply is_der_file_iff. exists ("_" ++ dvar ++ "_" ++ join "_" probes)%string. unfold outfile_name. rewrite !sapp_assoc. reflexivity. Qed.
  (** After a second run of the stage with other probes there are two files, and the Fisher
      stage fails. *)
  Theorem C115_other_probes_refuted {SO : SetOrder} (D : entries) (content : string * string -> hfile F) v probes probes' fs :
    NoDup (map fst D) -> (forall d fs, In (d, Some fs) D -> NoDup fs) -> In (v, Some fs) D -> In (outfile_name v probes) fs -> In (outfile_name v probes') fs ->
    probes <> [] -> probes' <> [] -> (forall x, In x (probes ++ probes') -> has "_" x = false) -> probes <> probes' -> exists e, read_derivatives D content = Err e.
  Proof.
    intros Hn Hf Hd H1 H2 N1 N2 U Ne. destruct (read_derivatives D content) as [m|e] eqn:E; [|eauto]. exfalso. destruct (C115_read D content Hn Hf) as [G _]. destruct (G m E) as (Nm & Kk & Gm).
    assert (I : In v (dkeys m)) by (apply Kk; eauto). apply In_dkeys_dget in I. destruct (dget String.eqb m v) as [d|] eqn:Ed; [|congruence]. destruct (Gm v d Ed) as (fs' & f & Hd' & Ef & _).
    assert (fs' = fs) by (apply (dget_NoDup_In _ String.eqb_spec _ _ _ Hn) in Hd, Hd'; congruence). subst fs'.
    assert (A1 : In (outfile_name v probes) [f]) by (rewrite <- Ef; apply filter_In; split; [exact H1|apply outfile_der]). assert (A2 : In (outfile_name v probes') [f]) by (rewrite <- Ef; apply filter_In; split; [exact H2|apply outfile_der]).
    destruct A1 as [A1|[]]. destruct A2 as [A2|[]]. rewrite A1 in A2. unfold outfile_name in A2. rewrite <- !sapp_assoc in A2. apply sapp_inj_r in A2. rewrite !sapp_assoc in A2. repeat apply sapp_inj_l in A2.
    apply Ne. rewrite <- (split_join "_" probes), <- (split_join "_" probes'); try assumption; [change (cstr "_") with "_"%string; congruence| |]; intros x Hx; apply U, in_or_app; auto.
  Qed.
End Props.

Section Examples.
  Definition ex_vs : dict Z (dict string (cube Qc)) :=
    match snd (cls_variations lin_compute "Omm" [("WL_WL"%string, lin_cube (qq 3 10))] ex_coll7) with Ok vs => vs | Err _ => [] end.
  Definition ex_read (f : string * string) (p1 p2 : string) : res (list Qc * cube Qc) :=
    ds <- parse_jobdir (fst f) ;; d <- match dget Z.eqb ex_vs (snd ds) with Some d => Ok d | None => Err EFileNotFound end ;; y <- dgetr d (comb_key p1 p2) ;; Ok ([qz 10], y).
  Definition no_analytic (p : param Qc) (a b : string) (c : cube Qc) : res (cube Qc) := Err ENotImplemented.
  Definition ex_par : param Qc := match pget ex_coll7 "Omm" with Some p => p | None => par "" (qz 0) true true None end.
  Definition ex_stage := stage none ex_read (fun _ _ => Ok tt) no_analytic (dirs "Omm" 7) ex_coll7 "Omm" ["WL"]%string [("WL", "WL")]%string.
  Example C115_instance : stored ex_read (dirs "Omm" 7) "Omm" (fun _ => [qz 10]) ex_vs /\ complete_listing (dirs "Omm" 7) "Omm" 7 /\ related ex_par "WL" "WL" /\ dmethod ex_par = "SteM"%string /\ pp_name ex_par = "Omm"%string /\ length ex_vs = 15 /\
    match evaluate none ex_read (fun _ _ => Ok tt) no_analytic (dirs "Omm" 7) ex_coll7 ex_par (fresh "WL" "WL") with
    | Ok d => (d_ells d, option_map (fun cb => (cnc cb, this (centry cb (0, 0, 0)))) (d_dc d))
    | Err _ => (None, None)
    end = (Some [qz 10], Some (2, this (qz 3))).
  Proof.
    split; [|split; [split; [|exists "cls.h5"%string; vm_compute; reflexivity]|]].
    - intros s d f p1 p2 y Hd _ _ Hy. unfold ex_read. cbn [fst]. assert (Ks : (Z.abs s < 10)%Z).
      { apply (dget_In _ Z.eqb_spec) in Hd. assert (I : In s (dkeys ex_vs)) by (apply in_map_iff; exists (s, d); auto). replace (dkeys ex_vs) with (0 :: seven)%Z in I by (vm_compute; reflexivity). destruct I as [<-|I]; [lia|]. apply (proj1 (steps_In 7 s)) in I. lia. }
      assert (P : exists v, parse_jobdir (step_dir "Omm" s) = Ok (v, s)) by (unfold step_dir; destruct (Z.eqb_spec s 0) as [->|_]; eexists; [reflexivity|apply parse_small; [|exact Ks]]; split; [discriminate|reflexivity]).
      destruct P as (v & P). rewrite P. cbn [rbind snd]. rewrite Hd. cbn [rbind]. unfold dgetr. rewrite Hy. reflexivity.
    - match goal with |- Permutation ?l _ => let l' := eval vm_compute in l in change l with l' end.
      change (Permutation (rev (map (jobdir_name "Omm") (steps_of 7))) (map (jobdir_name "Omm") (steps_of 7))). symmetry. apply Permutation_rev.
    - split; [left; reflexivity|]. split; [reflexivity|]. split; [reflexivity|]. split; [vm_compute; reflexivity|]. vm_compute. reflexivity.
  Qed.
  Example C115_stage_instance : match ex_stage with Ok (n, h) => (n, dkeys h, match load_file h with Ok d => Some (dkeys d) | Err _ => None end) | Err _ => (""%string, [], None) end =
    ("cl_derivatives_Omm_WL.h5", ["WL_WL"], Some ["WL_WL"])%string.
  Proof. vm_compute. reflexivity. Qed.
  (** A step with two files and one without any: the derivative of a linear spectrum is
      computed and wrong. *)
  Definition ex_mixed : listing := map (fun df => if String.eqb (fst df) (jobdir_name "Omm" 2) then (jobdir_name "Omm" 1, "cls_old.h5"%string) else df) (dirs "Omm" 7).
  Definition ex_slope : option Qc :=
    match evaluate none ex_read (fun _ _ => Ok tt) no_analytic ex_mixed ex_coll7 ex_par (fresh "WL" "WL") with Ok d => option_map (fun cb => centry cb (0, 0, 0)) (d_dc d) | Err _ => None end.
  Theorem C115_misaligned_refuted : (forall f, ~ In (jobdir_name "Omm" 2, f) ex_mixed) /\ exists x, ex_slope = Some x /\ x <> qz 3.
  Proof.
    split.
    - assert (N : existsb (fun df => String.eqb (fst df) (jobdir_name "Omm" 2)) ex_mixed = false) by (vm_compute; reflexivity).
      intros f I. assert (T : existsb (fun df => String.eqb (fst df) (jobdir_name "Omm" 2)) ex_mixed = true) by (apply existsb_exists; eexists; split; [exact I|apply String.eqb_refl]). congruence.
    - assert (E : match option_map this ex_slope with Some q => negb (QArith_base.Qeq_bool q (this (qz 3))) | None => false end = true) by (vm_compute; reflexivity).
      destruct ex_slope as [x|]; [|discriminate]. exists x. split; [reflexivity|]. intros ->. cbn [option_map] in E. rewrite (QArith_base.Qeq_bool_refl (this (qz 3))) in E. discriminate.
  Qed.
End Examples.

Print Assumptions C115_misaligned_refuted.
Print Assumptions C115_agree.
Print Assumptions C115_complete.
Print Assumptions C115_unrelated.
Print Assumptions C115_analytic.
Print Assumptions C115_method.
Print Assumptions C115_round_trip.
Print Assumptions C115_not_evaluated.
Print Assumptions C115_foreign_group.
Print Assumptions C115_stage.
Print Assumptions C115_read.
Print Assumptions C115_other_probes_refuted.
