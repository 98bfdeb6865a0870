(** Property C107: power spectra of the IST code comparison. *)
From Verif Require Import Base SortLib StrLib NameModel NameLemmas ParamModel EvalModel EvalSpec EllLemmas OrdLib ParamFileModel StemModel ParamLemmas ParamLemmas2 ParamProps IstModel IstProps2.
From Coq Require Import Qcanon Permutation Sorted.
Close Scope Qc_scope. Open Scope list_scope.

Section Table.
  Context {F : Type} {K : Fld F} {O : OFld (F := F)}.
  Open Scope fld_scope.
  Implicit Types t : list (pk_row F).

  (** A table with a row for every redshift of [zs] and wave number of [ks], the
      wave numbers running faster. *)
  Definition table (zs ks : list F) (lin nl : F -> F -> F) : list (pk_row F) :=
    flat_map (fun z => map (fun k => mkPk z k (lin z k) (nl z k)) ks) zs.

  Lemma unique_increasing (l : list F) : increasing (unique l).
  Proof. apply fsort_increasing, NoDup_nodup. Qed.
  Lemma unique_In (l : list F) x : In x (unique l) <-> In x l.
  Proof. unfold unique. rewrite fsort_In, nodup_In. reflexivity. Qed.
  Lemma unique_eq (l m : list F) : increasing m -> (forall x, In x l <-> In x m) -> unique l = m.
  Proof. intros I H. apply increasing_unique; [apply unique_increasing|exact I|]. intros x. rewrite unique_In. apply H. Qed.
  Lemma rev_decreasing (l : list F) : decreasing l -> increasing (rev l).
  Proof.
    unfold decreasing, increasing. intros D. induction D as [|x l D IH HF]; cbn; [constructor|].
    assert (G : forall m (y : F), StronglySorted (fun a b => flt a b) m -> (forall z, In z m -> flt z y) -> StronglySorted (fun a b => flt a b) (m ++ [y])).
    { clear. induction m as [|a m IH]; intros y S H; cbn; [constructor; constructor|]. inversion S as [|? ? S' HF]; subst. constructor; [apply IH; [exact S'|intros z Hz; apply H; right; exact Hz]|].
      rewrite Forall_forall in *. intros z Hz. apply in_app_or in Hz. destruct Hz as [Hz|[<-|[]]]; [apply HF; exact Hz|apply H; left; reflexivity]. }
    apply G; [exact IH|]. intros z Hz. apply in_rev in Hz. rewrite Forall_forall in HF. exact (HF z Hz).
  Qed.
  Lemma table_cols zs ks lin nl : zs <> [] -> ks <> [] ->
    (forall x, In x (map r_z (table zs ks lin nl)) <-> In x zs) /\ (forall x, In x (map r_k (table zs ks lin nl)) <-> In x ks).
  Proof.
    intros Nz Nk. unfold table. split; intros x; rewrite in_map_iff.
    - split.
      + intros (r & <- & H). apply in_flat_map in H. destruct H as (z & Hz & H). apply in_map_iff in H. destruct H as (k & <- & _). exact Hz.
      + intros H. destruct ks as [|k ks]; [congruence|]. exists (mkPk x k (lin x k) (nl x k)). split; [reflexivity|]. apply in_flat_map. exists x. split; [exact H|left; reflexivity].
    - split.
      + intros (r & <- & H). apply in_flat_map in H. destruct H as (z & Hz & H). apply in_map_iff in H. destruct H as (k & <- & Hk). exact Hk.
      + intros H. destruct zs as [|z zs]; [congruence|]. exists (mkPk z x (lin z x) (nl z x)). split; [reflexivity|]. apply in_flat_map. exists z. split; [left; reflexivity|]. apply in_map_iff. exists x. auto.
  Qed.
  Lemma reshape_blocks {A} (g : A -> list F) m (l : list A) : (forall x, In x l -> length (g x) = m) -> reshape (length l) m (flat_map g l) = Ok (map g l).
  Proof.
    intros H. assert (L : length (flat_map g l) = (length l * m)%nat). { clear -H. induction l as [|x l IH]; [reflexivity|]. cbn. rewrite app_length, IH by (intros; apply H; right; assumption). rewrite (H x) by (left; reflexivity). reflexivity. }
    unfold reshape. rewrite L, Nat.eqb_refl. f_equal. clear L.
    induction l as [|x l IH]; [reflexivity|]. cbn [length seq map flat_map].
    pose proof (H x (or_introl eq_refl)) as Lx. f_equal.
    - cbn [Nat.mul skipn]. rewrite <- Lx, firstn_app, firstn_all, Nat.sub_diag. cbn [firstn]. apply app_nil_r.
    - rewrite <- seq_shift, map_map. rewrite <- IH by (intros; apply H; right; assumption). apply map_ext. intros i. f_equal. cbn [Nat.mul]. rewrite <- Lx at 1. rewrite skipn_app. rewrite skipn_all2 by lia. cbn [app]. f_equal. lia.
  Qed.
  Lemma table_map (f : pk_row F -> F) zs ks lin nl : map f (table zs ks lin nl) = flat_map (fun z => map (fun k => f (mkPk z k (lin z k) (nl z k))) ks) zs.
  Proof. unfold table. induction zs as [|z zs IH]; [reflexivity|]. cbn [flat_map]. rewrite map_app, IH, map_map. reflexivity. Qed.

  (** Tables with falling redshifts are read as they are: each value at its
      redshift and wave number, both axes increasing. *)
  Theorem C107_read zs ks lin nl : zs <> [] -> ks <> [] -> decreasing zs -> increasing ks ->
    read_ist_pk (table zs ks lin nl) = Ok (rev zs, ks, map (fun z => map (lin z) ks) (rev zs), map (fun z => map (nl z) ks) (rev zs)) /\ increasing (rev zs).
  Proof.
    intros Nz Nk Dz Ik. destruct (table_cols zs ks lin nl Nz Nk) as (Cz & Ck). pose proof (rev_decreasing zs Dz) as Iz. split; [|exact Iz].
    unfold read_ist_pk. rewrite (unique_eq _ (rev zs) Iz) by (intros x; rewrite Cz, <- in_rev; reflexivity). rewrite (unique_eq _ ks Ik Ck). rewrite rev_length.
    rewrite !table_map. cbn [r_lin r_nl].
    rewrite (reshape_blocks (fun z => map (fun k => lin z k) ks) (length ks) zs) by (intros; apply map_length).
    rewrite (reshape_blocks (fun z => map (fun k => nl z k) ks) (length ks) zs) by (intros; apply map_length).
    cbn [rbind]. rewrite <- !map_rev. reflexivity.
  Qed.
  (** Tables with rising redshifts are accepted too, and the values are
      attached to the redshifts in the opposite order. *)
  Theorem C107_rising zs ks lin nl : zs <> [] -> ks <> [] -> increasing zs -> increasing ks ->
    read_ist_pk (table zs ks lin nl) = Ok (zs, ks, map (fun z => map (lin z) ks) (rev zs), map (fun z => map (nl z) ks) (rev zs)).
  Proof.
    intros Nz Nk Iz Ik. destruct (table_cols zs ks lin nl Nz Nk) as (Cz & Ck).
    unfold read_ist_pk. rewrite (unique_eq _ zs Iz Cz), (unique_eq _ ks Ik Ck). rewrite !table_map. cbn [r_lin r_nl].
    rewrite (reshape_blocks (fun z => map (fun k => lin z k) ks) (length ks) zs) by (intros; apply map_length).
    rewrite (reshape_blocks (fun z => map (fun k => nl z k) ks) (length ks) zs) by (intros; apply map_length).
    cbn [rbind]. rewrite <- !map_rev. reflexivity.
  Qed.
  (** A table that is not a full grid is refused, unless the number of its rows
      happens to fit. *)
  Theorem C107_incomplete t : length t <> (length (unique (map r_z t)) * length (unique (map r_k t)))%nat -> read_ist_pk t = Err EValueError.
  Proof.
    intros N. unfold read_ist_pk, reshape. rewrite map_length. destruct (Nat.eqb_spec (length t) (length (unique (map r_z t)) * length (unique (map r_k t)))) as [C|_]; [contradiction|]. reflexivity.
  Qed.

  (** The saved spectrum: wave numbers and spectra without the factors of h, at
      the positive redshifts. *)
  Definition positive (z : F) : bool := if fle_dec z 0 then false else true.
  Lemma masked_map {A} (zs : list F) (g : F -> A) : masked zs (map g zs) = map g (filter positive zs).
  Proof.
    unfold masked, positive. induction zs as [|z zs IH]; [reflexivity|]. cbn [map combine filter fst]. destruct (fle_dec z 0); cbn [map snd]; rewrite IH; reflexivity.
  Qed.
  Theorem C107_units h zs ks lin nl : zs <> [] -> ks <> [] -> decreasing zs -> increasing ks ->
    let z := filter positive (rev zs) in
    convert h (table zs ks lin nl) = Ok (mkSpec z (map (fun k => k * h) ks)
      (map (fun x => map (fun k => lin x k / (h * h * h)) ks) z) (map (fun x => map (fun k => nl x k / (h * h * h)) ks) z)) /\
    increasing z /\ forall x, In x z <-> In x zs /\ flt 0 x.
  Proof.
    intros Nz Nk Dz Ik z. destruct (C107_read zs ks lin nl Nz Nk Dz Ik) as (E & Iz). split; [|split].
    - unfold convert. rewrite E. cbn [rbind]. f_equal. rewrite !map_map.
      assert (Q : masked (rev zs) (rev zs) = z). { rewrite <- (map_id (rev zs)) at 2. rewrite masked_map, map_id. reflexivity. }
      rewrite Q, !masked_map. unfold z. f_equal; apply map_ext; intros a; rewrite map_map; reflexivity.
    - unfold z, increasing in *. clear -Iz. induction Iz as [|x l I IH HF]; [constructor|]. cbn. destruct (positive x); [|exact IH]. constructor; [exact IH|].
      rewrite Forall_forall in *. intros y Hy. apply filter_In in Hy. apply HF, Hy.
    - intros x. unfold z. rewrite filter_In, <- in_rev. unfold positive. destruct (fle_dec x 0) as [L|L].
      + split; [intros (_ & C); discriminate C|]. intros (_ & L' & Ne). exfalso. apply Ne. apply fle_antisym; assumption.
      + split; [|tauto]. intros (H & _). split; [exact H|]. split; [destruct (fle_total 0 x); [assumption|contradiction]|]. intros <-. apply L, fle_refl.
  Qed.
End Table.

(** ** The directory of converted spectra *)
Definition converted (c : coll Qc) (f : string * list (pk_row Qc)) (o : string * (dict string (param Qc) * spectrum Qc)) : Prop :=
  exists dvar step c1 h, parse_ist (stem_dict c) (fst f) = Ok (dvar, step) /\ update_step dvar step c = (c1, Ok tt) /\
    fst o = jobdir_name dvar step /\ fst (snd o) = cosmological c1 /\ pget c1 "h" = Some h /\ convert (current h) (snd f) = Ok (snd (snd o)).
Lemma dmem_false {V} (d : dict string V) k : dmem String.eqb d k = false -> ~ In k (dkeys d).
Proof. unfold dmem. destruct (dget String.eqb d k) eqn:E; [discriminate|]. intros _. apply (dget_None _ String.eqb_spec). exact E. Qed.
(** When the conversion succeeds there is one directory for each file, named
    after the file's variation, with the parameters of that variation and the
    spectrum in the units of its own h; the parameters are as before. *)
Theorem C107_files files : forall c out c' out', NoDup (dkeys (params c)) -> at_fiducial c -> NoDup (dkeys out) ->
  convert_all files c out = (c', out', Ok tt) ->
  c' = c /\ NoDup (dkeys out') /\ exists new, out' = out ++ new /\ Forall2 (converted c) files new.
Proof.
  induction files as [|[name t] files IH]; intros c out c' out' Nk Fi No E.
  - cbn in E. injection E as <- <-. split; [reflexivity|]. split; [exact No|]. exists []. rewrite app_nil_r. split; [reflexivity|constructor].
  - cbn [convert_all] in E. unfold convert_one in E. destruct (pget c "h") as [h0|]; [|discriminate E]. destruct (negb (is_cosmo h0)); [discriminate E|].
    destruct (parse_ist (stem_dict c) name) as [[dvar step]|] eqn:P; [|discriminate E].
    destruct (update_step dvar step c) as [c1 [[]|]] eqn:U; [|discriminate E]. destruct (pget c1 "h") as [h|] eqn:Eh; [|discriminate E].
    destruct (convert (current h) t) as [sp|] eqn:Cv; [|discriminate E]. destruct (dmem String.eqb out (jobdir_name dvar step)) eqn:M; [discriminate E|].
    assert (R : reset_all c1 = c). { pose proof (update_reset dvar step c) as R. rewrite U in R. cbn [fst] in R. rewrite R. apply fiducial_reset; assumption. }
    rewrite R in E. apply dmem_false in M.
    apply IH in E; [|exact Nk|exact Fi|]. 2:{ unfold dkeys. rewrite map_app. cbn [map fst]. rewrite <- (rev_involutive (map fst out ++ [jobdir_name dvar step])). apply NoDup_rev. rewrite rev_app_distr. cbn. constructor; [rewrite <- in_rev; exact M|apply NoDup_rev; exact No]. }
    destruct E as (-> & No' & new & -> & H). split; [reflexivity|]. split; [exact No'|]. exists ((jobdir_name dvar step, (cosmological c1, sp)) :: new).
    split; [rewrite <- app_assoc; reflexivity|]. constructor; [|exact H]. exists dvar, step, c1, h. cbn [fst snd]. auto 10.
Qed.
(** So two files of one variation, or two files that name none, stop it. *)
Theorem C107_twice pre mid post c out c' out' f g x : NoDup (dkeys (params c)) -> at_fiducial c -> NoDup (dkeys out) ->
  parse_ist (stem_dict c) (fst f) = Ok x -> parse_ist (stem_dict c) (fst g) = Ok x ->
  convert_all (pre ++ f :: mid ++ g :: post) c out <> (c', out', Ok tt).
Proof.
  intros Nk Fi No Pf Pg E. apply C107_files in E; [|assumption..]. destruct E as (_ & No' & new & -> & H).
  apply Forall2_app_inv_l in H. destruct H as (n1 & n2 & _ & H & ->). inversion H as [|? o ? n3 Hf H3]; subst.
  apply Forall2_app_inv_l in H3. destruct H3 as (n4 & n5 & _ & H5 & ->). inversion H5 as [|? o' ? n6 Hg _]; subst.
  destruct Hf as (d1 & s1 & c1 & h1 & P1 & _ & O1 & _), Hg as (d2 & s2 & c2 & h2 & P2 & _ & O2 & _).
  rewrite Pf in P1. rewrite Pg in P2. assert (Eo : fst o = fst o') by congruence. clear -No' Eo.
  unfold dkeys in No'. rewrite !map_app in No'. cbn [map] in No'. rewrite map_app in No'. cbn [map] in No'. rewrite app_assoc in No'. apply NoDup_remove_2 in No'. apply No'. apply in_or_app. right. apply in_or_app. right. left. symmetry. exact Eo.
Qed.
Lemma dget_pfilter (f : param Qc -> bool) d k p : dget String.eqb d k = Some p -> f p = true -> dget String.eqb (pfilter f d) k = Some p.
Proof.
  unfold pfilter. intros E H. induction d as [|[a q] d IH]; [discriminate E|]. cbn in E. cbn [filter snd]. destruct (String.eqb a k) eqn:Ea.
  - injection E as ->. rewrite H. cbn. rewrite Ea. reflexivity.
  - destruct (f q); [cbn; rewrite Ea|]; apply IH; exact E.
Qed.
(** The file of a variation: its parameter is displaced by what the name says,
    and h is the displaced one exactly in the files that vary h. *)
Theorem C107_variation c0 f o pre name par minus eps k v post : let c := ist_reader c0 in
  at_fiducial c -> lead pre -> In (name, par) ist_pars -> In (eps, (k, v)) ist_disps -> fst f = (pre ++ name ++ sign_text minus ++ eps ++ post)%string ->
  converted c f o ->
  exists p h, pget c par = Some p /\ pget c "h" = Some h /\ fst o = jobdir_name par (sgn minus k) /\
    let e := Q2Qc (QArith_base.Qmake (sgn minus v) 100000) in
    (is_cosmo p = true -> dget String.eqb (fst (snd o)) par = Some (with_current p (value_for p e))) /\
    convert (if String.eqb par "h" then value_for h e else fiducial h) (snd f) = Ok (snd (snd o)).
Proof.
  intros c Fi L Hn He Ef (dvar & step & c1 & h1 & P & U & Eo & Ep & Eh & Cv). rewrite Ef in P.
  destruct (C105_parse c0 pre name par minus eps k v post L Hn He) as (P' & D). fold c in P', D. rewrite P' in P. injection P as <- <-.
  assert (Nc : par <> "central"%string /\ (par = "h"%string \/ String.eqb "h" par = false /\ String.eqb par "h" = false) /\ (is_dens par = true -> String.eqb "h" (partner par) = false)).
  { clear -Hn. cbn [In ist_pars] in Hn. decompose [or] Hn; try contradiction; match goal with X : (_, _) = (_, _) |- _ => injection X; intros; subst end; (split; [discriminate|split; [first [left; reflexivity|right; split; reflexivity]|first [discriminate|reflexivity]]]). }
  destruct Nc as (Nc & Ph & Pp).
  destruct (C37_one_step par (sgn minus k) c c1 tt Nc U) as (p & e' & Gp & _ & De & _ & _ & _ & _ & Gn). rewrite D in De. injection De as <-.
  pose proof (Gn "h"%string) as Gh. rewrite Eh in Gh. pose proof (Gn par) as Gpar. rewrite String.eqb_refl in Gpar.
  assert (T : is_cosmo p = true -> dget String.eqb (fst (snd o)) par = Some (with_current p (value_for p (Q2Qc (QArith_base.Qmake (sgn minus v) 100000))))).
  { intros Co. rewrite Ep. apply dget_pfilter; [exact Gpar|exact Co]. }
  destruct Ph as [->|(Ph & Ph')].
  - rewrite String.eqb_refl in Gh. exists p, p. split; [exact Gp|]. split; [exact Gp|]. split; [exact Eo|]. cbv zeta. rewrite String.eqb_refl. injection Gh as ->. split; [exact T|exact Cv].
  - rewrite Ph in Gh. assert (Gh' : pget c "h" = Some h1).
    { destruct (is_dens par) eqn:Ed; [rewrite (Pp eq_refl) in Gh|]; rewrite ?andb_false_r, ?andb_false_l in Gh; cbn in Gh; rewrite ?andb_false_r in Gh; symmetry; exact Gh. }
    exists p, h1. split; [exact Gp|]. split; [exact Gh'|]. split; [exact Eo|]. cbv zeta. rewrite Ph'. split; [exact T|].
    rewrite <- (Fi "h"%string h1); [exact Cv|]. exact Gh'.
Qed.

(** *** A case: the fiducial spectrum and the one of a larger h; redshift 0 goes. *)
Definition ex_q (n : Z) : Qc := Q2Qc (QArith_base.inject_Z n).
Definition ex_par (n : string) (v : Qc) : string * param Qc := (n, mkPar n v v true None (ex_q 1) true ""%string ""%string "SteM"%string).
Definition ex_c0 : coll Qc := mkColl [ex_par "h" (ex_q 2); ex_par "Omm" (ex_q 3)] [] [] true.
Definition ex_tab : list (pk_row Qc) := table [ex_q 1; ex_q 0] [ex_q 3; ex_q 5] (fun z k => (z + k)%Qc) (fun z k => (z * k)%Qc).
Example C107_instance :
  let c := ist_reader ex_c0 in
  let '(c', out, r) := convert_all [("pkz-Fiducial.txt", ex_tab); ("pkz-h_pl_eps_1p0E-1.txt", ex_tab)]%string c [] in
  r = Ok tt /\ dkeys out = ["dvar_central_step_0"; "dvar_h_step_p_7"]%string /\
  map (fun o => map this (s_k (snd (snd o)))) out = [[QArith_base.inject_Z 6; QArith_base.inject_Z 10]; [QArith_base.Qmake 33 5; QArith_base.inject_Z 11]] /\
  map (fun o => s_z (snd (snd o))) out = [[ex_q 1]; [ex_q 1]].
Proof. vm_compute. repeat split; reflexivity. Qed.
(** The same numbers listed with rising redshifts are read without complaint
    and give another spectrum. *)
Theorem C107_order_refuted : exists zs ks (lin nl : Qc -> Qc -> Qc) r r', decreasing zs /\ increasing ks /\
  read_ist_pk (table zs ks lin nl) = Ok r /\ read_ist_pk (table (rev zs) ks lin nl) = Ok r' /\ r <> r'.
Proof.
  exists [ex_q 1; ex_q 0], [ex_q 3], (fun z _ => z), (fun z _ => z). do 2 eexists.
  assert (D : decreasing [ex_q 1; ex_q 0]). { repeat constructor; vm_compute; discriminate. }
  assert (I : increasing [ex_q 3]) by (repeat constructor).
  split; [exact D|]. split; [exact I|].
  split; [apply C107_read; first [discriminate|exact D|exact I]|]. split; [apply C107_rising; first [discriminate|exact I|apply rev_decreasing; exact D]|].
  vm_compute. intros E. injection E as E. discriminate E.
Qed.

Print Assumptions C107_read.
Print Assumptions C107_rising.
Print Assumptions C107_incomplete.
Print Assumptions C107_units.
Print Assumptions C107_files.
Print Assumptions C107_twice.
Print Assumptions C107_variation.
Print Assumptions C107_order_refuted.
