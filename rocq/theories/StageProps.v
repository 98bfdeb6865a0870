(** C95: a repeated run takes up the results of the first. *)
From Coq Require Import Permutation Field.
From Verif Require Import Base SortLib StrLib FrameModel FrameLemmas FsModel ParamModel ParamFileModel KeyModel NameModel NameLemmas H5Model H5Lemmas H5Lemmas2 H5Lemmas3 H5Props H5Props2 H5Props3 H5Props4 H5Props5 SpectraModel SpectraLemmas SpectraProps SpectraProps2 StageModel.
Open Scope string_scope.
Open Scope list_scope.

Section P.
  Context {F : Type} {K : Fld F}.

  (** A first run gives what it computed; a second one, whatever it would
      compute, gives the same densities without touching the file. *)
  Theorem C95_densities meta (d : dict string (obj F)) st r : densities_stage meta (Ok d) None = (st, Ok r) -> d <> [] -> NoDup (dkeys d) -> (forall n o, In (n, o) d -> nums_ok o) ->
    r = d /\ forall again, exists d', densities_stage meta again st = (st, Ok d') /\ NoDup (dkeys d') /\ (forall n, In n (dkeys d') <-> In n (dkeys d)) /\
      forall n o, In (n, o) d -> exists o', In (n, o') d' /\ forall k, density_kept o o' k.
  Proof.
    intros E NE ND NO. unfold densities_stage, stage in E. destruct (save_densities meta d None) as [st' x] eqn:S. destruct x as [[]|]; [|discriminate E]. injection E as <- <-. split; [reflexivity|].
    intros again. destruct (C69_densities_file meta d st' NE ND NO S) as (d' & L & R1 & R2 & R3). exists d'. split; [|auto]. destruct st' as [h|]; [|discriminate L]. unfold densities_stage, stage. rewrite L. reflexivity.
  Qed.
  Theorem C95_spectra meta (c : spectra F) st r W : spectra_stage meta (Ok c) None = (st, Ok r) -> assembled c W ->
    r = c /\ forall again, exists c', spectra_stage meta again st = (st, Ok c') /\ cs_z c' = cs_z c /\ Permutation (dkeys (cs_cls c')) (dkeys (cs_cls c)) /\
      (forall key s', In (key, s') (cs_cls c') -> exists s, In (key, s) (cs_cls c) /\ spectrum_kept s s') /\
      (forall p w, In (p, w) (cs_weights c') -> weight_kept (W p) w).
  Proof.
    intros E HA. unfold spectra_stage, stage in E. destruct (save_steps meta (spectra_steps c) [] None) as [st' x] eqn:S. destruct x as [[]|]; [|discriminate E]. injection E as <- <-. split; [reflexivity|].
    intros again. assert (X : exists h, st' = Some h) by (unfold save_steps in S; destruct (run_steps _ _) as [h y]; injection S as <- _; eauto). destruct X as (h & ->).
    destruct (C96_round_trip meta c W h HA S) as (c' & L & R1 & R2 & R3 & _ & _ & R4). exists c'. unfold spectra_stage, deltas_stage, stage. rewrite L. auto.
  Qed.
  Theorem C95_deltas meta (c : deltas F) st r : deltas_stage meta (Ok c) None = (st, Ok r) -> NoDup (dkeys (blocks c)) -> NoDup (dkeys (singles c)) -> blocks c <> [] -> singles c <> [] ->
    r = c /\ forall again, exists c', deltas_stage meta again st = (st, Ok c') /\
      (forall n, In n (dkeys (blocks c')) <-> In n (dkeys (blocks c))) /\ (forall n, In n (dkeys (singles c')) <-> In n (dkeys (singles c))) /\
      (forall n o, In (n, o) (blocks c) -> exists o', dget String.eqb (blocks c') n = Some o' /\ delta_same o o') /\
      (forall n o, In (n, o) (singles c) -> exists o', dget String.eqb (singles c') n = Some o' /\ delta_same o o').
  Proof.
    intros E N1 N2 B1 B2. unfold deltas_stage, stage in E. destruct (save meta (deltas_ops c) [] None) as [st' x] eqn:S. destruct x as [[]|]; [|discriminate E]. injection E as <- <-. split; [reflexivity|].
    intros again. assert (X : exists h, st' = Some h) by (unfold save in S; destruct (run_ops _ _) as [h y]; injection S as <- _; eauto). destruct X as (h & ->).
    destruct (C69_collection_round_trip meta c [] None h (fresh_new []) ltac:(repeat constructor; intros []) N1 N2 B1 B2 S) as (c' & L & R1 & R2 & R3 & R4 & _). exists c'. unfold spectra_stage, deltas_stage, stage. rewrite L. auto.
  Qed.
  (** A computation that fails leaves no file: the next run computes again. *)
  Theorem C95_failed_computation meta e : (forall d : res (dict string (obj F)), densities_stage meta d (fst (densities_stage meta (Err e) None)) = densities_stage meta d None) /\
    (forall c : res (spectra F), spectra_stage meta c (fst (spectra_stage meta (Err e) None)) = spectra_stage meta c None) /\
    (forall c : res (deltas F), deltas_stage meta c (fst (deltas_stage meta (Err e) None)) = deltas_stage meta c None).
  Proof. repeat split. Qed.

  (** ** Interrupted and changed runs *)
  (** A run interrupted after [k] of its densities: the next one goes on with
      those [k] probes only, and no error. *)
  Lemma densities_prefix meta k : forall (d : dict string (obj F)) st st', save_densities meta d st = (st', Ok tt) -> exists st1, save_densities meta (firstn k d) st = (st1, Ok tt).
  Proof.
    induction k as [|k IH]; intros d st st' S; [eexists; reflexivity|]. destruct d as [|[n o] d]; [eexists; reflexivity|]. cbn [firstn save_densities] in *.
    destruct (save meta (density_ops o) [n] st) as [st2 [[]|e]]; [exact (IH d st2 st' S)|discriminate S].
  Qed.
  Theorem C95_interrupted meta (d : dict string (obj F)) st k : save_densities meta d None = (st, Ok tt) -> NoDup (dkeys d) -> (forall n o, In (n, o) d -> nums_ok o) -> (0 < k)%nat -> d <> [] ->
    forall again, exists d', densities_stage meta again (densities_cut meta d k) = (densities_cut meta d k, Ok d') /\ (forall n, In n (dkeys d') <-> In n (dkeys (firstn k d))).
  Proof.
    intros S ND NO Pk NE again. destruct (densities_prefix meta k d None st S) as (st1 & S1). unfold densities_cut. rewrite S1. cbn [fst].
    destruct (C69_densities_file meta (firstn k d) st1) as (d' & L & _ & R & _); [destruct k; [lia|]; destruct d; [congruence|discriminate]| | |exact S1|].
    - unfold dkeys in *. rewrite <- (firstn_skipn k d), map_app in ND. revert ND. generalize (map fst (firstn k d)), (map fst (skipn k d)). intros a b ND. induction a as [|x a IH]; [constructor|].
      apply NoDup_cons_iff in ND as [N ND]. constructor; [intros I; apply N, in_or_app; left; exact I|exact (IH ND)].
    - intros n o I. apply (NO n o). rewrite <- (firstn_skipn k d). apply in_or_app. left. exact I.
    - exists d'. split; [|exact R]. destruct st1 as [h|]; [|discriminate L]. unfold densities_stage, stage. rewrite L. reflexivity.
  Qed.
  Definition dens (x : F) : obj F := setattr a_density "catalog_f_sky" (VNum x).
  Theorem C95_interrupted_refuted : forall meta : string * string, exists (d d' : dict string (obj F)) st again,
    densities_stage meta (Ok d) None = (st, Ok d) /\ dkeys d = ["Lensing"; "Void"] /\
    densities_stage meta again (densities_cut meta d 1) = (densities_cut meta d 1, Ok d') /\ dkeys d' = ["Lensing"].
  Proof. intros meta. exists [("Lensing", dens fo); ("Void", dens fz)]. do 2 eexists. exists (Err EException). split; [reflexivity|]. split; [reflexivity|]. split; reflexivity. Qed.
  (** A run with another configuration still gives the results of the first. *)
  Theorem C95_configuration_refuted : forall meta : string * string, exists (d e d' : dict string (obj F)) st o o',
    densities_stage meta (Ok d) None = (st, Ok d) /\ densities_stage meta (Ok e) st = (st, Ok d') /\ dget String.eqb e "Lensing" = Some o /\ dget String.eqb d' "Lensing" = Some o' /\
    getattr o' "catalog_f_sky" <> getattr o "catalog_f_sky".
  Proof.
    intros meta. exists [("Lensing", dens fo)], [("Lensing", dens fz)]. do 4 eexists. split; [reflexivity|]. split; [reflexivity|]. split; [reflexivity|]. split; [reflexivity|].
    vm_compute. intros E. injection E as E. exact (F_1_neq_0 fth E).
  Qed.
  (** Spectra that cannot be saved stop this run and every later one. *)
  Theorem C95_stuck_refuted : forall meta : string * string, exists (c : spectra F) st,
    spectra_stage meta (Ok c) None = (st, Err EAttributeError) /\ forall again, spectra_stage meta again st = (st, Err EAttributeError).
  Proof.
    intros meta. destruct (C96_no_kernel_refuted meta) as (c & h & S & L). exists c, (Some h). unfold spectra_stage, stage. rewrite S, L. split; reflexivity.
  Qed.
  (** Delta C_l cut off while they are written: later runs fail, or go on with fewer blocks. *)
  Theorem C95_deltas_cut_refuted : forall meta : string * string, exists (c c' : deltas F) st k1 k2,
    deltas_stage meta (Ok c) None = (st, Ok c) /\ (forall again, deltas_stage meta again (deltas_cut meta c k1) = (deltas_cut meta c k1, Err EKeyError)) /\
    (forall again, deltas_stage meta again (deltas_cut meta c k2) = (deltas_cut meta c k2, Ok c')) /\ dkeys (singles c) = ["p"; "q"] /\ dkeys (singles c') = ["p"].
  Proof.
    intros meta. exists (mkDeltas [("p", a_delta "a" fz)] [("p", a_delta "a" fz); ("q", a_delta "b" fo)]). eexists. eexists.
    exists 1%nat, (length (open_ops meta [] true ++ deltas_ops (mkDeltas [("p", a_delta "a" fz)] [("p", a_delta "a" fz)]) [])).
    split; [reflexivity|]. split; [reflexivity|]. split; [intros again; reflexivity|]. split; reflexivity.
  Qed.

  Example C95_instance : (exists (c : spectra F) W st, assembled c W /\ spectra_stage ("t", "u") (Ok c) None = (st, Ok c)) /\
    exists (d : dict string (obj F)) st, d <> [] /\ NoDup (dkeys d) /\ (forall n o, In (n, o) d -> nums_ok o) /\ densities_stage ("t", "u") (Ok d) None = (st, Ok d).
  Proof.
    split.
    - destruct C96_instance as (A & h & S). do 2 eexists. exists (Some h). split; [exact A|]. unfold spectra_stage, stage. rewrite S. reflexivity.
    - exists [("Lensing", a_density)]. eexists. split; [discriminate|]. split; [repeat constructor; intros []|]. split; [|reflexivity].
      destruct C69_instance_density as (_ & _ & _ & _ & N). intros n o [E|[]]. injection E as <- <-. exact N.
  Qed.
End P.

Print Assumptions C95_densities.
Print Assumptions C95_spectra.
Print Assumptions C95_deltas.
Print Assumptions C95_failed_computation.
Print Assumptions C95_interrupted.
Print Assumptions C95_interrupted_refuted.
Print Assumptions C95_configuration_refuted.
Print Assumptions C95_stuck_refuted.
Print Assumptions C95_deltas_cut_refuted.
