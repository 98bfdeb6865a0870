(** Properties C25, C26, C71: Fisher files. *)
From Verif Require Import Base SortLib StrLib FrameModel FrameLemmas FisherModel FisherSpec FisherLemmas FisherLemmas5 KeyModel KeySpec
  FsModel FisherFileModel FisherFileSpec FileLemmas FileLemmas2.
From Coq Require Import Qcanon.
Close Scope Qc_scope. Open Scope list_scope.

Section Props.
  Context {F : Type} {K : Fld F} {SO : SetOrder}.
  Implicit Types f g : fisher F.
  Implicit Types s : fs (h5 F).

  (** ** C25 *)
  (** A place where a file can be written, and the path chosen. *)
  Definition writable s (p : path) : Prop := p <> [] /\ p_isdir s (removelast p) = true /\ lookup s p <> Some NDir.
  Definition target (outdir outfile : option path) f (p : path) : Prop :=
    outfile = Some p \/ (outfile = None /\ exists d, outdir = Some d /\ p = d ++ [fisher_filename (fname f)]).
  Lemma target_path outdir outfile f p : target outdir outfile f p -> out_path outdir outfile f = Ok p.
  Proof. unfold out_path. intros [->|(-> & d & -> & ->)]; reflexivity. Qed.

  Theorem C25_round_trip outdir outfile ow sk f s p : wf f -> target outdir outfile f p -> writable s p ->
    (lookup s p = None \/ (ow = true /\ sk = false)) ->
    exists s' g, fisher_write outdir outfile ow sk f s = (s', Ok tt) /\ fisher_load H2 p s' = Ok g /\
      fname g = fname f /\ labels g = labels f /\ cx (fmat g) = cx (fmat f) /\
      (forall a b, In a (labels f) -> In b (labels f) -> ce (fmat g) a b = ce (fmat f) a b) /\
      wf g /\ same g f /\ finverse g = None.
  Proof.
    intros W T (Np & Dp & Nd) Hc. unfold fisher_write. rewrite (target_path _ _ _ _ T).
    assert (X : exists s' l, write_ops ow sk p f s = Ok l /\ run_ops l s = (s', Ok tt) /\ lookup s' p = Some (NFile (datasets f : h5 F)) /\ kept (eq p) s s').
    { destruct (lookup s p) as [[|c]|] eqn:L; [elim Nd; reflexivity| |apply write_new; assumption].
      destruct Hc as [C|[-> ->]]; [discriminate C|]. eapply write_over; eauto. }
    destruct X as (s' & l & E1 & E2 & L & _). rewrite E1, E2. destruct (load_datasets f W) as (g & Eg & Lg). exists s', g.
    split; [reflexivity|]. split; [rewrite (load_unfold _ _ _ _ L); exact Eg|]. destruct (loaded_same f g W Lg) as (Wg & Sg).
    destruct Lg as (A & B & C & D & _ & _ & _ & _ & E & _). split; [exact A|]. split; [exact B|]. split; [|auto].
    rewrite C. destruct W as ((_ & Wc & _) & _). symmetry. exact Wc.
  Qed.
  Theorem C25_existing_file outdir outfile ow sk f s p c : target outdir outfile f p -> lookup s p = Some c ->
    (sk = true -> fisher_write outdir outfile ow sk f s = (s, Ok tt)) /\
    (sk = false -> ow = false -> fisher_write outdir outfile ow sk f s = (s, Err EFileExists)).
  Proof.
    intros T L. unfold fisher_write. rewrite (target_path _ _ _ _ T). unfold write_ops, p_exists. rewrite L.
    split; [intros ->; reflexivity|intros -> ->; reflexivity].
  Qed.
  Theorem C25_no_path_raises ow sk f s : fisher_write None None ow sk f s = (s, Err EDomain).
  Proof. reflexivity. Qed.
  (** No other path changes, also when the process dies after any number of the
      operations on the file. *)
  Theorem C25_other_paths_unchanged outdir outfile ow sk f s p q : target outdir outfile f p -> q <> p ->
    lookup (fst (fisher_write outdir outfile ow sk f s)) q = lookup s q /\
    forall l k, write_ops ow sk p f s = Ok l -> lookup (fst (run_ops (firstn k l) s)) q = lookup s q.
  Proof.
    intros T N. assert (Aux : forall l, (forall o, In o l -> op_path o = p) -> lookup (fst (run_ops l s)) q = lookup s q).
    { intros l Hl. apply (run_ops_kept l p Hl s q). congruence. }
    split.
    - unfold fisher_write. rewrite (target_path _ _ _ _ T). destruct (write_ops ow sk p f s) as [l|e] eqn:E; [|reflexivity].
      apply Aux. exact (write_ops_path _ _ _ _ _ _ E).
    - intros l k E. apply Aux. intros o Ho. apply (write_ops_path _ _ _ _ _ _ E). rewrite <- (firstn_skipn k l). apply in_or_app. left; exact Ho.
  Qed.

  (** ** C71 *)
  Lemma NoDup_firstn_l {A} (l : list A) k : NoDup l -> NoDup (firstn k l).
  Proof.
    revert k; induction l as [|x l IH]; intros [|k] N; cbn; try constructor; inversion N as [|? ? Nx N']; subst; [|apply IH; exact N'].
    intros H. apply Nx. rewrite <- (firstn_skipn k l). apply in_or_app. left; exact H.
  Qed.
  Lemma cut_ops (p : path) (l : h5 F) k :
    firstn (S k) (WCreate p :: map (fun nv => WData p (fst nv) (snd nv)) l) = WCreate p :: map (fun nv => WData p (fst nv) (snd nv)) (firstn k l).
  Proof. cbn [firstn]. f_equal. apply firstn_map. Qed.
  Lemma cut_state ow sk f s p k l : writable s p -> lookup s p = None -> write_ops ow sk p f s = Ok l ->
    exists s', run_ops (firstn (S k) l) s = (s', Ok tt) /\ lookup s' p = Some (NFile (firstn k (datasets f) : h5 F)).
  Proof.
    intros (Np & Dp & _) L E. unfold write_ops, p_exists in E. rewrite L in E. injection E as El.
    assert (X : firstn (S k) l = WCreate p :: map (fun nv => WData p (fst nv) (snd nv)) (firstn k (datasets f))) by (rewrite <- El; exact (cut_ops p (datasets f) k)).
    rewrite X.
    destruct (create_data p s (firstn k (datasets f)) Np Dp L) as (s' & E & L' & _).
    - rewrite <- firstn_map. apply NoDup_firstn_l, datasets_names.
    - exists s'. auto.
  Qed.
  (** A write into a new file cut before the fourth dataset is detected. *)
  Theorem C71_early_interruption_detected v ow sk f s p l k : writable s p -> lookup s p = None -> write_ops ow sk p f s = Ok l -> k < 5 ->
    exists e, fisher_load v p (fst (run_ops (firstn k l) s)) = Err e.
  Proof.
    intros Wp L E Hk. destruct k as [|k].
    - exists EOSError. cbn. unfold fisher_load, p_read. rewrite L. reflexivity.
    - destruct (cut_state ow sk f s p k l Wp L E) as (s' & E' & L'). rewrite E'. cbn [fst].
      destruct (Nat.eq_dec k 4) as [->|N4]; [lia|]. exists EKeyError. rewrite (load_unfold _ _ _ _ L'). apply load_cut. lia.
  Qed.
  (** A write cut just before its last dataset leaves a file that loads as a
      matrix with the same labels and entries and no nuisance parameters. *)
  Theorem C71_late_interruption_undetected ow sk f s p l : wf f -> writable s p -> lookup s p = None -> write_ops ow sk p f s = Ok l ->
    exists g, fisher_load H2 p (fst (run_ops (firstn 5 l) s)) = Ok g /\ labels g = labels f /\ fnuis g = [].
  Proof.
    intros W Wp L E. destruct (cut_state ow sk f s p 4 l Wp L E) as (s' & E' & L'). rewrite E'. cbn [fst]. rewrite (load_unfold _ _ _ _ L').
    destruct (load_cut4 f W) as (g & Eg & Lg). exists g. split; [exact Eg|]. destruct Lg as (_ & B & _ & _ & _ & N & _).
    split; [exact B|]. destruct (fnuis g) as [|x r] eqn:En; [reflexivity|]. exfalso. apply (N x). left; reflexivity.
  Qed.
End Props.

(** ** C26 *)
Theorem C26_same_file_iff_same_words n m : fisher_filename n = fisher_filename m <-> name_words n = name_words m.
Proof. exact (collision_iff n m). Qed.
Theorem C26_project_names_distinct c c' : comb_name c <> comb_name c' -> fisher_filename (comb_name c) <> fisher_filename (comb_name c').
Proof. intros N E. apply N. exact (filename_inj c c' E). Qed.
(** In general two matrices can be sent to the same file. *)
Theorem C26_all_names_refuted : exists n m, n <> m /\ fisher_filename n = fisher_filename m.
Proof. exists "[WL]"%string, "WL"%string. split; [discriminate|reflexivity]. Qed.

(** ** Refutations *)
#[local] Existing Instance id_order.
(** C25: checkAttributes accepts columns ordered differently from the rows; the
    file keeps only the row labels, so loading exchanges entries. *)
Definition skew : fisher Qc :=
  mkFisher (mkF ["a"; "b"]%string ["b"; "a"]%string
    (fun x y => Some (if String.eqb x "a" then if String.eqb y "a" then qz 1 else qz 2 else if String.eqb y "a" then qz 2 else qz 3)))
    "F" ["a"; "b"]%string [] None None true.
Theorem C25_permuted_columns_refuted : exists (f g : fisher Qc) s s' p, check_attributes f = Ok tt /\
  fisher_write None (Some p) false false f s = (s', Ok tt) /\ fisher_load H2 p s' = Ok g /\
  ce (fmat f) "a" "a" <> ce (fmat g) "a" "a".
Proof.
  exists skew. eexists. exists []. eexists. exists ["f"%string]. split; [vm_compute; reflexivity|].
  split; [reflexivity|]. split; [cbn; reflexivity|]. intros C. apply (f_equal (option_map this)) in C. vm_compute in C. discriminate C.
Qed.
(** C25: with the h5py the package metadata allows (3.x) names come back as
    printed byte strings. *)
Theorem C25_h5py3_refuted : exists (f g : fisher Qc) s s' p, wf f /\
  fisher_write None (Some p) false false f s = (s', Ok tt) /\ fisher_load H3 p s' = Ok g /\ fname g <> fname f /\ labels g <> labels f.
Proof.
  exists (fish2 (qz 2) (qz 1) (qz 1) (qz 1) "Omm" "bgph0"). eexists. exists []. eexists. exists ["f"%string].
  split; [apply fish2_wf; discriminate|]. split; [reflexivity|]. split; [cbn; reflexivity|]. split; intros C; vm_compute in C; discriminate C.
Qed.
(** C71: a crash can go unnoticed and lose the nuisance parameters. *)
Theorem C71_interruption_detected_refuted : exists (f g : fisher Qc) s p l k, wf f /\ writable s p /\ lookup s p = None /\
  write_ops false false p f s = Ok l /\ k < length l /\ fisher_load H2 p (fst (run_ops (firstn k l) s)) = Ok g /\ ~ same g f.
Proof.
  set (f := fish2 (qz 2) (qz 1) (qz 1) (qz 1) "Omm" "bgph0" : fisher Qc).
  assert (W : wf f) by (apply fish2_wf; discriminate).
  assert (Wp : writable ([] : fs (h5 Qc)) ["f"%string]) by (split; [discriminate|split; [reflexivity|discriminate]]).
  destruct (C71_late_interruption_undetected false false f [] ["f"%string] _ W Wp eq_refl eq_refl) as (g & E & _ & N).
  exists f, g, [], ["f"%string]. eexists. exists 5. split; [exact W|]. split; [exact Wp|]. split; [reflexivity|]. split; [reflexivity|].
  split; [cbn; lia|]. split; [exact E|]. intros (_ & _ & _ & S). rewrite N in S. apply (S "bgph0"%string). left; reflexivity.
Qed.

(** ** Examples: the hypotheses can be met. *)
Example C25_C71_ex :
  let f := fish2 (qz 2) (qz 1) (qz 1) (qz 1) "Omm" "bgph0" : fisher Qc in
  let s := [(["d"%string], NDir)] : fs (h5 Qc) in
  let p := ["d"; "fisher_F.hdf5"]%string in
  wf f /\ target (Some ["d"%string]) None f p /\ writable s p /\ lookup s p = None /\
  (exists l, write_ops false false p f s = Ok l) /\
  (let s1 := fst (fisher_write (Some ["d"%string]) None false false f s) in
   writable s1 p /\ exists c, lookup s1 p = Some (NFile c)).
Proof.
  cbn zeta. split; [apply fish2_wf; discriminate|]. split; [right; split; [reflexivity|exists ["d"%string]; split; reflexivity]|].
  split; [split; [discriminate|split; [reflexivity|discriminate]]|]. split; [reflexivity|]. split; [eexists; reflexivity|].
  split; [split; [discriminate|split; [reflexivity|cbn; discriminate]]|]. eexists. reflexivity.
Qed.
Example C26_ex : comb_name ((EAuto Ph, [EXc Ph Wl]), [(true, (EPk, []))]) <> comb_name ((EAuto Ph, []), [(true, (EPk, []))]).
Proof. discriminate. Qed.
#[local] Remove Hints id_order : typeclass_instances.

Print Assumptions C25_round_trip.
Print Assumptions C25_existing_file.
Print Assumptions C25_no_path_raises.
Print Assumptions C25_other_paths_unchanged.
Print Assumptions C25_permuted_columns_refuted.
Print Assumptions C25_h5py3_refuted.
Print Assumptions C26_same_file_iff_same_words.
Print Assumptions C26_project_names_distinct.
Print Assumptions C26_all_names_refuted.
Print Assumptions C71_early_interruption_detected.
Print Assumptions C71_late_interruption_undetected.
Print Assumptions C71_interruption_detected_refuted.
