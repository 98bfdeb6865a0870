From Verif Require Import Base SortLib StrLib FrameModel FrameLemmas FisherModel FisherSpec FisherLemmas FsModel FisherFileModel.
Open Scope list_scope.

Section FsLemmas.
  Context {C : Type}.
  Implicit Types s : fs C.
  Definition kept (P : path -> Prop) s s' : Prop := forall q, ~ P q -> lookup s' q = lookup s q.
  Lemma lookup_set_same s p n : lookup (dset sl_eqb s p n) p = Some n.
  Proof. apply dget_dset_same. exact sl_eqb_spec. Qed.
  Lemma lookup_set_other s p q n : q <> p -> lookup (dset sl_eqb s p n) q = lookup s q.
  Proof. intros H. apply dget_dset_other; [exact sl_eqb_spec|congruence]. Qed.
  Lemma lookup_remove_same s p : lookup (remove_path s p) p = None.
  Proof.
    apply (dget_None _ sl_eqb_spec). intros H. apply in_map_iff in H. destruct H as ([q n] & E & H). cbn in E. subst q.
    apply filter_In in H. destruct H as [_ H]. cbn in H. destruct (sl_eqb_spec p p); [discriminate|congruence].
  Qed.
  Lemma lookup_remove_other s p q : q <> p -> lookup (remove_path s p) q = lookup s q.
  Proof.
    intros N. unfold lookup, remove_path. induction s as [|[r n] s IH]; [reflexivity|]. cbn [filter fst dget].
    destruct (sl_eqb_spec r p) as [->|Nr]; cbn [negb dget].
    - destruct (sl_eqb_spec p q); [congruence|exact IH].
    - destruct (sl_eqb r q); [reflexivity|exact IH].
  Qed.
  Lemma removelast_neq (p : path) : p <> [] -> removelast p <> p.
  Proof.
    intros N E. apply (f_equal (@length _)) in E. destruct (exists_last N) as (l & x & ->).
    rewrite removelast_last, app_length in E. cbn in E. lia.
  Qed.
  Lemma isdir_other s s' q p : q <> p -> (forall r, r <> p -> lookup s' r = lookup s r) -> p_isdir s' q = p_isdir s q.
  Proof. intros N H. unfold p_isdir. destruct q; [reflexivity|]. rewrite H by exact N. reflexivity. Qed.
  Lemma write_kept p c s : kept (eq p) s (fst (p_write p c s)).
  Proof.
    intros q N. unfold p_write. destruct (p_isdir s (removelast p)); cbn [negb]; [|reflexivity].
    destruct p as [|x p]; [reflexivity|]. destruct (lookup s (x :: p)) as [[|c']|]; cbn [fst]; try reflexivity; apply lookup_set_other; congruence.
  Qed.
  Lemma unlink_kept p s : kept (eq p) s (fst (p_unlink p s)).
  Proof. intros q N. unfold p_unlink. destruct (lookup s p) as [[|c]|]; cbn [fst]; try reflexivity. apply lookup_remove_other. congruence. Qed.
  Lemma mkdir_kept b p s : kept (eq p) s (fst (p_mkdir b p s)).
  Proof.
    intros q N. unfold p_mkdir. destruct p as [|x p]; [destruct b; reflexivity|].
    destruct (lookup s (x :: p)) as [[|c]|]; [destruct b; reflexivity|reflexivity|].
    destruct (p_isdir s (removelast (x :: p))); [|reflexivity]. apply lookup_set_other. congruence.
  Qed.
  Lemma write_ok p c s : p <> [] -> p_isdir s (removelast p) = true -> lookup s p <> Some NDir ->
    p_write p c s = (dset sl_eqb s p (NFile c), Ok tt).
  Proof.
    intros N D L. unfold p_write. rewrite D. cbn [negb]. destruct p as [|x p]; [congruence|].
    destruct (lookup s (x :: p)) as [[|c']|]; [congruence|reflexivity|reflexivity].
  Qed.
End FsLemmas.

Lemma nth_pos_map {B} (g : string -> B) l a d : In a l -> nth (pos a l) (map g l) d = g a.
Proof.
  intros H. rewrite (nth_indep (map g l) d (g EmptyString)) by (rewrite map_length; exact (pos_lt _ _ H)).
  rewrite map_nth, nth_pos by exact H. reflexivity.
Qed.

Section FileLemmas2.
  Context {F : Type} {K : Fld F} {SO : SetOrder}.
  Implicit Types f g : fisher F.

  Definition op_path (o : wop (F := F)) : path := match o with WUnlink p => p | WCreate p => p | WData p _ _ => p end.
  Lemma run_op_kept (o : wop (F := F)) s : kept (eq (op_path o)) s (fst (run_op o s)).
  Proof.
    destruct o as [p|p|p n v]; cbn [run_op op_path]; [apply unlink_kept|apply write_kept|].
    destruct (p_read s p) as [d|e]; [|intros q _; reflexivity]. destruct (dmem String.eqb d n); [intros q _; reflexivity|apply write_kept].
  Qed.
  Lemma run_ops_kept (l : list (wop (F := F))) p : (forall o, In o l -> op_path o = p) -> forall s, kept (eq p) s (fst (run_ops l s)).
  Proof.
    induction l as [|o l IH]; intros H s q N; [reflexivity|]. cbn [run_ops].
    pose proof (run_op_kept o s q) as R. rewrite (H o (or_introl eq_refl)) in R. specialize (R N).
    destruct (run_op o s) as [s' [x|e]]; cbn [fst] in *; [|exact R]. rewrite IH; [exact R| |exact N]. intros o' Ho. apply H. right; exact Ho.
  Qed.
  Lemma write_ops_path ow sk p f s l : write_ops ow sk p f s = Ok l -> forall o, In o l -> op_path o = p.
  Proof.
    unfold write_ops. intros E o Ho.
    assert (B : In o (WCreate p :: map (fun nv => WData p (fst nv) (snd nv)) (datasets f)) -> op_path o = p).
    { intros [<-|H]; [reflexivity|]. apply in_map_iff in H. destruct H as (nv & <- & _). reflexivity. }
    destruct (p_exists s p); [destruct sk; [injection E as <-; destruct Ho|destruct ow; [|discriminate E]]|]; injection E as <-.
    - destruct Ho as [<-|Ho]; [reflexivity|exact (B Ho)].
    - exact (B Ho).
  Qed.

  (** Writing datasets one after the other. *)
  Lemma run_data p : forall (l : h5 F) (s : fs (h5 F)) (d : h5 F), p <> [] -> p_isdir s (removelast p) = true -> lookup s p = Some (NFile d) ->
    NoDup (map fst (d ++ l)) ->
    exists s', run_ops (map (fun nv => WData p (fst nv) (snd nv)) l) s = (s', Ok tt) /\
      lookup s' p = Some (NFile (d ++ l : h5 F)) /\ kept (eq p) s s'.
  Proof.
    induction l as [|[n v] l IH]; intros s d Np Dp L ND.
    - exists s. split; [reflexivity|]. rewrite app_nil_r. split; [exact L|]. intros q _. reflexivity.
    - cbn [map run_ops run_op fst snd]. unfold p_read. rewrite L.
      assert (M : dmem String.eqb d n = false).
      { unfold dmem. destruct (dget String.eqb d n) as [x|] eqn:E; [|reflexivity]. exfalso.
        apply (dget_In _ String.eqb_spec) in E. rewrite map_app in ND. cbn [map fst] in ND. apply NoDup_remove_2 in ND. apply ND. apply in_or_app. left.
        apply (in_map fst) in E. exact E. }
      rewrite M, write_ok; [|exact Np|exact Dp|intros Ab; pose proof (eq_trans (eq_sym L) Ab) as Ac; discriminate Ac].
      destruct (IH (dset sl_eqb s p (NFile (d ++ [(n, v)] : h5 F))) (d ++ [(n, v)])) as (s' & E & L' & K').
      + exact Np.
      + rewrite <- Dp. apply (isdir_other _ _ _ p); [apply removelast_neq; exact Np|]. intros r Nr. apply lookup_set_other. exact Nr.
      + apply lookup_set_same.
      + rewrite <- app_assoc. exact ND.
      + exists s'. split; [exact E|]. rewrite <- app_assoc in L'. split; [exact L'|]. intros q Nq. rewrite K' by exact Nq. apply lookup_set_other. congruence.
  Qed.
  Lemma datasets_names f : NoDup (map fst (datasets f)).
  Proof.
    unfold datasets. destruct (fnuis f); cbn; repeat constructor; cbn; intros H; repeat (destruct H as [H|H]; [discriminate H|]); exact H.
  Qed.
  Lemma create_data p (s : fs (h5 F)) (l : h5 F) : p <> [] -> p_isdir s (removelast p) = true -> lookup s p = None -> NoDup (map fst l) ->
    exists s', run_ops (WCreate p :: map (fun nv => WData p (fst nv) (snd nv)) l) s = (s', Ok tt) /\
      lookup s' p = Some (NFile l) /\ kept (eq p) s s'.
  Proof.
    intros Np Dp L ND. cbn [run_ops run_op]. rewrite write_ok by (try assumption; congruence).
    destruct (run_data p l (dset sl_eqb s p (NFile ([] : h5 F))) []) as (s' & E & L' & K').
    - exact Np.
    - rewrite <- Dp. apply (isdir_other _ _ _ p); [apply removelast_neq; exact Np|]. intros r Nr. apply lookup_set_other. exact Nr.
    - apply lookup_set_same.
    - exact ND.
    - exists s'. split; [exact E|]. split; [exact L'|]. intros q Nq. rewrite K' by exact Nq. apply lookup_set_other. congruence.
  Qed.
  (** The four cases of writeToFile. *)
  Lemma write_new ow sk f (s : fs (h5 F)) p : p <> [] -> p_isdir s (removelast p) = true -> lookup s p = None ->
    exists s' l, write_ops ow sk p f s = Ok l /\ run_ops l s = (s', Ok tt) /\ lookup s' p = Some (NFile (datasets f : h5 F)) /\ kept (eq p) s s'.
  Proof.
    intros Np Dp L. destruct (create_data p s (datasets f) Np Dp L (datasets_names f)) as (s' & E & L' & K').
    exists s'. eexists. split; [unfold write_ops, p_exists; rewrite L; reflexivity|]. auto.
  Qed.
  Lemma write_over f (s : fs (h5 F)) p c : p <> [] -> p_isdir s (removelast p) = true -> lookup s p = Some (NFile c) ->
    exists s' l, write_ops true false p f s = Ok l /\ run_ops l s = (s', Ok tt) /\ lookup s' p = Some (NFile (datasets f : h5 F)) /\ kept (eq p) s s'.
  Proof.
    intros Np Dp L.
    destruct (create_data p (remove_path s p) (datasets f) Np) as (s' & E & L' & K').
    - rewrite <- Dp. apply (isdir_other _ _ _ p); [apply removelast_neq; exact Np|]. intros r Nr. apply lookup_remove_other. exact Nr.
    - apply lookup_remove_same.
    - apply datasets_names.
    - exists s'. eexists. split; [unfold write_ops, p_exists; rewrite L; reflexivity|]. split.
      + cbn [run_ops run_op]. unfold p_unlink. rewrite L. exact E.
      + split; [exact L'|]. intros q Nq. rewrite K' by exact Nq. apply lookup_remove_other. congruence.
  Qed.

  (** Loading. *)
  Definition load_of (v : h5ver) (d : h5 F) : res (fisher F) :=
    n <- rbind (h5_get d "name") as_text ;;
    nuis <- match h5_get d "nuisance_pars" with Err EKeyError => Ok [] | Err e => Err e | Ok x => as_texts x end ;;
    cosmo <- rbind (h5_get d "cosmological_pars") as_texts ;;
    ind <- rbind (h5_get d "indices") as_texts ;;
    rows <- rbind (h5_get d "fisher_matrix") as_matrix ;;
    m <- matrix_of (map (h5_text v) ind) rows ;;
    Ok (new_fisher m (h5_text v n) (map (h5_text v) cosmo) (map (h5_text v) nuis) true).
  Lemma load_unfold v p s d : lookup s p = Some (NFile d) -> fisher_load v p s = load_of v d.
  Proof. intros L. unfold fisher_load, p_read. rewrite L. reflexivity. Qed.
  Lemma map_text2 l : map (h5_text H2) l = l.
  Proof. induction l as [|x l IH]; cbn; [reflexivity|rewrite IH; reflexivity]. Qed.
  Lemma matrix_cells f : cx (fmat f) = labels f ->
    matrix_of (labels f) (cells f) = Ok (mkF (labels f) (labels f) (fun a b => nth (pos b (labels f)) (nth (pos a (labels f)) (cells f) []) None)).
  Proof.
    intros E. unfold matrix_of. assert (L1 : length (cells f) = length (labels f)) by (unfold cells; apply map_length).
    assert (L2 : forallb (fun r => Nat.eqb (length r) (length (labels f))) (cells f) = true).
    { apply forallb_forall. intros r Hr. apply in_map_iff in Hr. destruct Hr as (a & <- & _). rewrite map_length, E. apply Nat.eqb_refl. }
    rewrite L1, Nat.eqb_refl, L2. reflexivity.
  Qed.
  Lemma cells_at f a b : cx (fmat f) = labels f -> In a (labels f) -> In b (labels f) ->
    nth (pos b (labels f)) (nth (pos a (labels f)) (cells f) []) None = ce (fmat f) a b.
  Proof.
    intros E Ha Hb. unfold cells. unfold labels in *. rewrite (nth_pos_map (fun a => map (fun b => ce (fmat f) a b) (cx (fmat f)))) by exact Ha.
    rewrite E. rewrite (nth_pos_map (fun b => ce (fmat f) a b)) by exact Hb. reflexivity.
  Qed.
  (** What loading gives back, [nuis] being the nuisance dataset found. *)
  Definition loaded f (nuis : list string) g : Prop :=
    fname g = fname f /\ labels g = labels f /\ cx (fmat g) = labels f /\
    (forall a b, In a (labels f) -> In b (labels f) -> ce (fmat g) a b = ce (fmat f) a b) /\
    (forall x, In x (fcosmo g) <-> In x (fcosmo f)) /\ (forall x, In x (fnuis g) <-> In x nuis) /\
    NoDup (fcosmo g) /\ NoDup (fnuis g) /\ finverse g = None /\ fcorr g = None /\ fmflag g = true.
  Lemma load_gen f (nuis : list string) (tl : list (string * dval F)) : cx (fmat f) = labels f ->
    tl = match nuis with [] => [] | _ => [("nuisance_pars"%string, DTexts nuis)] end ->
    exists g, load_of H2 ([("name"%string, DText (fname f)); ("indices"%string, DTexts (ix (fmat f)));
     ("fisher_matrix"%string, DMatrix (cells f)); ("cosmological_pars"%string, DTexts (fcosmo f))] ++ tl) = Ok g /\ loaded f nuis g.
  Proof.
    intros E ->. exists (new_fisher (mkF (labels f) (labels f) (fun a b => nth (pos b (labels f)) (nth (pos a (labels f)) (cells f) []) None))
      (fname f) (fcosmo f) nuis true). split.
    - unfold load_of. destruct nuis as [|x nuis]; cbn [h5_get dget app String.eqb Ascii.eqb Bool.eqb rbind as_text as_texts as_matrix]; rewrite !map_text2;
        change (ix (fmat f)) with (labels f); rewrite matrix_cells by exact E; reflexivity.
    - unfold loaded, new_fisher, labels; cbn [fname fmat ix cx ce fcosmo fnuis finverse fcorr fmflag h5_text].
      split; [reflexivity|]. split; [reflexivity|]. split; [reflexivity|]. split.
      + intros a b Ha Hb. exact (cells_at f a b E Ha Hb).
      + split; [intros x; apply set_of_In|]. split; [intros x; apply set_of_In|].
        split; [apply set_of_NoDup|]. split; [apply set_of_NoDup|]. auto.
  Qed.
  Lemma load_datasets f : wf f -> exists g, load_of H2 (datasets f) = Ok g /\ loaded f (fnuis f) g.
  Proof. intros (W & _). apply (load_gen f (fnuis f)); [exact (proj1 (proj2 W))|reflexivity]. Qed.
  Lemma loaded_same f g : wf f -> loaded f (fnuis f) g -> wf g /\ same g f.
  Proof.
    intros (W & N1 & N2 & H) (L1 & L2 & L3 & L4 & L5 & L6 & L7 & L8 & _). destruct W as (W1 & W2 & W3).
    assert (S : same g f).
    { unfold same. rewrite L2. split; [reflexivity|]. split; [|split; assumption]. intros a b Ha Hb. unfold fval, fv. rewrite L4 by assumption. reflexivity. }
    split; [|exact S]. unfold wf. split.
    - unfold frame_ok. change (ix (fmat g)) with (labels g). rewrite L2. split; [exact W1|]. split; [exact L3|].
      intros a b Ha Hb. rewrite L4 by assumption. exact (W3 a b Ha Hb).
    - split; [exact L7|]. split; [exact L8|]. intros x. rewrite L2, L5, L6. exact (H x).
  Qed.
  (** Files cut short: after j datasets. *)
  Lemma load_cut v f j : (j < 4)%nat -> load_of v (firstn j (datasets f)) = Err EKeyError.
  Proof.
    intros H. unfold load_of, datasets. destruct j as [|[|[|[|j]]]]; [..|lia]; cbn [firstn app h5_get dget]; cbn; reflexivity.
  Qed.
  Lemma load_cut4 f : wf f -> exists g, load_of H2 (firstn 4 (datasets f)) = Ok g /\ loaded f [] g.
  Proof.
    intros (W & _). destruct (load_gen f [] [] (proj1 (proj2 W)) eq_refl) as (g & E & L). exists g. split; [|exact L].
    unfold datasets. destruct (fnuis f); cbn [app firstn] in *; exact E.
  Qed.
End FileLemmas2.
