(** Lemmas for OutModel: directories, files written and kept. *)
From Verif Require Import Base SortLib StrLib FrameModel FrameLemmas FisherModel FisherSpec FisherLemmas FsModel FisherFileModel FileLemmas2 TableModel NameModel
  HeapModel ResultsModel HeapLemmas OutModel.
Open Scope list_scope.

Lemma removelast_last_eq (p : path) : p <> [] -> p = removelast p ++ [last p ""%string].
Proof. intros N. apply app_removelast_last. exact N. Qed.

Section Disk.
  Context {F : Type} {K : Fld F} {SO : SetOrder}.
  Implicit Types s : fs (h5 F).

  Lemma lookup_key s (p : path) : lookup s p <> None <-> In p (map fst s).
  Proof.
    unfold lookup. induction s as [|[q x] s IH]; cbn; [split; [congruence|intros []]|].
    destruct (sl_eqb_spec q p) as [->|N]; [split; [auto|discriminate]|]. rewrite IH. split; [auto|intros [E|H]; [congruence|exact H]].
  Qed.
  Lemma entries_In d s n : In n (entries d s) <-> lookup s (d ++ [n]) <> None.
  Proof.
    rewrite lookup_key. unfold entries. rewrite in_flat_map, in_map_iff. split.
    - intros ([p x] & H & Hn). exists (p, x). split; [|exact H]. cbn [fst] in *. destruct p as [|a p]; [destruct Hn|].
      destruct (sl_eqb_spec (removelast (a :: p)) d) as [E|N]; [|destruct Hn]. destruct Hn as [<-|[]]. rewrite <- E. apply removelast_last_eq. discriminate.
    - intros ([p x] & E & H). cbn in E. subst p. exists (d ++ [n], x). split; [exact H|]. cbn [fst].
      destruct (d ++ [n]) as [|a p] eqn:Ed; [destruct d; discriminate|]. rewrite <- Ed, removelast_last.
      destruct (sl_eqb_spec d d) as [_|N]; [|congruence]. rewrite last_last. left; reflexivity.
  Qed.
  Lemma files_In d s n : In n (fisher_files d s) <-> p_isdir s d = true /\ is_fisher_file n = true /\ p_exists s (d ++ [n]) = true.
  Proof.
    unfold fisher_files, p_exists. destruct (p_isdir s d); [|split; [intros []|intros (C & _); discriminate C]].
    rewrite set_of_In, filter_In, entries_In. destruct (lookup s (d ++ [n])); split; intuition congruence.
  Qed.
  Lemma files_NoDup d s : NoDup (fisher_files d s).
  Proof. unfold fisher_files. destruct (p_isdir s d); [apply set_of_NoDup|constructor]. Qed.

  (** ** Which paths an operation may change *)
  Definition prefix (q p : path) : Prop := exists r, p = q ++ r.
  (** Directories are only added. *)
  Definition adds (P : path -> Prop) s s' : Prop :=
    forall q, lookup s' q = lookup s q \/ (P q /\ lookup s q = None /\ lookup s' q = Some NDir).
  Lemma adds_refl P s : adds P s s.
  Proof. intros q. left; reflexivity. Qed.
  Lemma adds_trans (P Q R : path -> Prop) s1 s2 s3 : (forall q, P q -> R q) -> (forall q, Q q -> R q) -> adds P s1 s2 -> adds Q s2 s3 -> adds R s1 s3.
  Proof.
    intros HP HQ A B q. destruct (A q) as [E|(p & N & D)], (B q) as [E'|(p' & N' & D')]; [left; congruence| | |].
    - right. split; [auto|]. split; congruence.
    - right. split; [auto|]. split; congruence.
    - congruence.
  Qed.
  Lemma mkdir_adds p s : adds (eq p) s (fst (p_mkdir true p s)).
  Proof.
    intros q. unfold p_mkdir. destruct p as [|x p]; [left; reflexivity|]. destruct (lookup s (x :: p)) as [[|c]|] eqn:L; [left; reflexivity|left; reflexivity|].
    destruct (p_isdir s (removelast (x :: p))); [|left; reflexivity]. cbn [fst].
    destruct (list_eq_dec string_dec q (x :: p)) as [->|N]; [right; rewrite lookup_set_same; auto|left; apply lookup_set_other; exact N].
  Qed.
  Lemma mkdir_isdir p s : snd (p_mkdir true p s) = Ok tt -> p_isdir (fst (p_mkdir true p s)) p = true.
  Proof.
    unfold p_mkdir. destruct p as [|x p]; [reflexivity|]. destruct (lookup s (x :: p)) as [[|c]|] eqn:L; [|discriminate|].
    - intros _. cbn [fst]. unfold p_isdir. rewrite L. reflexivity.
    - destruct (p_isdir s (removelast (x :: p))); [|discriminate]. intros _. cbn [fst]. unfold p_isdir. rewrite lookup_set_same. reflexivity.
  Qed.
  Lemma mkdirs_adds rp : forall s, adds (fun q => prefix q (rev rp)) s (fst (mkdirs_rev rp s)).
  Proof.
    induction rp as [|x rp IH]; intros s; [apply adds_refl|]. cbn [mkdirs_rev].
    pose proof (mkdir_adds (rev (x :: rp)) s) as A. destruct (p_mkdir true (rev (x :: rp)) s) as [s1 r1] eqn:E1. cbn [fst] in A.
    assert (P0 : forall q : path, rev (x :: rp) = q -> prefix q (rev (x :: rp))) by (intros q <-; exists []; rewrite app_nil_r; reflexivity).
    assert (A1 : adds (fun q => prefix q (rev (x :: rp))) s s1) by (eapply (adds_trans _ (fun _ => False)); [exact P0|intros ? []|exact A|apply adds_refl]).
    assert (P1 : forall q, prefix q (rev rp) -> prefix q (rev (x :: rp))) by (intros q (r & E); exists (r ++ [x]); cbn [rev]; rewrite E, app_assoc; reflexivity).
    destruct r1 as [u|e]; [exact A1|]. destruct e; try exact A1.
    specialize (IH s1). destruct (mkdirs_rev rp s1) as [s2 [u|e]] eqn:E2; cbn [fst] in *.
    - pose proof (mkdir_adds (rev (x :: rp)) s2) as A3. destruct (p_mkdir true (rev (x :: rp)) s2) as [s3 r3]. cbn [fst] in *.
      eapply adds_trans; [| |exact A1|eapply adds_trans; [| |exact IH|exact A3]]; cbv beta; [auto| |exact P1|exact P0]. auto.
    - eapply adds_trans; [| |exact A1|exact IH]; cbv beta; auto.
  Qed.
  Lemma mkdirs_isdir rp : forall s, snd (mkdirs_rev rp s) = Ok tt -> p_isdir (fst (mkdirs_rev rp s)) (rev rp) = true.
  Proof.
    destruct rp as [|x rp]; intros s E; [reflexivity|]. cbn [mkdirs_rev] in *.
    pose proof (mkdir_isdir (rev (x :: rp)) s) as D. destruct (p_mkdir true (rev (x :: rp)) s) as [s1 [[]|e]]; [apply D; reflexivity|].
    destruct e; try discriminate E. destruct (mkdirs_rev rp s1) as [s2 [[]|e]]; [|discriminate E].
    pose proof (mkdir_isdir (rev (x :: rp)) s2) as D2. destruct (p_mkdir true (rev (x :: rp)) s2) as [s3 [[]|e]]; [apply D2; reflexivity|discriminate E].
  Qed.

  (** ** Writing one matrix *)
  Lemma fisher_write_inv outdir ow (f : fisher F) s s' : fisher_write (Some outdir) None ow false f s = (s', Ok tt) ->
    let p := outdir ++ [fisher_filename (fname f)] in
    lookup s' p = Some (NFile (datasets f : h5 F)) /\ kept (eq p) s s' /\ (ow = false -> lookup s p = None).
  Proof.
    unfold fisher_write. cbn [out_path]. set (p := outdir ++ [fisher_filename (fname f)]). assert (Np : p <> []) by (unfold p; destruct outdir; discriminate).
    intros E. destruct (write_ops ow false p f s) as [l|e] eqn:El; [|discriminate E].
    assert (Dp : p_isdir s (removelast p) = true).
    { unfold write_ops in El. unfold p_exists in El. destruct (lookup s p) as [c|] eqn:L.
      - destruct ow; [|discriminate El]. injection El as <-. cbn [run_ops run_op] in E. unfold p_unlink in E. rewrite L in E. destruct c as [|c]; [discriminate E|].
        unfold p_write in E. destruct (p_isdir (remove_path s p) (removelast p)) eqn:D; [|discriminate E]. rewrite <- D. symmetry.
        apply (isdir_other _ _ _ p); [apply removelast_neq; exact Np|]. intros r Nr. apply lookup_remove_other. exact Nr.
      - injection El as <-. cbn [run_ops run_op] in E. unfold p_write in E. destruct (p_isdir s (removelast p)); [reflexivity|discriminate E]. }
    destruct (lookup s p) as [[|c]|] eqn:L.
    - exfalso. unfold write_ops, p_exists in El. rewrite L in El. destruct ow; [|discriminate El]. injection El as <-. cbn [run_ops run_op] in E. unfold p_unlink in E. rewrite L in E. discriminate E.
    - destruct ow; [|unfold write_ops, p_exists in El; rewrite L in El; discriminate El].
      destruct (write_over f s p c Np Dp L) as (s2 & l2 & E1 & E2 & L2 & K2). rewrite El in E1. injection E1 as <-. rewrite E in E2. injection E2 as <-.
      split; [exact L2|]. split; [exact K2|discriminate].
    - destruct (write_new ow false f s p Np Dp L) as (s2 & l2 & E1 & E2 & L2 & K2). rewrite El in E1. injection E1 as <-. rewrite E in E2. injection E2 as <-. auto.
  Qed.
  Lemma fisher_write_kept outdir ow (f : fisher F) s : kept (eq (outdir ++ [fisher_filename (fname f)])) s (fst (fisher_write (Some outdir) None ow false f s)).
  Proof.
    unfold fisher_write. cbn [out_path]. destruct (write_ops _ _ _ _ _) as [l|e] eqn:E; [|intros q _; reflexivity].
    apply run_ops_kept. exact (write_ops_path _ _ _ _ _ _ E).
  Qed.
  Lemma fisher_write_exists outdir (f : fisher F) s : lookup s (outdir ++ [fisher_filename (fname f)]) <> None ->
    fisher_write (Some outdir) None false false f s = (s, Err EFileExists).
  Proof.
    intros L. unfold fisher_write, out_path, write_ops, p_exists. destruct (lookup s (outdir ++ [fisher_filename (fname f)])); [reflexivity|congruence].
  Qed.
End Disk.

(** ** Tables *)
Section Tables.
  Context {C D : Type} (csv xlsx : D -> C).
  Lemma table_kept (t : D) p ow s : kept (eq p) s (fst (write_table csv xlsx t p ow s)) /\
    (ow = false -> lookup s p <> None -> fst (write_table csv xlsx t p ow s) = s).
  Proof.
    unfold write_table. split.
    - destruct (negb _ || _); [|intros q _; reflexivity]. destruct (String.eqb _ ".csv"); [apply write_kept|]. destruct (String.eqb _ ".xlsx"); [apply write_kept|intros q _; reflexivity].
    - intros -> L. unfold p_exists. destruct (lookup s p); [|congruence]. rewrite Bool.orb_true_r. reflexivity.
  Qed.
  Lemma table_inv (t : D) p ow s s' : write_table csv xlsx t p ow s = (s', Ok tt) -> p <> [] ->
    let c := if String.eqb (suffix (last p ""%string)) ".csv" then csv t else xlsx t in
    (ow = true \/ lookup s p = None -> lookup s' p = Some (NFile c)) /\ (ow = false -> lookup s p <> None -> s' = s).
  Proof.
    intros E Np. split.
    - intros H. unfold write_table in E.
      assert (X : negb (p_isdir s p || p_exists s p) || (p_isdir s p || p_exists s p) && ow = true).
      { destruct H as [->|L]; [destruct (p_isdir s p || p_exists s p); reflexivity|]. unfold p_isdir, p_exists. rewrite L. destruct p; [congruence|reflexivity]. }
      rewrite X in E. clear X.
      assert (Pw : forall c, p_write p c s = (s', Ok tt) -> lookup s' p = Some (NFile c)).
      { intros c Ec. unfold p_write in Ec. destruct (negb _); [discriminate Ec|]. destruct p as [|x p]; [congruence|].
        destruct (lookup s (x :: p)) as [[|c']|]; [discriminate Ec| |]; injection Ec as <-; apply lookup_set_same. }
      destruct (String.eqb _ ".csv"); [apply Pw; exact E|]. destruct (String.eqb _ ".xlsx"); [apply Pw; exact E|discriminate E].
    - intros Ho L. pose proof (proj2 (table_kept t p ow s) Ho L) as X. rewrite E in X. exact X.
  Qed.
End Tables.
