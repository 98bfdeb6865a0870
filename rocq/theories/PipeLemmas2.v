From Verif Require Import Base SortLib StrLib FrameModel FrameLemmas FisherModel FsModel FisherFileModel KeyModel FileLemmas2 PipeModel PipeLemmas.
Open Scope list_scope.

Lemma store_parent rd : removelast (store_file rd) = rd.
Proof. apply removelast_last. Qed.
Lemma fisher_parent rd b : removelast (fisher_file rd b) = base_dir rd.
Proof. apply removelast_last. Qed.
Lemma ist_parent rd : removelast (ist_file rd) = base_dir rd.
Proof. apply removelast_last. Qed.
Lemma base_file_store rd x : base_dir rd ++ [x] <> store_file rd.
Proof. intros E. apply (f_equal (@length _)) in E. unfold base_dir, store_file in E. rewrite !app_length in E. cbn in E. lia. Qed.
Lemma base_file_base rd x : base_dir rd ++ [x] <> base_dir rd.
Proof. intros E. apply (f_equal (@length _)) in E. rewrite app_length in E. cbn in E. lia. Qed.
Lemma base_store rd : base_dir rd <> store_file rd.
Proof. unfold base_dir, store_file. intros E. apply app_inv_head in E. discriminate E. Qed.
Lemma store_rd rd : store_file rd <> rd.
Proof. intros E. apply (f_equal (@length _)) in E. unfold store_file in E. rewrite app_length in E. cbn in E. lia. Qed.
Lemma store_nonempty rd : store_file rd <> [].
Proof. unfold store_file. destruct rd; discriminate. Qed.
Lemma base_file_nonempty rd x : base_dir rd ++ [x] <> [].
Proof. destruct (base_dir rd); discriminate. Qed.
Lemma str_suffix_inj (a b c : string) : (a ++ c = b ++ c)%string -> a = b.
Proof.
  revert b. induction a as [|x a IH]; intros [|y b] E; [reflexivity| | |].
  - exfalso. apply (f_equal String.length) in E. cbn in E. rewrite slen_app in E. lia.
  - exfalso. apply (f_equal String.length) in E. cbn in E. rewrite slen_app in E. lia.
  - injection E as -> E. f_equal. apply IH, E.
Qed.
Lemma fisher_file_inj rd b b' : fisher_file rd b = fisher_file rd b' -> b = b'.
Proof.
  unfold fisher_file. intros E. apply app_inv_head in E. injection E as E. exact (str_suffix_inj _ _ _ E).
Qed.
Lemma fisher_not_ist rd b dv : dv_from_brief b = Ok dv -> fisher_file rd b <> ist_file rd.
Proof.
  intros H E. assert (b = "IST_gcsp_pk"%string) as ->.
  { change (ist_file rd) with (fisher_file rd "IST_gcsp_pk") in E. exact (fisher_file_inj _ _ _ E). }
  vm_compute in H. discriminate H.
Qed.

Section Writing.
  Context {F : Type} {K : Fld F} {SO : SetOrder}.
  Variable rd : path.
  Notation step := (pstep (F := F) rd).
  Implicit Types s : fs (h5 F).

  Definition data_prog (p : path) (l : h5 F) : prog (fs (h5 F)) pop unit :=
    fold_right (fun o k => Do (PFish o) k) (Done (Ok tt)) (map (fun nv => WData p (fst nv) (snd nv)) l).
  Lemma data_crash p : p <> [] -> forall (l : h5 F) (d : h5 F) s, lookup s p = Some (NFile d) -> p_isdir s (removelast p) = true -> NoDup (map fst (d ++ l)) ->
    exists s1, exec step (data_prog p l) s = (s1, Ok tt) /\ lookup s1 p = Some (NFile (d ++ l)) /\
      forall n, exists c rest, d ++ l = c ++ rest /\ lookup (crash step (data_prog p l) n s) p = Some (NFile c) /\ (rest = [] -> crash step (data_prog p l) n s = s1).
  Proof.
    intros Np. induction l as [|[n v] l IH]; intros d s L D ND.
    - exists s. rewrite app_nil_r. split; [reflexivity|]. split; [exact L|]. intros n. exists d, []. rewrite app_nil_r. split; [reflexivity|]. split; [exact L|reflexivity].
    - assert (M : dmem String.eqb d n = false).
      { apply mem_false. unfold dkeys. rewrite map_app in ND. cbn in ND. apply NoDup_remove_2 in ND. intros H. apply ND, in_or_app. left. exact H. }
      set (s' := dset sl_eqb s p (NFile (d ++ [(n, v)]))).
      assert (E : step (PFish (WData p n v)) s = (s', Ok tt)).
      { cbn [pstep run_op]. unfold p_read. rewrite L, M. apply write_ok; [exact Np|exact D|congruence]. }
      assert (L' : lookup s' p = Some (NFile (d ++ [(n, v)]))) by apply lookup_set_same.
      assert (D' : p_isdir s' (removelast p) = true).
      { rewrite <- D. apply isdir_other with p; [apply removelast_neq, Np|]. intros r Nr. apply lookup_set_other. exact Nr. }
      destruct (IH (d ++ [(n, v)]) s' L' D') as (s1 & X & L1 & H); [rewrite <- app_assoc; exact ND|].
      exists s1. rewrite <- app_assoc in L1, H. split; [|split; [exact L1|]].
      + cbn [data_prog map fold_right fst snd exec]. rewrite E. exact X.
      + intros [|n'].
        * exists d, ((n, v) :: l). split; [reflexivity|]. split; [exact L|discriminate].
        * unfold crash. cbn [data_prog map fold_right fst snd run]. rewrite E. exact (H n').
  Qed.
  Lemma write_crash p f s s1 : p <> [] -> exec step (write_fisher p f) s = (s1, Ok tt) ->
    lookup s p = None /\ lookup s1 p = Some (NFile (datasets f)) /\
    forall n, crash step (write_fisher p f) n s = s \/
      exists c rest, datasets f = c ++ rest /\ lookup (crash step (write_fisher p f) n s) p = Some (NFile c) /\ (rest = [] -> crash step (write_fisher p f) n s = s1).
  Proof.
    intros Np. unfold write_fisher, crash. cbn [exec run]. unfold write_ops, p_exists.
    destruct (lookup s p) as [x|] eqn:L; [discriminate|]. cbn [fold_right map exec run]. intros X.
    destruct (p_isdir s (removelast p)) eqn:D.
    2:{ exfalso. cbn [pstep run_op] in X. unfold p_write in X. rewrite D in X. cbn in X. discriminate X. }
    assert (E : step (PFish (WCreate p)) s = (dset sl_eqb s p (NFile []), Ok tt)).
    { cbn [pstep run_op]. apply write_ok; [exact Np|exact D|congruence]. }
    rewrite E in X. set (s' := dset sl_eqb s p (NFile ([] : h5 F))) in *.
    assert (D' : p_isdir s' (removelast p) = true).
    { rewrite <- D. apply isdir_other with p; [apply removelast_neq, Np|]. intros r Nr. apply lookup_set_other. exact Nr. }
    destruct (data_crash p Np (datasets f) [] s') as (s2 & X2 & L2 & H); [apply lookup_set_same|exact D'|apply datasets_names|].
    assert (s2 = s1) as -> by (pose proof (eq_trans (eq_sym X2) X) as Q; injection Q; auto).
    split; [reflexivity|]. split; [exact L2|]. intros [|n]; [left; reflexivity|]. right. rewrite E. exact (H n).
  Qed.

  (** *** The store *)
  Lemma put_crash k v s s1 : exec step (store_put rd k v) s = (s1, Ok tt) -> forall n,
    exec step (store_put rd k v) (crash step (store_put rd k v) n s) = (s1, Ok tt) /\
    forall n', exists n'', crash step (store_put rd k v) n' (crash step (store_put rd k v) n s) = crash step (store_put rd k v) n'' s.
  Proof.
    set (p := store_file rd). set (inc := DText "incomplete" : dval F).
    set (X := fun d => dset sl_eqb s p (NFile (d : h5 F))).
    intros E0.
    assert (ND : lookup s p <> Some NDir).
    { intros L. unfold store_put in E0. cbn [exec] in E0. unfold p_read in E0. fold p in E0. rewrite L in E0. cbn [exec pstep] in E0.
      unfold p_write in E0. fold p in E0. destruct (p_isdir s (removelast p)); cbn [negb] in E0; [|discriminate E0].
      clearbody p. destruct p as [|x p']; [discriminate E0|]. rewrite L in E0. discriminate E0. }
    assert (Np : p <> []) by apply store_nonempty.
    assert (Pp : removelast p <> p) by (apply removelast_neq, Np).
    assert (D : p_isdir s (removelast p) = true).
    { destruct (p_isdir s (removelast p)) eqn:D; [reflexivity|]. exfalso. unfold store_put in E0. cbn [exec] in E0.
      assert (W : forall c, p_write p c s = (s, Err EOSError)) by (intros c; unfold p_write; rewrite D; reflexivity).
      unfold p_read in E0. fold p in E0. destruct (lookup s p) as [[|d]|] eqn:L; [congruence| |].
      - destruct (dmem String.eqb d k); cbn [exec pstep] in E0; unfold upd_store, p_read in E0; fold p in E0; rewrite L, W in E0; discriminate E0.
      - cbn [exec pstep] in E0. fold p in E0. rewrite W in E0. discriminate E0. }
    assert (LX : forall d, lookup (X d) p = Some (NFile d)) by (intros d; apply lookup_set_same).
    assert (RX : forall d, p_read (X d) p = Ok d) by (intros d; unfold p_read; rewrite LX; reflexivity).
    assert (DX : forall d, p_isdir (X d) (removelast p) = true).
    { intros d. rewrite <- D. apply isdir_other with p; [exact Pp|]. intros r Nr. apply lookup_set_other. exact Nr. }
    assert (WX : forall d c, p_write p c (X d) = (X c, Ok tt)).
    { intros d c. rewrite write_ok; [unfold X; rewrite (dset_twice _ sl_eqb_spec); reflexivity|exact Np|apply DX|rewrite LX; discriminate]. }
    assert (WS : forall c, p_write p c s = (X c, Ok tt)) by (intros c; apply write_ok; assumption).
    assert (UX : forall g d, upd_store rd g (X d) = (X (g d), Ok tt)).
    { intros g d. unfold upd_store. fold p. rewrite RX. apply WX. }
    (* the programs from the states with the store [d0], [ins w d0] *)
    set (tail := fun s' n => run step (Do (PStoreBegin k) (Do (PStorePut k v) (Done (Ok tt)))) n s').
    assert (T : forall d0, ~ In k (dkeys d0) -> forall n, tail (X d0) n = match n with 0 => (X d0, None) | 1 => (X (store_ins k inc d0), None) | _ => (X (store_ins k v d0), Some (Ok tt)) end).
    { intros d0 N n. unfold tail. destruct n as [|[|n]]; cbn [run pstep]; [reflexivity| |]; rewrite UX; fold inc; [reflexivity|].
      rewrite UX. rewrite set_ins by exact N. reflexivity. }
    assert (XT : forall d0, ~ In k (dkeys d0) -> exec step (Do (PStoreBegin k) (Do (PStorePut k v) (Done (Ok tt)))) (X d0) = (X (store_ins k v d0), Ok tt)).
    { intros d0 N. cbn [exec pstep]. rewrite UX, UX, set_ins by exact N. reflexivity. }
    assert (P0 : forall d0, ~ In k (dkeys d0) -> forall n, run step (store_put rd k v) n (X d0) = tail (X d0) n).
    { intros d0 N n. unfold store_put. cbn [run]. fold p. rewrite RX. rewrite (proj2 (mem_false k d0) N). reflexivity. }
    assert (X0 : forall d0, ~ In k (dkeys d0) -> exec step (store_put rd k v) (X d0) = (X (store_ins k v d0), Ok tt)).
    { intros d0 N. unfold store_put. cbn [exec]. fold p. rewrite RX. rewrite (proj2 (mem_false k d0) N). exact (XT d0 N). }
    assert (P1 : forall w d0, ~ In k (dkeys d0) -> forall n, run step (store_put rd k v) (S n) (X (store_ins k w d0)) = tail (X d0) n).
    { intros w d0 N n. unfold store_put. cbn [run]. fold p. rewrite RX, mem_ins. cbn [run pstep]. rewrite UX, del_ins by exact N. reflexivity. }
    assert (X1 : forall w d0, ~ In k (dkeys d0) -> exec step (store_put rd k v) (X (store_ins k w d0)) = (X (store_ins k v d0), Ok tt)).
    { intros w d0 N. unfold store_put. cbn [exec]. fold p. rewrite RX, mem_ins. cbn [exec pstep]. rewrite UX, del_ins by exact N. exact (XT d0 N). }
    (* once the states of the run from [s] are known *)
    assert (FIN : forall d0, ~ In k (dkeys d0) ->
      (exists j, crash step (store_put rd k v) j s = X d0) ->
      (exists j, crash step (store_put rd k v) j s = X (store_ins k inc d0)) ->
      (exists j, crash step (store_put rd k v) j s = X (store_ins k v d0)) ->
      (forall j, crash step (store_put rd k v) j s = s \/ exists i, crash step (store_put rd k v) j s = fst (tail (X d0) i)) ->
      exec step (store_put rd k v) s = (X (store_ins k v d0), Ok tt) ->
      forall n, exec step (store_put rd k v) (crash step (store_put rd k v) n s) = (s1, Ok tt) /\
        forall n', exists n'', crash step (store_put rd k v) n' (crash step (store_put rd k v) n s) = crash step (store_put rd k v) n'' s).
    { intros d0 N (j0 & J0) (j1 & J1) (j2 & J2) St EX n.
      assert (S1 : s1 = X (store_ins k v d0)) by congruence.
      assert (TT : forall i, exists j, crash step (store_put rd k v) j s = fst (tail (X d0) i)).
      { intros i. rewrite T by exact N. destruct i as [|[|i]]; cbn [fst]; eauto. }
      destruct (St n) as [->|(i & ->)].
      - split; [exact E0|]. intros n'. exists n'. reflexivity.
      - rewrite T by exact N. destruct i as [|[|i]]; cbn [fst]; rewrite S1.
        + split; [apply X0, N|]. intros n'. destruct (TT n') as (j & J). exists j. rewrite J. unfold crash at 1. rewrite P0 by exact N. reflexivity.
        + split; [apply X1, N|]. intros [|n']; [exists j1; rewrite crash_0; auto|]. destruct (TT n') as (j & J). exists j. rewrite J. unfold crash at 1. rewrite P1 by exact N. reflexivity.
        + split; [apply X1, N|]. intros [|n']; [exists j2; rewrite crash_0; auto|]. destruct (TT n') as (j & J). exists j. rewrite J. unfold crash at 1. rewrite P1 by exact N. reflexivity. }
    destruct (lookup s p) as [[|d]|] eqn:L; [congruence| |].
    - assert (R : p_read s p = Ok d) by (unfold p_read; rewrite L; reflexivity).
      assert (US : forall g, upd_store rd g s = (X (g d), Ok tt)) by (intros g; unfold upd_store; fold p; rewrite R; apply WS).
      destruct (dmem String.eqb d k) eqn:M.
      + (* replacing a key *)
        assert (RUN : forall j, run step (store_put rd k v) (S j) s = tail (X (store_del k d)) j).
        { intros j. unfold store_put. cbn [run]. fold p. rewrite R, M. cbn [run pstep]. rewrite US. reflexivity. }
        apply (FIN (store_del k d) (del_not_in k d)).
        * exists 1. unfold crash. rewrite RUN, T by apply del_not_in. reflexivity.
        * exists 2. unfold crash. rewrite RUN, T by apply del_not_in. reflexivity.
        * exists 3. unfold crash. rewrite RUN, T by apply del_not_in. reflexivity.
        * intros [|j]; [left; apply crash_0|]. right. exists j. unfold crash. rewrite RUN. reflexivity.
        * unfold store_put. cbn [exec]. fold p. rewrite R, M. cbn [exec pstep]. rewrite US. apply XT, del_not_in.
      + (* a new key *)
        assert (Ed : X d = s) by (unfold X; apply (dset_same sl_eqb); exact L).
        assert (N : ~ In k (dkeys d)) by (apply mem_false; exact M).
        assert (RUN : forall j, run step (store_put rd k v) j s = tail (X d) j).
        { intros j. unfold store_put. cbn [run]. fold p. rewrite R, M, Ed. reflexivity. }
        apply (FIN d N).
        * exists 0. rewrite Ed. apply crash_0.
        * exists 1. unfold crash. rewrite RUN, T by exact N. reflexivity.
        * exists 2. unfold crash. rewrite RUN, T by exact N. reflexivity.
        * intros j. right. exists j. unfold crash. rewrite RUN. reflexivity.
        * rewrite <- Ed at 1. apply X0, N.
    - (* no store yet *)
      assert (R : p_read s p = Err EFileNotFound) by (unfold p_read; rewrite L; reflexivity).
      assert (N : ~ In k (dkeys ([] : h5 F))) by (intros []).
      assert (RUN : forall j, run step (store_put rd k v) (S j) s = tail (X []) j).
      { intros j. unfold store_put. cbn [run]. fold p. rewrite R. cbn [run pstep]. fold p. rewrite WS. reflexivity. }
      apply (FIN [] N).
      * exists 1. unfold crash. rewrite RUN, T by exact N. reflexivity.
      * exists 2. unfold crash. rewrite RUN, T by exact N. reflexivity.
      * exists 3. unfold crash. rewrite RUN, T by exact N. reflexivity.
      * intros [|j]; [left; apply crash_0|]. right. exists j. unfold crash. rewrite RUN. reflexivity.
      * unfold store_put. cbn [exec]. fold p. rewrite R. cbn [exec pstep]. fold p. rewrite WS. apply XT, N.
  Qed.
End Writing.
