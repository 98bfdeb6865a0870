From Verif Require Import Base SortLib StrLib FrameModel FrameLemmas FisherModel FsModel FisherFileModel KeyModel FileLemmas2 PipeModel PipeLemmas PipeLemmas2.
Open Scope list_scope.

Section Stage.
  Context {F : Type} {K : Fld F} {SO : SetOrder}.
  Variable rd : path.
  Variable auto_calc : dvec -> res (dval F * res (fisher F)).
  Variable cross_calc : dvec -> dict string (dval F) -> res (fisher F).
  Notation step := (pstep (F := F) rd).
  Notation one := (save_one rd auto_calc cross_calc).
  Notation all := (save_all rd auto_calc cross_calc).
  Notation comp := (compute_fisher rd auto_calc cross_calc).
  Notation stage := (fisher_stage rd auto_calc cross_calc).
  Notation fb := (fisher_file rd).
  Implicit Types s m : fs (h5 F).

  (** The file of a data vector is there, but only the beginning of it. *)
  Definition torn_at (p : path) (m sF : fs (h5 F)) : Prop :=
    exists c rest, rest <> [] /\ lookup m p = Some (NFile c) /\ lookup sF p = Some (NFile (c ++ rest)).

  (** *** What a program may touch *)
  Definition touches (p : path) (o : pop (F := F)) : Prop :=
    match o with
    | PMkdir q => q = base_dir rd
    | PRmtree _ | PUnlink _ => False
    | PCalc _ => True
    | PStoreOpen | PStoreDel _ | PStoreBegin _ | PStorePut _ _ => True
    | PFish w => op_path w = p
    end.
  Lemma upd_kept g s : kept (eq (store_file rd)) s (fst (upd_store rd g s)).
  Proof. unfold upd_store. destruct (p_read s (store_file rd)) as [d|e]; [apply write_kept|intros q _; reflexivity]. Qed.
  Lemma touch_kept p o s q : touches p o -> q <> p -> q <> store_file rd -> q <> base_dir rd -> lookup (fst (step o s)) q = lookup s q.
  Proof.
    intros T N1 N2 N3. destruct o as [r|r|r|b| |k|k|k v|w]; cbn [touches pstep] in *; try contradiction; try reflexivity.
    - apply mkdir_kept. congruence.
    - apply write_kept. congruence.
    - apply upd_kept. congruence.
    - apply upd_kept. congruence.
    - apply upd_kept. congruence.
    - apply run_op_kept. congruence.
  Qed.
  Lemma touch_base p o s : touches p o -> p <> base_dir rd -> lookup s (base_dir rd) = Some NDir -> lookup (fst (step o s)) (base_dir rd) = Some NDir.
  Proof.
    intros T N L. pose proof (base_store rd) as B. destruct o as [r|r|r|b| |k|k|k v|w]; cbn [touches pstep] in *; try contradiction; try exact L.
    - subst r. unfold p_mkdir. rewrite L. destruct (base_dir rd) as [|x l]; exact L.
    - rewrite write_kept; [exact L|congruence].
    - rewrite upd_kept; [exact L|congruence].
    - rewrite upd_kept; [exact L|congruence].
    - rewrite upd_kept; [exact L|congruence].
    - rewrite run_op_kept; [exact L|congruence].
  Qed.
  Lemma ops_put p k v : ops_in (touches p) (store_put rd k v).
  Proof.
    intros s. destruct (p_read (C := h5 F) s (store_file rd)) as [d|e]; [destruct (dmem String.eqb d k)|]; cbn; tauto.
  Qed.
  Lemma ops_write p f : ops_in (touches p) (write_fisher p f).
  Proof.
    intros s. destruct (write_ops false false p f s) as [l|e] eqn:E; [|exact I]. pose proof (write_ops_path _ _ _ _ _ _ E) as H.
    clear E. induction l as [|o l IH]; [exact I|]. cbn. split; [apply H; left; reflexivity|]. apply IH. intros o' Ho. apply H. right; exact Ho.
  Qed.
  Lemma ops_save b r : ops_in (touches (fb b)) (save_fisher rd b r).
  Proof. destruct r as [f|e]; [apply ops_write|exact I]. Qed.
  Lemma ops_comp b dv : ops_in (touches (fb b)) (comp b dv).
  Proof.
    unfold compute_fisher. destruct (is_single_auto dv) as [[|]|e]; [| |exact I].
    - destruct (auto_calc dv) as [[fell f]|e]; [|exact I]. destruct (involved_probes dv) as [[|pr l]|e]; [exact I| |exact I].
      apply ops_in_andthen; [apply ops_put|apply ops_save].
    - intros s. destruct (p_read (C := h5 F) s (store_file rd)) as [d|e]; [|exact I]. destruct (Nat.ltb (length d) 3); [exact I|apply ops_save].
  Qed.
  Lemma ops_one b : ops_in (touches (fb b)) (one b).
  Proof.
    unfold save_one. destruct (dv_from_brief b) as [dv|e]; [|exact I]. intros s. destruct (p_exists s (fb b)); [exact I|].
    split; [exact I|apply ops_comp].
  Qed.

  (** *** Files that exist stay as they are *)
  Definition in_base (p : path) : Prop := exists x, p = base_dir rd ++ [x].
  Lemma in_base_fisher b : in_base (fb b).
  Proof. exists ("fisher_" ++ b ++ ".hdf5")%string. reflexivity. Qed.
  Lemma in_base_ist : in_base (ist_file rd).
  Proof. exists "fisher_IST_gcsp_pk.hdf5"%string. reflexivity. Qed.
  Lemma write_persist p f n s q x : in_base q -> lookup s q = Some x -> lookup (crash step (write_fisher p f) n s) q = Some x.
  Proof.
    intros (y & ->) L. destruct (list_eq_dec string_dec (base_dir rd ++ [y]) p) as [E|N].
    - unfold crash, write_fisher. cbn [run]. unfold write_ops, p_exists. rewrite <- E, L. exact L.
    - apply (ops_in_inv step (touches p) (fun s => lookup s (base_dir rd ++ [y]) = Some x)); [|apply ops_write|exact L].
      intros o s' T L'. rewrite <- L'. apply (touch_kept p); [exact T|exact N|apply base_file_store|apply base_file_base].
  Qed.
  Lemma one_persist b n s q x : in_base q -> lookup s q = Some x -> lookup (crash step (one b) n s) q = Some x.
  Proof.
    intros (y & ->) L. destruct (list_eq_dec string_dec (base_dir rd ++ [y]) (fb b)) as [E|N].
    - unfold crash, save_one. destruct (dv_from_brief b) as [dv|e]; [|exact L]. cbn [run]. unfold p_exists. rewrite <- E, L. exact L.
    - apply (ops_in_inv step (touches (fb b)) (fun s => lookup s (base_dir rd ++ [y]) = Some x)); [|apply ops_one|exact L].
      intros o s' T L'. rewrite <- L'. apply (touch_kept (fb b)); [exact T|exact N|apply base_file_store|apply base_file_base].
  Qed.
  Lemma exec_crash {A} (p : prog (fs (h5 F)) pop A) s s' r : exec step p s = (s', r) -> exists n, crash step p n s = s'.
  Proof. intros E. destruct (exec_run step p s) as (n & H). exists n. unfold crash. rewrite H, E. reflexivity. Qed.
  (** Persistence for a sequence. *)
  Lemma seq_persist {A} (R : fs (h5 F) -> Prop) (p : prog (fs (h5 F)) pop unit) (q : prog (fs (h5 F)) pop A) :
    (forall n s, R s -> R (crash step p n s)) -> (forall n s, R s -> R (crash step q n s)) -> forall n s, R s -> R (crash step (andthen p q) n s).
  Proof.
    intros Hp Hq n s Hs. specialize (Hp n s Hs). unfold crash in *.
    destruct (run_andthen step p q n s) as [(s' & H & ->)|[(s' & e & H & ->)|(s' & n' & H & ->)]]; rewrite H in Hp; cbn [fst] in *; [exact Hp|exact Hp|].
    apply Hq. exact Hp.
  Qed.
  Lemma all_persist_gen (R : fs (h5 F) -> Prop) : (forall b n s, R s -> R (crash step (one b) n s)) -> forall L n s, R s -> R (crash step (all L) n s).
  Proof.
    intros H. induction L as [|b L IH]; intros n s Hs; [exact Hs|]. apply (seq_persist R (one b) (all L)); [apply H|apply IH|exact Hs].
  Qed.
  Lemma all_persist L n s q x : in_base q -> lookup s q = Some x -> lookup (crash step (all L) n s) q = Some x.
  Proof. intros B. apply (all_persist_gen (fun s => lookup s q = Some x)). intros b n' s'. apply one_persist, B. Qed.
  Lemma all_base L n s : lookup s (base_dir rd) = Some NDir -> lookup (crash step (all L) n s) (base_dir rd) = Some NDir.
  Proof.
    apply (all_persist_gen (fun s => lookup s (base_dir rd) = Some NDir)). intros b n' s' L'.
    apply (ops_in_inv step (touches (fb b)) (fun s => lookup s (base_dir rd) = Some NDir)); [|apply ops_one|exact L'].
    intros o s2 T L2. apply (touch_base (fb b)); [exact T|apply base_file_base|exact L2].
  Qed.

  (** *** One data vector *)
  Lemma one_exists b s s1 : exec step (one b) s = (s1, Ok tt) -> exists x, lookup s1 (fb b) = Some x.
  Proof.
    unfold save_one. destruct (dv_from_brief b) as [dv|e]; [|discriminate]. cbn [exec]. unfold p_exists.
    destruct (lookup s (fb b)) as [x|] eqn:L; [intros [= <-]; eauto|]. cbn [exec pstep].
    assert (SV : forall r s', exec step (save_fisher rd b r) s' = (s1, Ok tt) -> exists x, lookup s1 (fb b) = Some x).
    { intros [f|e] s' E; [|discriminate E]. apply write_crash in E; [|apply base_file_nonempty]. destruct E as (_ & E & _). eauto. }
    unfold compute_fisher. destruct (is_single_auto dv) as [[|]|e]; [| |discriminate].
    - destruct (auto_calc dv) as [[fell f]|e]; [|discriminate]. destruct (involved_probes dv) as [[|pr l]|e]; [discriminate| |discriminate].
      rewrite exec_andthen. destruct (exec step (store_put rd pr fell) s) as [s' [u|e]]; [apply SV|discriminate].
    - cbn [exec]. destruct (p_read (C := h5 F) s (store_file rd)) as [d|e]; [|discriminate]. destruct (Nat.ltb (length d) 3); [discriminate|apply SV].
  Qed.
  Lemma one_skip b s x dv : dv_from_brief b = Ok dv -> lookup s (fb b) = Some x -> exec step (one b) s = (s, Ok tt) /\ forall n, run step (one b) n s = (s, Some (Ok tt)).
  Proof. intros E L. unfold save_one. rewrite E. cbn [exec run]. unfold p_exists. rewrite L. split; reflexivity. Qed.
  Lemma one_parses b s s1 : exec step (one b) s = (s1, Ok tt) -> exists dv, dv_from_brief b = Ok dv.
  Proof. unfold save_one. destruct (dv_from_brief b) as [dv|e]; [eauto|discriminate]. Qed.

  (** Writing the file of [b] at the end of a program [q] that does not touch
      it, and that can be started again from any state it is interrupted in. *)
  Lemma one_crash b s s1 : exec step (one b) s = (s1, Ok tt) -> forall n,
    crash step (one b) n s = s1 \/
    (exec step (one b) (crash step (one b) n s) = (s1, Ok tt) /\
     forall n', exists n'', crash step (one b) n' (crash step (one b) n s) = crash step (one b) n'' s) \/
    torn_at (fb b) (crash step (one b) n s) s1.
  Proof.
    intros E0 n. pose proof E0 as H0. destruct (one_parses _ _ _ E0) as (dv & Ed).
    destruct (lookup s (fb b)) as [x|] eqn:L.
    { left. destruct (one_skip b s x dv Ed L) as [X R]. unfold crash. rewrite R. rewrite E0 in X. injection X as ->. reflexivity. }
    assert (Ab : forall m, lookup m (fb b) = None -> exec step (one b) m = exec step (comp b dv) m /\ forall n, crash step (one b) (S n) m = crash step (comp b dv) n m).
    { intros m Lm. unfold crash, save_one. rewrite Ed. cbn [exec run]. unfold p_exists. rewrite Lm. cbn [exec run pstep]. split; reflexivity. }
    destruct n as [|n].
    { right; left. rewrite crash_0. split; [exact E0|]. intros n'. exists n'. reflexivity. }
    destruct (Ab s L) as [A1 A2]. rewrite A1 in E0. rewrite A2.
    (* from a state between the operations of [comp] *)
    assert (BACK : forall j, lookup (crash step (comp b dv) j s) (fb b) = None -> exec step (comp b dv) (crash step (comp b dv) j s) = (s1, Ok tt) ->
      (forall n', exists n'', crash step (comp b dv) n' (crash step (comp b dv) j s) = crash step (comp b dv) n'' s) ->
      exec step (one b) (crash step (comp b dv) j s) = (s1, Ok tt) /\ forall n', exists n'', crash step (one b) n' (crash step (comp b dv) j s) = crash step (one b) n'' s).
    { intros j Lj Xj Cj. destruct (Ab _ Lj) as [B1 B2]. rewrite B1. split; [exact Xj|]. intros [|n'].
      - exists (S j). rewrite crash_0. symmetry. apply A2.
      - rewrite B2. destruct (Cj n') as (n'' & ->). exists (S n''). symmetry. apply A2. }
    assert (Np : fb b <> []) by apply base_file_nonempty.
    revert E0 BACK. unfold compute_fisher. destruct (is_single_auto dv) as [[|]|e]; [| |discriminate].
    - destruct (auto_calc dv) as [[fell fr]|e]; [|discriminate]. destruct (involved_probes dv) as [[|pr l]|e]; [discriminate| |discriminate].
      set (q := store_put rd pr fell). intros E0 BACK. rewrite exec_andthen in E0.
      destruct (exec step q s) as [sp [[]|e]] eqn:Q; [|discriminate]. destruct fr as [f|e]; [|discriminate]. cbn [save_fisher] in *.
      assert (Q0 : forall j, lookup (crash step q j s) (fb b) = None).
      { intros j. rewrite <- L. apply (ops_in_inv step (touches (store_file rd)) (fun s' => lookup s' (fb b) = lookup s (fb b))); [|apply ops_put|reflexivity].
        intros o s' T E. rewrite <- E. apply (touch_kept (store_file rd)); [exact T|apply base_file_store|apply base_file_store|apply base_file_base]. }
      (* interrupted in the store *)
      assert (INQ : forall j i, crash step (andthen q (write_fisher (fb b) f)) j s = crash step q i s ->
        exec step (andthen q (write_fisher (fb b) f)) (crash step q i s) = (s1, Ok tt) /\
        forall n', exists n'', crash step (andthen q (write_fisher (fb b) f)) n' (crash step q i s) = crash step (andthen q (write_fisher (fb b) f)) n'' s).
      { intros j i _. destruct (put_crash rd pr fell s sp Q i) as [X C]. fold q in X, C. rewrite exec_andthen, X. split; [exact E0|].
        intros n'. destruct (crash_andthen step q (write_fisher (fb b) f) n' _ sp X) as [->|(n2 & ->)].
        - destruct (C n') as (n'' & ->). destruct (crash_prefix step q (write_fisher (fb b) f) n'' s) as (n3 & H). exists n3. symmetry. exact H.
        - destruct (crash_suffix step q (write_fisher (fb b) f) s sp Q n2) as (n3 & H). exists n3. symmetry. exact H. }
      assert (QE : exists i, crash step q i s = sp) by (apply (exec_crash q s sp (Ok tt)); exact Q).
      destruct (crash_andthen step q (write_fisher (fb b) f) n s sp Q) as [E|(j & E)].
      + right; left. destruct (INQ n n E) as [X C]. rewrite E. rewrite <- E. apply BACK.
        * rewrite E. apply Q0.
        * rewrite E. exact X.
        * rewrite E. exact C.
      + destruct (write_crash rd (fb b) f sp s1 Np E0) as (Ls & L1 & W). destruct (W j) as [Es|(c & rest & Ec & Lc & Full)].
        * right; left. destruct QE as (i & Ei). assert (Ei' : crash step (andthen q (write_fisher (fb b) f)) n s = crash step q i s) by congruence.
          destruct (INQ n i Ei') as [X C]. apply BACK; rewrite Ei'; [apply Q0|exact X|exact C].
        * rewrite E. destruct rest as [|r0 rest]; [left; apply Full; reflexivity|]. right; right. exists c, (r0 :: rest). split; [discriminate|]. split; [exact Lc|]. rewrite L1, Ec. reflexivity.
    - intros E0 BACK. cbn [exec] in E0. unfold crash in *. cbn [run] in *. destruct (p_read (C := h5 F) s (store_file rd)) as [d|e] eqn:R; [|discriminate].
      destruct (Nat.ltb (length d) 3) eqn:T; [discriminate|]. destruct (cross_calc dv d) as [f|e]; [|discriminate]. cbn [save_fisher] in *.
      destruct (write_crash rd (fb b) f s s1 Np E0) as (Ls & L1 & W). destruct (W n) as [Es|(c & rest & Ec & Lc & Full)].
      + right; left. unfold crash in Es. rewrite Es. split; [exact H0|]. intros n'. exists n'. reflexivity.
      + destruct rest as [|r0 rest]; [left; apply Full; reflexivity|]. right; right. exists c, (r0 :: rest). split; [discriminate|]. split; [exact Lc|]. rewrite L1, Ec. reflexivity.
  Qed.

  (** *** A list of data vectors *)
  Lemma all_crash L : forall s sN, exec step (all L) s = (sN, Ok tt) -> forall n,
    (exec step (all L) (crash step (all L) n s) = (sN, Ok tt) /\
     forall n', exists n'', crash step (all L) n' (crash step (all L) n s) = crash step (all L) n'' s) \/
    exists b, In b L /\ torn_at (fb b) (crash step (all L) n s) sN.
  Proof.
    induction L as [|b L IH]; intros s sN E n.
    { left. split; [exact E|]. intros n'. exists n'. reflexivity. }
    change (all (b :: L)) with (andthen (one b) (all L)) in *. rewrite exec_andthen in E.
    destruct (exec step (one b) s) as [s1 [[]|e]] eqn:E1; [|discriminate].
    destruct (one_parses _ _ _ E1) as (dv & Ed). destruct (one_exists _ _ _ E1) as (x & L1).
    (* a state of the rest of the list *)
    assert (REST : forall j, let m := crash step (all L) j s1 in
      (exec step (andthen (one b) (all L)) m = (sN, Ok tt) /\ forall n', exists n'', crash step (andthen (one b) (all L)) n' m = crash step (andthen (one b) (all L)) n'' s) \/
      exists b', In b' (b :: L) /\ torn_at (fb b') m sN).
    { intros j m. destruct (IH s1 sN E j) as [[X C]|(b' & Hb & T)]; [|right; exists b'; split; [right; exact Hb|exact T]]. left. fold m in X, C.
      assert (Lm : lookup m (fb b) = Some x) by (apply all_persist; [apply in_base_fisher|exact L1]).
      destruct (one_skip b m x dv Ed Lm) as [Xs Rs]. rewrite exec_andthen, Xs. split; [exact X|].
      intros n'. destruct (crash_andthen step (one b) (all L) n' m m Xs) as [->|(n2 & ->)].
      - unfold crash. rewrite Rs. cbn [fst]. destruct (crash_suffix step (one b) (all L) s s1 E1 j) as (n3 & H). exists n3. symmetry. exact H.
      - destruct (C n2) as (n3 & ->). destruct (crash_suffix step (one b) (all L) s s1 E1 n3) as (n4 & H). exists n4. symmetry. exact H. }
    destruct (crash_andthen step (one b) (all L) n s s1 E1) as [->|(j & ->)]; [|exact (REST j)].
    destruct (one_crash b s s1 E1 n) as [->|[[X C]|T]].
    - specialize (REST 0). cbv zeta in REST. rewrite crash_0 in REST. exact REST.
    - left. rewrite exec_andthen, X. split; [exact E|]. intros n'.
      destruct (crash_andthen step (one b) (all L) n' _ s1 X) as [->|(n2 & ->)].
      + destruct (C n') as (n'' & ->). destruct (crash_prefix step (one b) (all L) n'' s) as (n3 & H). exists n3. symmetry. exact H.
      + destruct (crash_suffix step (one b) (all L) s s1 E1 n2) as (n3 & H). exists n3. symmetry. exact H.
    - right. exists b. split; [left; reflexivity|]. destruct T as (c & rest & Nr & Lm & Ls). exists c, rest. split; [exact Nr|]. split; [exact Lm|].
      destruct (exec_crash _ _ _ _ E) as (i & <-). apply all_persist; [apply in_base_fisher|exact Ls].
  Qed.

  (** *** The stage *)
  Lemma stage_persist sel ist n s q x : in_base q -> lookup s q = Some x -> lookup (crash step (stage sel ist) n s) q = Some x.
  Proof.
    intros B L. unfold crash, fisher_stage. cbn [run]. destruct n as [|n]; [exact L|].
    assert (L' : lookup (fst (step (PMkdir (base_dir rd)) s)) q = Some x).
    { destruct B as (y & ->). rewrite <- L. apply (touch_kept (store_file rd)); [reflexivity|apply base_file_store|apply base_file_store|apply base_file_base]. }
    destruct (step (PMkdir (base_dir rd)) s) as [s' [u|e]]; cbn [fst] in L' |- *; [|exact L'].
    set (R := fun s => lookup s q = Some x). change (R s') in L'. match goal with |- lookup (fst (run step ?p n s')) q = Some x => change (R (crash step p n s')) end.
    assert (WP : forall p f n s, R s -> R (crash step (write_fisher p f) n s)) by (intros p f n0 s0; apply write_persist; exact B).
    assert (AP : forall l n s, R s -> R (crash step (all l) n s)) by (intros l n0 s0; apply all_persist; exact B).
    apply seq_persist; [apply AP| |exact L']. intros n0 s0 H0. destruct sel as [l|e]; [|exact H0].
    apply seq_persist; [apply AP| |exact H0]. intros n1 s1 H1. destruct ist as [f|e]; [apply WP, H1|exact H1].
  Qed.
  Lemma exec_all_app l1 l2 (q : prog (fs (h5 F)) pop unit) s : exec step (andthen (all l1) (andthen (all l2) q)) s = exec step (andthen (all (l1 ++ l2)) q) s.
  Proof. symmetry. apply peq_exec'. apply each_app. Qed.
  Lemma crash_all_app l1 l2 (q : prog (fs (h5 F)) pop unit) n s : crash step (andthen (all l1) (andthen (all l2) q)) n s = crash step (andthen (all (l1 ++ l2)) q) n s.
  Proof. symmetry. apply peq_crash. apply each_app. Qed.

  Section Restart.
    Variables (l : list string) (f : fisher F) (s0 sF : fs (h5 F)).
    Hypothesis run0 : exec step (stage (Ok l) (Ok f)) s0 = (sF, Ok tt).
    Notation L := (auto_briefs ++ l).
    Definition safe (m : fs (h5 F)) : Prop := lookup m (ist_file rd) = None /\ forall b, In b L -> ~ torn_at (fb b) m sF.

    Lemma stage_parts : exists s1 sN, step (PMkdir (base_dir rd)) s0 = (s1, Ok tt) /\ lookup s1 (base_dir rd) = Some NDir /\
      exec step (all L) s1 = (sN, Ok tt) /\ exec step (write_fisher (ist_file rd) f) sN = (sF, Ok tt).
    Proof.
      clear -run0. unfold fisher_stage in run0. cbn [exec] in run0. destruct (step (PMkdir (base_dir rd)) s0) as [s1 [[]|e]] eqn:M; [|discriminate].
      rewrite exec_all_app, exec_andthen in run0. destruct (exec step (all (auto_briefs ++ l)) s1) as [sN [[]|e]] eqn:A; [|discriminate].
      exists s1, sN. split; [reflexivity|]. split; [|split; [exact A|exact run0]].
      cbn [pstep] in M. unfold p_mkdir in M. assert (Nb : base_dir rd <> []) by (unfold base_dir; destruct rd; discriminate).
      destruct (base_dir rd) as [|x d]; [congruence|]. destruct (lookup s0 (x :: d)) as [[|c]|] eqn:Q; [injection M as <-; exact Q|discriminate|].
      destruct (p_isdir s0 (removelast (x :: d))); [|discriminate]. injection M as <-. apply lookup_set_same.
    Qed.
    Lemma mkdir_skip m : lookup m (base_dir rd) = Some NDir -> step (PMkdir (base_dir rd)) m = (m, Ok tt).
    Proof. intros H. cbn [pstep]. unfold p_mkdir. rewrite H. destruct (base_dir rd); reflexivity. Qed.
    Lemma stage_exec m : lookup m (base_dir rd) = Some NDir ->
      exec step (stage (Ok l) (Ok f)) m = exec step (andthen (all L) (write_fisher (ist_file rd) f)) m /\
      forall n, crash step (stage (Ok l) (Ok f)) (S n) m = crash step (andthen (all L) (write_fisher (ist_file rd) f)) n m.
    Proof.
      clear run0. intros H. rewrite <- exec_all_app. unfold fisher_stage, crash. cbn [exec run]. rewrite (mkdir_skip m H). split; [reflexivity|].
      intros n. exact (crash_all_app auto_briefs l (write_fisher (ist_file rd) f) n m).
    Qed.
    Lemma restart_inv ns : let m := restarts step (stage (Ok l) (Ok f)) ns s0 in safe m -> exec step (stage (Ok l) (Ok f)) m = (sF, Ok tt).
    Proof.
      destruct stage_parts as (s1 & sN & M0 & B1 & A & W).
      assert (Np : ist_file rd <> []) by apply base_file_nonempty.
      destruct (write_crash rd (ist_file rd) f sN sF Np W) as (LN & LF & WC).
      (* the final state agrees with [sN] on the files of the data vectors *)
      assert (AGREE : forall b, In b L -> lookup sF (fb b) = lookup sN (fb b)).
      { intros b Hb. assert (exists dv, dv_from_brief b = Ok dv) as (dv & Ed).
        { clear -A Hb. revert s1 A Hb. generalize L. intros L0. induction L0 as [|b0 L0 IH]; intros s1 A Hb; [destruct Hb|].
          change (all (b0 :: L0)) with (andthen (one b0) (all L0)) in A. rewrite exec_andthen in A. destruct (exec step (one b0) s1) as [s2 [[]|e]] eqn:E1; [|discriminate].
          destruct Hb as [->|Hb]; [eapply one_parses; exact E1|exact (IH _ A Hb)]. }
        destruct (exec_crash _ _ _ _ W) as (i & <-). apply (ops_in_inv step (touches (ist_file rd)) (fun s => lookup s (fb b) = lookup sN (fb b))); [|apply ops_write|reflexivity].
        intros o s T E. rewrite <- E. apply (touch_kept (ist_file rd)); [exact T|eapply fisher_not_ist; exact Ed|apply base_file_store|apply base_file_base]. }
      set (Q := andthen (all L) (write_fisher (ist_file rd) f)).
      (* what a restart from a good state leaves *)
      assert (AFTER : forall m n, exec step (all L) m = (sN, Ok tt) -> (exists j, sN = crash step (all L) j s1) ->
         (forall n', exists n'', crash step (all L) n' m = crash step (all L) n'' s1) ->
         (exists j, crash step Q n m = crash step (all L) j s1) \/ exists x, lookup (crash step Q n m) (ist_file rd) = Some x).
      { intros m n X (jN & EN) C. destruct (crash_andthen step (all L) (write_fisher (ist_file rd) f) n m sN X) as [E|(j & E)]; fold Q in E; rewrite E.
        - left. destruct (C n) as (n'' & ->). eauto.
        - destruct (WC j) as [->|(c & rest & _ & Lc & _)]; [left; exists jN; exact EN|right; eauto]. }
      assert (EN : exists j, sN = crash step (all L) j s1) by (destruct (exec_crash _ _ _ _ A) as (i & Hi); exists i; auto).
      assert (INV : forall ns, let m := restarts step (stage (Ok l) (Ok f)) ns s0 in
        m = s0 \/ (exists j, m = crash step (all L) j s1) \/ (exists b, In b L /\ torn_at (fb b) m sN) \/ exists x, lookup m (ist_file rd) = Some x).
      { intros ns'. induction ns' as [|n ns' IH] using rev_ind; [left; reflexivity|]. cbv zeta in *. unfold restarts in *. rewrite fold_left_app. cbn [fold_left].
        set (m := fold_left (fun s n => crash step (stage (Ok l) (Ok f)) n s) ns' s0) in *. destruct IH as [->|[(j & ->)|[(b & Hb & c & rest & Nr & Lm & Ls)|(x & Lx)]]].
        - destruct n as [|n]; [left; apply crash_0|]. right.
          assert (E : crash step (stage (Ok l) (Ok f)) (S n) s0 = crash step Q n s1).
          { unfold crash, fisher_stage. cbn [run]. rewrite M0. exact (crash_all_app auto_briefs l (write_fisher (ist_file rd) f) n s1). }
          rewrite E. destruct (AFTER s1 n A EN) as [H|H]; [intros n'; exists n'; reflexivity| |]; [left; exact H|right; right; exact H].
        - right. destruct (all_crash L s1 sN A j) as [[X C]|T]; [|].
          + assert (Bj : lookup (crash step (all L) j s1) (base_dir rd) = Some NDir) by (apply all_base; exact B1).
            destruct n as [|n]; [left; exists j; apply crash_0|]. rewrite (proj2 (stage_exec _ Bj)). fold Q.
            destruct (AFTER _ n X EN C) as [H|H]; [left; exact H|right; right; exact H].
          + right; left. destruct T as (b & Hb & c & rest & Nr & Lm & Ls). exists b. split; [exact Hb|]. exists c, rest. split; [exact Nr|]. split; [|exact Ls].
            apply stage_persist; [apply in_base_fisher|exact Lm].
        - right; right; left. exists b. split; [exact Hb|]. exists c, rest. split; [exact Nr|]. split; [|exact Ls]. apply stage_persist; [apply in_base_fisher|exact Lm].
        - right; right; right. exists x. apply stage_persist; [apply in_base_ist|exact Lx]. }
      cbv zeta. intros [I0 T0]. destruct (INV ns) as [->|[(j & E)|[(b & Hb & c & rest & Nr & Lm & Ls)|(x & Lx)]]].
      - exact run0.
      - destruct (all_crash L s1 sN A j) as [[X C]|(b & Hb & c & rest & Nr & Lm & Ls)].
        + assert (Bj : lookup (crash step (all L) j s1) (base_dir rd) = Some NDir) by (apply all_base; exact B1).
          rewrite E. rewrite (proj1 (stage_exec _ Bj)), exec_andthen, X. exact W.
        + exfalso. apply (T0 b Hb). exists c, rest. split; [exact Nr|]. rewrite E. split; [exact Lm|]. rewrite AGREE by exact Hb. exact Ls.
      - exfalso. apply (T0 b Hb). exists c, rest. split; [exact Nr|]. split; [exact Lm|]. rewrite AGREE by exact Hb. exact Ls.
      - congruence.
    Qed.
  End Restart.
End Stage.
