(** Restarting the stages of a run (C60, C61). *)
From Verif Require Import Base SortLib StrLib FrameModel FrameLemmas FisherModel FisherSpec FisherLemmas5 FsModel FisherFileModel KeyModel FileLemmas2 PipeModel PipeLemmas PipeLemmas2 PipeLemmas3.
Open Scope list_scope.

Section C60.
  Context {F : Type} {K : Fld F} {SO : SetOrder}.
  Variable rd : path.
  (** Any evaluator. *)
  Variable auto_calc : dvec -> res (dval F * res (fisher F)).
  Variable cross_calc : dvec -> dict string (dval F) -> res (fisher F).
  Notation step := (pstep (F := F) rd).
  Notation stage := (fisher_stage rd auto_calc cross_calc).
  Notation batch := (batch_stage rd auto_calc cross_calc).

  (** From any state in which an uninterrupted run succeeds, after any number
      of interruptions at any points: running again gives the same files as the
      uninterrupted run if and only if the last file is not yet there and no
      file of a data vector is cut short. *)
  Theorem C60_restart_exact l f s0 sF : exec step (stage (Ok l) (Ok f)) s0 = (sF, Ok tt) -> forall ns,
    let m := restarts step (stage (Ok l) (Ok f)) ns s0 in
    exec step (stage (Ok l) (Ok f)) m = (sF, Ok tt) <->
    lookup m (ist_file rd) = None /\
    forall b c rest, In b (auto_briefs ++ l) -> lookup m (fisher_file rd b) = Some (NFile c) ->
      lookup sF (fisher_file rd b) = Some (NFile (c ++ rest)) -> rest = [].
  Proof.
    intros E ns m. split.
    - intros X. destruct (exec_crash rd _ _ _ _ X) as (n & Hn). split.
      + destruct (lookup m (ist_file rd)) as [x|] eqn:L; [exfalso|reflexivity].
        assert (B : forall s, lookup s (ist_file rd) = Some x -> snd (exec step (write_fisher (ist_file rd) f) s) = Err EFileExists).
        { intros s Ls. unfold write_fisher. cbn [exec]. unfold write_ops, p_exists. rewrite Ls. reflexivity. }
        unfold fisher_stage in X. cbn [exec] in X. destruct (step (PMkdir (base_dir rd)) m) as [m1 [[]|e]] eqn:Em; [|discriminate].
        assert (L1 : lookup m1 (ist_file rd) = Some x).
        { replace m1 with (fst (step (PMkdir (base_dir rd)) m)) by (rewrite Em; reflexivity). rewrite <- L.
          apply (touch_kept rd (store_file rd)); [reflexivity|apply base_file_store|apply base_file_store|apply base_file_base]. }
        rewrite exec_all_app, exec_andthen in X. destruct (exec step (save_all rd auto_calc cross_calc (auto_briefs ++ l)) m1) as [m2 [[]|e]] eqn:E2; [|discriminate].
        assert (L2 : lookup m2 (ist_file rd) = Some x).
        { destruct (exec_crash rd _ _ _ _ E2) as (i & <-). apply all_persist; [apply in_base_ist|exact L1]. }
        specialize (B m2 L2). rewrite X in B. discriminate B.
      + intros b c rest Hb Lm Ls. rewrite <- Hn in Ls. rewrite (stage_persist rd auto_calc cross_calc (Ok l) (Ok f) n m _ (NFile c) (in_base_fisher rd b) Lm) in Ls.
        injection Ls as Q. rewrite <- (app_nil_r c) in Q at 1. apply app_inv_head in Q. auto.
    - intros [I T]. apply (restart_inv rd auto_calc cross_calc l f s0 sF E). split; [exact I|]. intros b Hb (c & rest & Nr & Lm & Ls). apply Nr. exact (T b c rest Hb Lm Ls).
  Qed.

  (** A file that exists is neither written nor computed again, in any state
      and whatever happens. *)
  Theorem C60_existing_not_recomputed sel ist s b x : lookup s (fisher_file rd b) = Some x -> forall n,
    lookup (crash step (stage sel ist) n s) (fisher_file rd b) = Some x /\ ~ In (PCalc b) (trace step (stage sel ist) n s).
  Proof.
    intros L n. split; [apply stage_persist; [apply in_base_fisher|exact L]|].
    set (R := fun s : fs (h5 F) => lookup s (fisher_file rd b) = Some x).
    set (NC := fun o : pop (F := F) => o <> PCalc b).
    (* programs of operations other than computing [b] *)
    assert (TR : forall A (p : prog (fs (h5 F)) pop A), ops_in NC p -> forall n s, ~ In (PCalc b) (trace step p n s)).
    { intros A p. induction p as [r|o k IH|k IH]; intros H n0 s0; cbn [trace]; [intros []| |apply IH, H].
      destruct n0 as [|n0]; [intros []|]. destruct (step o s0) as [s' [u|e]]; [|intros [E|[]]; apply (proj1 H); exact E].
      intros [E|H']; [apply (proj1 H); exact E|exact (IH (proj2 H) _ _ H')]. }
    assert (PUT : forall k v, ops_in NC (store_put rd k v)).
    { intros k v s0. destruct (p_read (C := h5 F) s0 (store_file rd)) as [d|e]; [destruct (dmem String.eqb d k)|]; cbn; repeat split; discriminate. }
    assert (WR : forall p f, ops_in NC (write_fisher p f)).
    { intros p f s0. destruct (write_ops false false p f s0) as [l|e]; [|exact I]. induction l as [|o l IH]; [exact I|]. split; [discriminate|exact IH]. }
    assert (SV : forall b' r, ops_in NC (save_fisher rd b' r)) by (intros b' [f|e]; [apply WR|exact I]).
    assert (CP : forall b' dv, ops_in NC (compute_fisher rd auto_calc cross_calc b' dv)).
    { intros b' dv. unfold compute_fisher. destruct (is_single_auto dv) as [[|]|e]; [| |exact I].
      - destruct (auto_calc dv) as [[fell fr]|e]; [|exact I]. destruct (involved_probes dv) as [[|pr l]|e]; [exact I| |exact I]. apply ops_in_andthen; [apply PUT|apply SV].
      - intros s0. destruct (p_read (C := h5 F) s0 (store_file rd)) as [d|e]; [|exact I]. destruct (Nat.ltb (length d) 3); [exact I|apply SV]. }
    assert (ONE : forall b' n s, R s -> ~ In (PCalc b) (trace step (save_one rd auto_calc cross_calc b') n s)).
    { intros b' n0 s0 Hs. unfold save_one. destruct (dv_from_brief b') as [dv|e]; [|intros []]. cbn [trace].
      destruct (p_exists s0 (fisher_file rd b')) eqn:Ex; [intros []|]. cbn [trace]. destruct n0 as [|n0]; [intros []|]. cbn [pstep]. intros [E|H].
      - injection E as E. rewrite E in Ex. unfold p_exists in Ex. unfold R in Hs. rewrite Hs in Ex. discriminate Ex.
      - exact (TR _ _ (CP b' dv) _ _ H). }
    assert (SEQ : forall (p q : prog (fs (h5 F)) pop unit), (forall n s, R s -> ~ In (PCalc b) (trace step p n s)) -> (forall s s1, R s -> exec step p s = (s1, Ok tt) -> R s1) ->
      (forall n s, R s -> ~ In (PCalc b) (trace step q n s)) -> forall n s, R s -> ~ In (PCalc b) (trace step (andthen p q) n s)).
    { intros p q Hp Hr Hq n0 s0 Hs. destruct (trace_andthen step p q n0 s0) as [->|(n' & s1 & E & ->)]; [apply Hp, Hs|].
      intros H. apply in_app_or in H. destruct H as [H|H]; [exact (Hp _ _ Hs H)|exact (Hq _ _ (Hr _ _ Hs E) H)]. }
    assert (RO : forall b' s s1, R s -> exec step (save_one rd auto_calc cross_calc b') s = (s1, Ok tt) -> R s1).
    { intros b' s0 s1 Hs E. destruct (exec_crash rd _ _ _ _ E) as (i & <-). apply one_persist; [apply in_base_fisher|exact Hs]. }
    assert (RA : forall l s s1, R s -> exec step (save_all rd auto_calc cross_calc l) s = (s1, Ok tt) -> R s1).
    { intros l s0 s1 Hs E. destruct (exec_crash rd _ _ _ _ E) as (i & <-). apply all_persist; [apply in_base_fisher|exact Hs]. }
    assert (ALL : forall l n s, R s -> ~ In (PCalc b) (trace step (save_all rd auto_calc cross_calc l) n s)).
    { induction l as [|b' l IH]; [intros n0 s0 _ []|]. apply SEQ; [apply ONE|apply RO|exact IH]. }
    unfold fisher_stage. cbn [trace]. destruct n as [|n]; [intros []|].
    assert (L' : R (fst (step (PMkdir (base_dir rd)) s))).
    { unfold R. rewrite <- L. apply (touch_kept rd (store_file rd)); [reflexivity|apply base_file_store|apply base_file_store|apply base_file_base]. }
    destruct (step (PMkdir (base_dir rd)) s) as [s' [u|e]]; cbn [fst] in L'; [|intros [E|[]]; discriminate E].
    intros [E|H]; [discriminate E|]. revert H. apply SEQ; [apply ALL|apply RA| |exact L'].
    intros n0 s0 H0. destruct sel as [l|e]; [|intros []]. apply SEQ; [apply ALL|apply RA| |exact H0].
    intros n1 s1 H1. destruct ist as [f|e]; [|intros []]. apply TR, WR.
  Qed.

  (** A file cut short stays cut short: no number of restarts gives the files
      of the uninterrupted run. *)
  Theorem C60_cut_file_never_repaired l f (m sF : fs (h5 F)) b c rest :
    lookup m (fisher_file rd b) = Some (NFile c) -> rest <> [] -> lookup sF (fisher_file rd b) = Some (NFile (c ++ rest)) ->
    forall ns, let m' := fst (exec step (stage (Ok l) (Ok f)) (restarts step (stage (Ok l) (Ok f)) ns m)) in
      lookup m' (fisher_file rd b) = Some (NFile c) /\ m' <> sF.
  Proof.
    intros Lm Nr Ls ns m'.
    assert (H : forall s, lookup s (fisher_file rd b) = Some (NFile c) -> lookup (restarts step (stage (Ok l) (Ok f)) ns s) (fisher_file rd b) = Some (NFile c)).
    { unfold restarts. clear m'. induction ns as [|n ns' IH]; intros s Hs; [exact Hs|]. cbn [fold_left]. apply IH. apply stage_persist; [apply in_base_fisher|exact Hs]. }
    specialize (H m Lm). assert (X : lookup m' (fisher_file rd b) = Some (NFile c)).
    { unfold m'. clear m'. set (m' := restarts step (stage (Ok l) (Ok f)) ns m) in *. destruct (exec step (stage (Ok l) (Ok f)) m') as [s1 r] eqn:E. cbn [fst].
      destruct (exec_crash rd _ _ _ _ E) as (i & <-). apply stage_persist; [apply in_base_fisher|exact H]. }
    split; [exact X|]. intros E. rewrite E, Ls in X. injection X as Q. rewrite <- (app_nil_r c) in Q at 2. apply app_inv_head in Q. exact (Nr Q).
  Qed.

  (** Running the completed stage again raises FileExistsError, because of the
      last file (and changes nothing). *)
  Theorem C60_second_run_raises l f s0 sF : exec step (stage (Ok l) (Ok f)) s0 = (sF, Ok tt) -> exec step (stage (Ok l) (Ok f)) sF = (sF, Err EFileExists).
  Proof.
    intros E. destruct (stage_parts rd auto_calc cross_calc l f s0 sF E) as (s1 & sN & M0 & B1 & A & W).
    destruct (write_crash rd (ist_file rd) f sN sF (base_file_nonempty rd _) W) as (_ & LF & _).
    destruct (exec_crash rd _ _ _ _ A) as (iA & EA). destruct (exec_crash rd _ _ _ _ W) as (iW & EW).
    assert (BF : lookup sF (base_dir rd) = Some NDir).
    { rewrite <- EW. apply (ops_in_inv step (touches rd (ist_file rd)) (fun s => lookup s (base_dir rd) = Some NDir)); [|apply ops_write|].
      - intros o s T Ls. apply (touch_base rd (ist_file rd)); [exact T|apply base_file_base|exact Ls].
      - rewrite <- EA. apply all_base. exact B1. }
    rewrite (proj1 (stage_exec rd auto_calc cross_calc l f sF BF)). rewrite exec_andthen.
    assert (SK : forall L0 s, exec step (save_all rd auto_calc cross_calc L0) s = (sN, Ok tt) -> exec step (save_all rd auto_calc cross_calc L0) sF = (sF, Ok tt)).
    { induction L0 as [|b L0 IH]; intros s Es; [reflexivity|]. change (save_all rd auto_calc cross_calc (b :: L0)) with (andthen (save_one rd auto_calc cross_calc b) (save_all rd auto_calc cross_calc L0)) in *.
      rewrite exec_andthen in *. destruct (exec step (save_one rd auto_calc cross_calc b) s) as [s2 [[]|e]] eqn:E1; [|discriminate].
      destruct (one_parses _ _ _ _ _ _ E1) as (dv & Ed). destruct (one_exists _ _ _ _ _ _ E1) as (x & L1).
      assert (LN : lookup sF (fisher_file rd b) = Some x).
      { rewrite <- EW. apply write_persist; [apply in_base_fisher|]. destruct (exec_crash rd _ _ _ _ Es) as (i & <-). apply all_persist; [apply in_base_fisher|exact L1]. }
      rewrite (proj1 (one_skip rd auto_calc cross_calc b sF x dv Ed LN)). exact (IH _ Es). }
    rewrite (SK _ _ A). unfold write_fisher. cbn [exec]. unfold write_ops, p_exists. rewrite LF. reflexivity.
  Qed.

  (** The batch form takes an existing table file for complete: if it holds
      fewer than three tables, every restart fails at once. *)
  Theorem C60_batch_restart_refuted auto b cross (s : fs (h5 F)) (d : h5 F) dv :
    lookup s (base_dir rd) = Some NDir -> lookup s (store_file rd) = Some (NFile d) -> length d < 3 ->
    dv_from_brief b = Ok dv -> is_single_auto dv = Ok false -> lookup s (fisher_file rd b) = None ->
    exec step (batch false auto (b :: cross)) s = (s, Err EException) /\ forall ns, restarts step (batch false auto (b :: cross)) ns s = s.
  Proof.
    intros B L N Ed Es Lb.
    assert (D : Nat.ltb (length d) 3 = true) by (apply Nat.ltb_lt; exact N).
    assert (MK : step (PMkdir (base_dir rd)) s = (s, Ok tt)) by (apply mkdir_skip; exact B).
    assert (Ex : p_exists s (store_file rd) = true) by (unfold p_exists; rewrite L; reflexivity).
    assert (Eb : p_exists s (fisher_file rd b) = false) by (unfold p_exists; rewrite Lb; reflexivity).
    assert (R : forall n, fst (run step (batch false auto (b :: cross)) n s) = s /\ exec step (batch false auto (b :: cross)) s = (s, Err EException)).
    { intros n. unfold batch_stage. cbn [clear_output andthen each fold_right]. cbn [run exec]. rewrite MK.
      rewrite Ex. cbn [andthen]. unfold fisher_job, save_all. cbn [each fold_right andthen run exec]. rewrite MK.
      unfold save_one. rewrite Ed. cbn [andthen run exec]. rewrite Eb. cbn [andthen run exec pstep]. unfold compute_fisher. rewrite Es. cbn [andthen run exec].
      unfold p_read. rewrite L, D. cbn [andthen run exec]. split; [|reflexivity].
      destruct n as [|n]; [reflexivity|]. destruct n as [|n]; [reflexivity|]. destruct n as [|n]; reflexivity. }
    split; [apply (R 0)|]. intros ns. unfold restarts. induction ns as [|n ns IH]; [reflexivity|]. cbn [fold_left]. unfold crash at 2. rewrite (proj1 (R n)). exact IH.
  Qed.
End C60.

(** ** The derivative stage *)
Section C61.
  Context {V : Type}.
  Variable rd : path.
  Variable calc : string -> res V.
  Notation step := (dstep (V := V) rd).
  Notation stage := (derivative_stage rd calc).
  Notation compute := (compute_ders calc).
  Implicit Types s m : fs (pickle (V := V)).

  Lemma der_parent : removelast (der_dir rd) = rd.
  Proof. apply removelast_last. Qed.
  Lemma ders_parent : removelast (ders_file rd) = der_dir rd.
  Proof. apply removelast_last. Qed.
  Lemma der_nonempty : der_dir rd <> [].
  Proof. unfold der_dir. destruct rd; discriminate. Qed.
  Lemma ders_nonempty : ders_file rd <> [].
  Proof. unfold ders_file. destruct (der_dir rd); discriminate. Qed.
  Lemma ders_der : ders_file rd <> der_dir rd.
  Proof. intros E. pose proof ders_nonempty as N. apply removelast_neq in N. rewrite ders_parent in N. congruence. Qed.

  (** The derivatives of all parameters, in order. *)
  Fixpoint all_ders (todo : list string) (acc : dict string V) : res (dict string V) :=
    match todo with
    | [] => Ok acc
    | x :: r => v <- calc x ;; all_ders r (dset String.eqb acc x v)
    end.

  Lemma isdir_der (s : fs (pickle (V := V))) : p_isdir s (der_dir rd) = true <-> lookup s (der_dir rd) = Some NDir.
  Proof.
    unfold p_isdir. pose proof der_nonempty as N. destruct (der_dir rd) as [|x l]; [congruence|].
    destruct (lookup s (x :: l)) as [[|c]|]; split; congruence.
  Qed.
  (** In a state with the directory the stage makes no operation. *)
  Lemma stage_there s free : lookup s (der_dir rd) = Some NDir -> forall n, crash step (stage free) n s = s /\ exec step (stage free) s =
    (s, match lookup s (ders_file rd) with Some (NFile (Some d)) => Ok d | Some (NFile None) => Err EException | Some NDir => Err EOSError | None => Err EFileNotFound end).
  Proof.
    intros L n. unfold crash, derivative_stage. cbn [run exec]. rewrite (proj2 (isdir_der s) L). unfold p_read.
    destruct (lookup s (ders_file rd)) as [[|[d|]]|]; split; reflexivity.
  Qed.
  (** The computation in a directory without the file. *)
  Lemma compute_run todo : forall acc s d, lookup s (der_dir rd) = Some NDir -> lookup s (ders_file rd) = None -> all_ders todo acc = Ok d ->
    exists sO sF : fs (pickle (V := V)), lookup sO (der_dir rd) = Some NDir /\ lookup sO (ders_file rd) = Some (NFile None) /\
      lookup sF (der_dir rd) = Some NDir /\ lookup sF (ders_file rd) = Some (NFile (Some d)) /\
      exec step (compute todo acc) s = (sF, Ok d) /\
      forall n, crash step (compute todo acc) n s = if (n <=? length todo)%nat then s else if (n =? S (length todo))%nat then sO else sF.
  Proof.
    assert (W : forall c s, lookup s (der_dir rd) = Some NDir -> lookup s (ders_file rd) <> Some NDir -> p_write (ders_file rd) c s = (dset sl_eqb s (ders_file rd) (NFile c), Ok tt)).
    { intros c s L N. apply write_ok; [apply ders_nonempty|rewrite ders_parent; apply isdir_der; exact L|exact N]. }
    induction todo as [|x r IH]; intros acc s d L N E.
    - injection E as <-. set (sO := dset sl_eqb s (ders_file rd) (NFile (None : pickle (V := V)))).
      assert (LO : lookup sO (der_dir rd) = Some NDir) by (unfold sO; rewrite lookup_set_other; [exact L|apply not_eq_sym, ders_der]).
      assert (FO : lookup sO (ders_file rd) = Some (NFile None)) by apply lookup_set_same.
      set (sF := dset sl_eqb sO (ders_file rd) (NFile (Some acc : pickle))).
      assert (LF : lookup sF (der_dir rd) = Some NDir) by (unfold sF; rewrite lookup_set_other; [exact LO|apply not_eq_sym, ders_der]).
      exists sO, sF. split; [exact LO|]. split; [exact FO|]. split; [exact LF|]. split; [apply lookup_set_same|].
      assert (W1 : step DOpen s = (sO, Ok tt)) by (apply W; [exact L|congruence]).
      assert (W2 : step (DDump acc) sO = (sF, Ok tt)) by (apply W; [exact LO|congruence]).
      unfold crash. cbn [compute_ders exec run length]. rewrite W1. cbn [exec run]. rewrite W2. cbn [exec]. split; [reflexivity|].
      intros [|[|n]]; reflexivity.
    - cbn [all_ders] in E. destruct (calc x) as [v|e] eqn:C; [|discriminate]. cbn [rbind] in E.
      destruct (IH _ s d L N E) as (sO & sF & H1 & H2 & H3 & H4 & H5 & H6). exists sO, sF. split; [exact H1|]. split; [exact H2|]. split; [exact H3|]. split; [exact H4|].
      cbn [compute_ders exec length]. rewrite C. cbn [dstep]. split; [exact H5|].
      intros [|n]; [apply crash_0|]. unfold crash. cbn [run dstep]. specialize (H6 n). unfold crash in H6. rewrite H6. reflexivity.
  Qed.
  Lemma compute_fails todo : forall acc s e, all_ders todo acc = Err e -> exec step (compute todo acc) s = (s, Err e).
  Proof.
    induction todo as [|x r IH]; intros acc s e E; [discriminate|]. cbn [all_ders] in E. cbn [compute_ders exec dstep].
    destruct (calc x) as [v|e']; [exact (IH _ _ _ E)|]. cbn [rbind] in E. injection E as ->. reflexivity.
  Qed.

  (** A new run directory: it exists, without the directory of derivatives. *)
  Definition fresh (s : fs (pickle (V := V))) : Prop :=
    p_isdir s rd = true /\ lookup s (der_dir rd) = None /\ lookup s (ders_file rd) = None.
  Lemma fresh_mkdir s : fresh s -> exists s', step DMkdir s = (s', Ok tt) /\ lookup s' (der_dir rd) = Some NDir /\ lookup s' (ders_file rd) = None.
  Proof.
    intros (D & L & N). exists (dset sl_eqb s (der_dir rd) NDir). split; [|split].
    - cbn [dstep]. unfold p_mkdir. pose proof der_nonempty as Nd. pose proof der_parent as P. destruct (der_dir rd) as [|x l]; [congruence|].
      rewrite L, P, D. reflexivity.
    - apply lookup_set_same.
    - rewrite lookup_set_other; [exact N|apply ders_der].
  Qed.
  Lemma fresh_not_there s : fresh s -> p_isdir s (der_dir rd) = false.
  Proof. intros (_ & L & _). destruct (p_isdir s (der_dir rd)) eqn:E; [|reflexivity]. apply isdir_der in E. congruence. Qed.

  (** The uninterrupted stage returns the derivatives of the free parameters
      and stores them; running it again returns the same. *)
  Theorem C61_completes free s d : fresh s -> all_ders free [] = Ok d -> exists sF, exec step (stage free) s = (sF, Ok d) /\
    lookup sF (ders_file rd) = Some (NFile (Some d)) /\ exec step (stage free) sF = (sF, Ok d).
  Proof.
    intros Fr E. destruct (fresh_mkdir s Fr) as (s1 & M & L1 & N1). destruct (compute_run free [] s1 d L1 N1 E) as (sO & sF & _ & _ & H3 & H4 & H5 & _).
    exists sF. split; [|split; [exact H4|]].
    - unfold derivative_stage. cbn [exec]. rewrite fresh_not_there by exact Fr. cbn [exec]. rewrite M. exact H5.
    - rewrite (proj2 (stage_there sF free H3 0)), H4. reflexivity.
  Qed.

  (** Interrupted after [n] operations and run again: the stage is completed if
      and only if nothing, or everything, had been done. *)
  Theorem C61_restart_exact free s d sF : fresh s -> all_ders free [] = Ok d -> exec step (stage free) s = (sF, Ok d) -> forall n,
    exec step (stage free) (crash step (stage free) n s) = (sF, Ok d) <-> n = 0 \/ length free + 3 <= n.
  Proof.
    intros Fr E X n. destruct (fresh_mkdir s Fr) as (s1 & M & L1 & N1). destruct (compute_run free [] s1 d L1 N1 E) as (sO & sF' & H1 & H2 & H3 & H4 & H5 & H6).
    assert (sF' = sF) as ->.
    { unfold derivative_stage in X. cbn [exec] in X. rewrite fresh_not_there in X by exact Fr. cbn [exec] in X. rewrite M in X. congruence. }
    destruct n as [|n]; [rewrite crash_0; split; [left; reflexivity|intros _; exact X]|].
    assert (C : crash step (stage free) (S n) s = crash step (compute free []) n s1).
    { unfold crash, derivative_stage. cbn [run]. rewrite fresh_not_there by exact Fr. cbn [run]. rewrite M. reflexivity. }
    rewrite C, H6. destruct (Nat.leb_spec n (length free)) as [Le|Gt].
    - rewrite (proj2 (stage_there s1 free L1 0)), N1. split; [discriminate|intros [H|H]; lia].
    - destruct (Nat.eqb_spec n (S (length free))) as [->|Ne].
      + rewrite (proj2 (stage_there sO free H1 0)), H2. split; [discriminate|intros [H|H]; lia].
      + rewrite (proj2 (stage_there sF free H3 0)), H4. split; [intros _; right; lia|reflexivity].
  Qed.

  (** At every other point the run directory is unusable: every later run, any
      number of them and interrupted or not, raises. *)
  Theorem C61_interrupted_refuted free s d n : fresh s -> all_ders free [] = Ok d -> 0 < n < length free + 3 -> forall ns,
    exists e, exec step (stage free) (restarts step (stage free) ns (crash step (stage free) n s)) = (crash step (stage free) n s, Err e).
  Proof.
    intros Fr E N ns. destruct (fresh_mkdir s Fr) as (s1 & M & L1 & N1). destruct (compute_run free [] s1 d L1 N1 E) as (sO & sF & H1 & H2 & H3 & H4 & H5 & H6).
    destruct n as [|n]; [lia|].
    assert (C : crash step (stage free) (S n) s = crash step (compute free []) n s1).
    { unfold crash, derivative_stage. cbn [run]. rewrite fresh_not_there by exact Fr. cbn [run]. rewrite M. reflexivity. }
    assert (ST : forall m, lookup m (der_dir rd) = Some NDir -> restarts step (stage free) ns m = m).
    { intros m Lm. unfold restarts. induction ns as [|k ns IH]; [reflexivity|]. cbn [fold_left]. rewrite (proj1 (stage_there m free Lm k)). exact IH. }
    rewrite C, H6. destruct (Nat.leb_spec n (length free)) as [Le|Gt].
    - exists EFileNotFound. rewrite ST by exact L1. rewrite (proj2 (stage_there s1 free L1 0)), N1. reflexivity.
    - destruct (Nat.eqb_spec n (S (length free))) as [->|Ne]; [|lia].
      exists EException. rewrite ST by exact H1. rewrite (proj2 (stage_there sO free H1 0)), H2. reflexivity.
  Qed.
  (** So does a derivative that raises: the next run reports a missing file
      instead. *)
  Theorem C61_failure_blocks_reruns free s e : fresh s -> all_ders free [] = Err e -> exists s1,
    exec step (stage free) s = (s1, Err e) /\ exec step (stage free) s1 = (s1, Err EFileNotFound).
  Proof.
    intros Fr E. destruct (fresh_mkdir s Fr) as (s1 & M & L1 & N1). exists s1. split.
    - unfold derivative_stage. cbn [exec]. rewrite fresh_not_there by exact Fr. cbn [exec]. rewrite M. apply compute_fails. exact E.
    - rewrite (proj2 (stage_there s1 free L1 0)), N1. reflexivity.
  Qed.
End C61.

(** ** Witnesses *)
From Coq Require Import QArith Qcanon. Close Scope Qc_scope. Close Scope Q_scope.
Section Witness.
  #[local] Existing Instance id_order.
  Definition ex_fish : fisher Qc := new_fisher (mkF ["Om"; "s8"]%string ["Om"; "s8"]%string (fun _ _ => Some (qz 1))) "[x]" ["Om"; "s8"]%string [] true.
  Definition ex_auto (dv : dvec) : res (dval Qc * res (fisher Qc)) := Ok (DMatrix [[Some (qz 1)]], Ok ex_fish).
  Definition ex_cross (dv : dvec) (d : dict string (dval Qc)) : res (fisher Qc) := Ok ex_fish.
  Definition ex_rd : path := ["run"%string].
  Definition ex_s0 : fs (h5 Qc) := [(ex_rd, NDir)].
  Definition ex_stage := fisher_stage ex_rd ex_auto ex_cross (Ok ["wlwl_phph"]%string) (Ok ex_fish).
  Notation step := (pstep (F := Qc) ex_rd).
  Definition ex_F := fst (exec step ex_stage ex_s0).

  (** The uninterrupted run succeeds and all its files can be read. *)
  Example C60_instance : snd (exec step ex_stage ex_s0) = Ok tt /\
    forallb (fun b => match fisher_load H2 (fisher_file ex_rd b) ex_F with Ok _ => true | Err _ => false end) ["phph"; "spsp"; "wlwl"; "wlwl_phph"; "IST_gcsp_pk"]%string = true.
  Proof. vm_compute. split; reflexivity. Qed.
  (** Interrupted twice where it does no harm: in the table file, and between
      two files (operations 3 and 10). *)
  Example C60_restart_instance : let m := restarts step ex_stage [3; 10] ex_s0 in
    lookup m (ist_file ex_rd) = None /\ snd (exec step ex_stage m) = Ok tt /\ p_exists m (fisher_file ex_rd "phph") = true /\ p_exists m (fisher_file ex_rd "spsp") = false.
  Proof. vm_compute. repeat split; reflexivity. Qed.
  (** Interrupted while the first file is written: the next run reports success,
      skips the file, and it can never be read. *)
  Theorem C60_interrupted_write_refuted : exists n, let m := crash step ex_stage n ex_s0 in
    snd (exec step ex_stage m) = Ok tt /\ fisher_load H2 (fisher_file ex_rd "phph") (fst (exec step ex_stage m)) = Err EKeyError /\
    (exists f, fisher_load H2 (fisher_file ex_rd "phph") ex_F = Ok f).
  Proof. exists 7. vm_compute. split; [reflexivity|]. split; [reflexivity|]. eexists. reflexivity. Qed.
  (** The hypotheses of the batch theorem are met after an interruption of the
      first job. *)
  Example C60_batch_instance : let st := batch_stage ex_rd ex_auto ex_cross false auto_briefs ["wlwl_phph"]%string in let m := crash step st 6 ex_s0 in
    lookup m (base_dir ex_rd) = Some NDir /\ (exists d, lookup m (store_file ex_rd) = Some (NFile d) /\ length d < 3) /\ lookup m (fisher_file ex_rd "wlwl_phph") = None /\
    (exists dv, dv_from_brief "wlwl_phph" = Ok dv /\ is_single_auto dv = Ok false) /\ snd (exec step st ex_s0) = Ok tt /\ snd (exec step st m) = Err EException.
  Proof.
    cbv zeta. split; [vm_compute; reflexivity|]. split; [eexists; split; [vm_compute; reflexivity|cbn; lia]|]. split; [vm_compute; reflexivity|].
    split; [eexists; split; vm_compute; reflexivity|]. split; vm_compute; reflexivity.
  Qed.
  Example C61_instance : let s : fs (pickle (V := nat)) := [(ex_rd, NDir)] in fresh ex_rd s /\ all_ders (fun _ => Ok 1) ["Om"; "s8"]%string [] = Ok [("Om"%string, 1); ("s8"%string, 1)] /\
    all_ders (fun x => if String.eqb x "s8" then Err EValueError else Ok 1) ["Om"; "s8"]%string [] = Err EValueError.
  Proof. repeat split. Qed.
End Witness.

Print Assumptions C60_restart_exact.
Print Assumptions C60_existing_not_recomputed.
Print Assumptions C60_cut_file_never_repaired.
Print Assumptions C60_second_run_raises.
Print Assumptions C60_batch_restart_refuted.
Print Assumptions C60_interrupted_write_refuted.
Print Assumptions C61_completes.
Print Assumptions C61_restart_exact.
Print Assumptions C61_interrupted_refuted.
Print Assumptions C61_failure_blocks_reruns.
