(** Lemmas for OutModel: when writing succeeds. *)
From Verif Require Import Base SortLib StrLib FrameModel FrameLemmas FisherModel FisherSpec FisherLemmas FsModel FisherFileModel FileLemmas2 TableModel NameModel
  HeapModel ResultsModel ResultsSpec HeapLemmas ResultsLemmas OutModel OutLemmas OutLemmas2 OutLemmas3.
Open Scope list_scope.

Section Total.
  Context {F : Type} {K : Fld F} {O : OFld (F := F)} {S : SqrtFld F} {SO : SetOrder}.
  Context (csv xlsx : table (F := F) -> h5 F).
  Implicit Types s : fs (h5 F).

  (** No file is in the way of directory [p]. *)
  Definition free_way s (p : path) : Prop := forall q r, p = q ++ r -> q <> [] -> lookup s q = None \/ lookup s q = Some NDir.
  Lemma isdir_lookup s (p : path) : p <> [] -> p_isdir s p = true -> lookup s p = Some NDir.
  Proof. intros N. unfold p_isdir. destruct p; [congruence|]. destruct (lookup s _) as [[|]|]; [reflexivity|discriminate|discriminate]. Qed.
  Lemma mkdirs_there p s : p_isdir s p = true -> p_mkdirs p s = (s, Ok tt).
  Proof.
    unfold p_mkdirs. destruct p as [|x p] using rev_ind; [reflexivity|]. clear IHp. intros D. rewrite rev_app_distr. cbn [rev app mkdirs_rev]. rewrite rev_involutive.
    assert (N : p ++ [x] <> []) by (destruct p; discriminate). apply (isdir_lookup _ _ N) in D. unfold p_mkdir. destruct (p ++ [x]) eqn:E; [congruence|]. rewrite D. reflexivity.
  Qed.
  Lemma mkdirs_total rp : forall s, free_way s (rev rp) -> snd (mkdirs_rev rp s) = Ok tt.
  Proof.
    induction rp as [|x rp IH]; intros s W; [reflexivity|]. cbn [mkdirs_rev].
    assert (N : rev (x :: rp) <> []) by (cbn; destruct (rev rp); discriminate).
    assert (Rl : removelast (rev (x :: rp)) = rev rp) by (cbn; apply removelast_last).
    destruct (W (rev (x :: rp)) []) as [L|L]; [rewrite app_nil_r; reflexivity|exact N| |].
    - unfold p_mkdir at 1. destruct (rev (x :: rp)) as [|y p] eqn:Ep; [congruence|]. rewrite L, Rl. destruct (p_isdir s (rev rp)) eqn:D; [reflexivity|].
      assert (Wr : free_way s (rev rp)) by (intros q r Eq; apply (W q (r ++ [x])); rewrite app_assoc, <- Eq, <- Ep; reflexivity).
      specialize (IH s Wr). pose proof (mkdirs_isdir rp s IH) as D2. pose proof (mkdirs_adds rp s (y :: p)) as A. destruct (mkdirs_rev rp s) as [s2 [[]|e]]; [|discriminate IH]. cbn [fst snd] in *.
      unfold p_mkdir. destruct A as [A|((r & A) & _)].
      + rewrite A, L, Rl, D2. reflexivity.
      + exfalso. apply (f_equal (@length _)) in A. rewrite app_length, <- Ep in A. cbn in A. rewrite app_length in A. cbn in A. lia.
    - unfold p_mkdir. destruct (rev (x :: rp)) as [|y p] eqn:Ep; [congruence|]. rewrite L. reflexivity.
  Qed.
  Lemma write_total outdir ow (f : fisher F) s : p_isdir s outdir = true -> lookup s (file_of outdir f) = None -> exists s1, fisher_write (Some outdir) None ow false f s = (s1, Ok tt) /\ kept (eq (file_of outdir f)) s s1.
  Proof.
    intros D L. unfold fisher_write. cbn [out_path]. fold (file_of outdir f). assert (Np : file_of outdir f <> []) by (unfold file_of; destruct outdir; discriminate).
    assert (Dp : p_isdir s (removelast (file_of outdir f)) = true) by (unfold file_of; rewrite removelast_last; exact D).
    destruct (write_new ow false f s (file_of outdir f) Np Dp L) as (s2 & l2 & E1 & E2 & _ & K2). rewrite E1, E2. exists s2. auto.
  Qed.
  Lemma isdir_kept s s' (d : path) : lookup s' d = lookup s d -> p_isdir s' d = p_isdir s d.
  Proof. intros E. unfold p_isdir. rewrite E. reflexivity. Qed.
  Lemma snoc_neq (d : path) n : d ++ [n] <> d.
  Proof. intros E. apply (f_equal (@length _)) in E. rewrite app_length in E. cbn in E. lia. Qed.
  Lemma save_fishers_total outdir ow (d : odict) : forall (h : heap F) s l, p_isdir s outdir = true -> Forall2 (fun ka f => view h (snd ka) = Some f) d l ->
    NoDup (map (file_of outdir) l) -> (forall f, In f l -> lookup s (file_of outdir f) = None) ->
    snd (peach (fun ka => save_fisher outdir ow (snd ka)) d (h, s)) = Ok tt.
  Proof.
    induction d as [|[k a] d IH]; intros h s l D Fa N L; [reflexivity|]. inversion Fa as [|? f ? l' V Fa']; subst. cbn [peach snd]. unfold pbind at 1, save_fisher at 1. cbn [fst]. cbn [snd] in V.
    rewrite (proj2 (hget_view _ _ _) V). unfold on_disk. cbn [fst snd]. destruct (write_total outdir ow f s D (L f (or_introl eq_refl))) as (s1 & Wt & Kt). rewrite Wt.
    cbn in N. inversion N as [|? ? Nf N']; subst. apply (IH h s1 l').
    - rewrite (isdir_kept s s1 outdir); [exact D|]. apply (Kt outdir). apply snoc_neq.
    - exact Fa'.
    - exact N'.
    - intros g Hg. rewrite Kt; [apply L; right; exact Hg|]. intros E. apply Nf. rewrite E. apply in_map; exact Hg.
  Qed.
  Lemma table_total (t : table (F := F)) (d : path) n ow s : p_isdir s d = true -> lookup s (d ++ [n]) = None -> suffix n = ".csv"%string \/ suffix n = ".xlsx"%string ->
    snd (write_table csv xlsx t (d ++ [n]) ow s) = Ok tt.
  Proof.
    intros D L Sf. unfold write_table. rewrite last_last.
    assert (X : p_isdir s (d ++ [n]) || p_exists s (d ++ [n]) = false) by (unfold p_isdir, p_exists; rewrite L; destruct d; reflexivity). rewrite X. cbn [negb orb].
    assert (W : forall c, snd (p_write (d ++ [n]) c s) = Ok tt).
    { intros c. unfold p_write. rewrite removelast_last, D. cbn [negb]. destruct (d ++ [n]) eqn:E; [destruct d; discriminate|]. rewrite L. reflexivity. }
    destruct Sf as [-> | ->]; cbn [String.eqb Ascii.eqb Bool.eqb]; apply W.
  Qed.
  Lemma save_tables_total outdir ow an te tr (h : heap F) s : an_errs an = Some te -> an_rel an = Some tr -> p_isdir s outdir = true ->
    (forall n, In n table_names -> lookup s (outdir ++ [n]) = None) -> snd (save_tables csv xlsx outdir ow an (h, s)) = Ok tt.
  Proof.
    intros E1 E2 D L. unfold save_tables. rewrite E1, E2. unfold save_table.
    assert (Step : forall t n ns s A (k : unit -> P (F := F) A) x, NoDup (n :: ns) -> p_isdir s outdir = true -> (forall m, In m (n :: ns) -> lookup s (outdir ++ [m]) = None) ->
      suffix n = ".csv"%string \/ suffix n = ".xlsx"%string ->
      (forall s', p_isdir s' outdir = true -> (forall m, In m ns -> lookup s' (outdir ++ [m]) = None) -> snd (k tt (h, s')) = Ok x) ->
      snd (pbind (on_disk (write_table csv xlsx t (outdir ++ [n]) ow)) k (h, s)) = Ok x).
    { intros t n ns s0 A k x N D0 L0 Sf H. unfold pbind, on_disk. cbn [fst snd]. pose proof (table_total t outdir n ow s0 D0 (L0 n (or_introl eq_refl)) Sf) as Wt.
      destruct (table_kept csv xlsx t (outdir ++ [n]) ow s0) as (Kt & _). destruct (write_table csv xlsx t (outdir ++ [n]) ow s0) as [s1 [[]|e]]; [|discriminate Wt]. cbn [fst snd] in *.
      inversion N as [|? ? Nn _]; subst. apply H.
      - rewrite (isdir_kept s0 s1 outdir); [exact D0|]. apply (Kt outdir). apply snoc_neq.
      - intros m Hm. rewrite Kt; [apply L0; right; exact Hm|]. intros E. apply app_inj_tail in E. destruct E as [_ ->]. exact (Nn Hm). }
    assert (Nt : NoDup table_names) by (repeat constructor; cbn; intuition discriminate). unfold table_names in *.
    eapply (Step te _ _ s); [exact Nt|exact D|exact L|right; reflexivity|]. clear s D L. intros s D L. inversion Nt as [|? ? _ Nt1]; subst. clear Nt.
    eapply (Step te _ _ s); [exact Nt1|exact D|exact L|left; reflexivity|]. clear s D L. intros s D L. inversion Nt1 as [|? ? _ Nt2]; subst. clear Nt1.
    eapply (Step tr _ _ s); [exact Nt2|exact D|exact L|right; reflexivity|]. clear s D L. intros s D L.
    pose proof (table_total tr outdir _ ow s D (L _ (or_introl eq_refl)) (or_introl eq_refl)) as Wt. unfold on_disk. cbn [fst snd].
    destruct (write_table csv xlsx tr _ ow s) as [s1 r]. exact Wt.
  Qed.
  Lemma peach_total {X} (I : list X -> st (F := F) -> Prop) (f : X -> P (F := F) unit) :
    (forall x l t, I (x :: l) t -> exists t', f x t = (t', Ok tt) /\ I l t') -> forall l t, I l t -> exists t', peach f l t = (t', Ok tt) /\ I [] t'.
  Proof.
    intros H. induction l as [|x l IH]; intros t Ht; [exists t; split; [reflexivity|exact Ht]|]. destruct (H x l t Ht) as (t1 & E1 & H1). destruct (IH t1 H1) as (t2 & E2 & H2').
    exists t2. split; [|exact H2']. cbn [peach]. unfold pbind. rewrite E1. exact E2.
  Qed.

  (** Paths no longer than those of the result directories only become
      directories. *)
  Definition shallow (main : path) (t t' : st (F := F)) : Prop := forall q, length q <= 2 + length main ->
    lookup (snd t') q = lookup (snd t) q \/ (lookup (snd t) q = None /\ lookup (snd t') q = Some NDir).
  Lemma shallow_rt main : rt (shallow main).
  Proof.
    split; [intros t q _; left; reflexivity|]. intros t1 t2 t3 A B q L. destruct (A q L) as [E|(E1 & E2)], (B q L) as [E'|(E1' & E2')]; [left; congruence|right; split; congruence|right; split; congruence|congruence].
  Qed.
  Lemma mkdirs_shallow main p s (h : heap F) : shallow main (h, s) (h, fst (p_mkdirs p s)).
  Proof. intros q _. cbn [snd]. unfold p_mkdirs. destruct (mkdirs_adds (rev p) s q) as [E|(_ & E)]; auto. Qed.
  Lemma save_results_shallow base fids posts main ow cosmology mb fx : pres (shallow main) (save_results csv xlsx base fids posts main ow cosmology mb fx).
  Proof.
    apply save_results_pres; [apply shallow_rt|intros h d q _; left; reflexivity|intros h d; apply mkdirs_shallow| |].
    - intros h d f q L. left. cbn [snd]. apply fisher_write_kept. intros E. apply (f_equal (@length _)) in E. unfold out_dir in E. rewrite !app_length in E. cbn in E. lia.
    - intros h d t n _ q L. left. cbn [snd]. apply table_kept. intros E. apply (f_equal (@length _)) in E. unfold out_dir in E. rewrite !app_length in E. cbn in E. lia.
  Qed.
End Total.
