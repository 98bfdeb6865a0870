(** Property C103: the final results of a run on disk. *)
From Verif Require Import Base MatInv LabLin SortLib StrLib FrameModel FrameLemmas FisherModel FisherSpec FisherLemmas FisherLemmas2 FisherLemmas5 FsModel FisherFileModel FileLemmas2 TableModel NameModel
  HeapModel ResultsModel ResultsSpec HeapLemmas ResultsLemmas ResultsLemmas2 ResultsLemmas3 ResultsProps ResultsProps2 OutModel OutLemmas OutLemmas2 OutLemmas3.
From Coq Require Import Permutation.
Open Scope list_scope.

Section Props.
  Context {F : Type} {K : Fld F} {O : OFld (F := F)} {S : SqrtFld F} {SO : SetOrder}.
  Context (csv xlsx : table (F := F) -> h5 F).
  Implicit Types s : fs (h5 F).
  Implicit Types f g : fisher F.

  (** A directory holds a matrix in one of its files; every file of it is
      readable and no two hold matrices of one name. *)
  Definition holds s (d : path) f : Prop := p_isdir s d = true /\ exists n, is_fisher_file n = true /\ fisher_load H2 (d ++ [n]) s = Ok f.
  Definition sound s (d : path) : Prop :=
    (forall n, is_fisher_file n = true -> p_exists s (d ++ [n]) = true -> exists f, fisher_load H2 (d ++ [n]) s = Ok f /\ wf f) /\
    (forall n n' f f', is_fisher_file n = true -> is_fisher_file n' = true -> fisher_load H2 (d ++ [n]) s = Ok f -> fisher_load H2 (d ++ [n']) s = Ok f' ->
       fname f = fname f' -> n = n').
  (** A file can be loaded as (a matrix equal to) [f]. *)
  Definition stored s (p : path) f : Prop := exists g, fisher_load H2 p s = Ok g /\ same g f /\ wf g /\ fname g = fname f.
  (** Combinations. *)
  Definition comb := (string * list (bool * string))%type.
  Definition cname (c : comb) : string := comb_text (fst c) (snd c).
  Definition needs (c : comb) (n : string) : Prop := n = fst c \/ In n (map snd (snd c)).
  Definition available s (d : path) (n : string) : Prop := exists f, holds s d f /\ fname f = n.
  (** The names of the results. *)
  Definition result_name s (d : path) (cs : list comb) (k : string) : Prop :=
    available s d k \/ exists c, In c cs /\ k = cname c /\ forall n, needs c n -> available s d n.
  Definition cvalue (treat : string -> fisher F) (c : comb) : fisher F :=
    comb_value (treat (fst c)) (map (fun on => (fst on, treat (snd on))) (snd c)).

  Lemma load_exists v p s f : fisher_load v p s = Ok f -> p_exists s p = true.
  Proof. unfold fisher_load, p_read, p_exists. destruct (lookup s p) as [[|c]|]; [discriminate|reflexivity|discriminate]. Qed.
  Lemma load_lookup v p s s' : lookup s' p = lookup s p -> fisher_load v p s' = fisher_load v p s.
  Proof. intros E. unfold fisher_load, p_read. rewrite E. reflexivity. Qed.
  Lemma holds_files s d f : holds s d f <-> exists n, In n (fisher_files d s) /\ fisher_load H2 (d ++ [n]) s = Ok f.
  Proof.
    split.
    - intros (D & n & Hn & L). exists n. rewrite files_In. split; [|exact L]. split; [exact D|]. split; [exact Hn|]. exact (load_exists _ _ _ _ L).
    - intros (n & Hn & L). apply files_In in Hn. destruct Hn as (D & Hn & _). split; [exact D|]. exists n. auto.
  Qed.

  (** The matrices of a directory, in the order they are loaded. *)
  Lemma load_list s d : sound s d -> exists l, Forall2 (fun n f => fisher_load H2 (d ++ [n]) s = Ok f) (fisher_files d s) l /\
    NoDup (map (fun f => fname f) l) /\ (forall f, In f l <-> holds s d f) /\ (forall f, In f l -> wf f).
  Proof.
    intros (So & Di). assert (Sub : forall n, In n (fisher_files d s) -> is_fisher_file n = true /\ p_exists s (d ++ [n]) = true) by (intros n Hn; apply files_In in Hn; tauto).
    assert (X : forall ns, (forall n, In n ns -> is_fisher_file n = true /\ p_exists s (d ++ [n]) = true) -> NoDup ns ->
      exists l, Forall2 (fun n f => fisher_load H2 (d ++ [n]) s = Ok f) ns l /\ NoDup (map (fun f => fname f) l) /\ (forall f, In f l -> wf f)).
    { induction ns as [|n ns IH]; intros Hs N; [exists []; split; [constructor|split; [constructor|intros f []]]|]. inversion N as [|? ? Nn N']; subst.
      destruct IH as (l & Fl & Nl & Wl); [intros; apply Hs; right; assumption|exact N'|]. destruct (Hs n (or_introl eq_refl)) as (Fn & En).
      destruct (So n Fn En) as (f & Lf & Wf). exists (f :: l). split; [constructor; assumption|]. split; [|intros g [<-|Hg]; auto].
      cbn [map]. constructor; [|exact Nl]. intros C. apply in_map_iff in C. destruct C as (g & Eg & Hg). destruct (Forall2_r _ _ _ _ Fl Hg) as (m & Hm & Lm).
      assert (n = m) by (apply (Di n m f g); auto; apply Hs; right; exact Hm). subst m. exact (Nn Hm). }
    destruct (X (fisher_files d s) Sub (files_NoDup d s)) as (l & Fl & Nl & Wl). exists l. split; [exact Fl|]. split; [exact Nl|]. split; [|exact Wl].
    intros f. rewrite holds_files. split.
    - intros Hf. destruct (Forall2_r _ _ _ _ Fl Hf) as (n & Hn & Ln). exists n. auto.
    - intros (n & Hn & Ln). destruct (Forall2_l _ _ _ _ Fl Hn) as (g & Hg & Lg). congruence.
  Qed.
  Lemma holds_key (h0 h : heap F) (b : odict) l : holds_list h0 h b l -> NoDup (map (fun f => fname f) l) ->
    (forall f, In f l -> at_key h b (fname f) = Some f) /\ (forall k a, In (k, a) b -> exists f, In f l /\ k = fname f /\ view h a = Some f).
  Proof.
    intros (H1 & H2 & _) N. assert (X : forall k a, In (k, a) b -> exists f, In f l /\ k = fname f /\ view h a = Some f).
    { clear N. revert H1. induction H2 as [|[k a] f b l V D IH]; intros H1 k' a' Hin; [destruct Hin|]. cbn in H1. injection H1 as E1 H1.
      destruct Hin as [Hin|Hin]; [injection Hin as <- <-; exists f; split; [left; reflexivity|split; [exact E1|exact V]]|]. destruct (IH H1 k' a' Hin) as (g & Hg & R). exists g. split; [right; exact Hg|exact R]. }
    split; [|exact X]. intros f Hf. destruct (Forall2_r _ _ _ _ H2 Hf) as ([k a] & Hin & V). cbn in V. unfold at_key.
    assert (Nk : NoDup (dkeys b)) by (rewrite H1; exact N). assert (Ek : k = fname f).
    { destruct (X k a Hin) as (g & Hg & Eg & Vg). congruence. }
    subst k. rewrite (dget_NoDup_In _ String.eqb_spec _ _ _ Nk Hin). exact V.
  Qed.

  (** ** Loading the base matrices *)
  Lemma load_base_spec h s d : sound s d -> exists h1 b l, load_base H2 d (fisher_files d s) [] (h, s) = ((h1, s), Ok b) /\ grows h h1 /\
    (forall f, In f l <-> holds s d f) /\ NoDup (dkeys b) /\ NoDup (map snd b) /\
    (forall f, holds s d f -> at_key h1 b (fname f) = Some f) /\ (forall k a, In (k, a) b -> exists f, holds s d f /\ k = fname f /\ view h1 a = Some f /\ wf f).
  Proof.
    intros Hs. destruct (load_list s d Hs) as (l & Fl & Nl & Hl & Wl).
    destruct (go_build (load_fisher H2) d (load_base H2 d) (fun _ => eq_refl) (fun _ _ _ => eq_refl) (fun _ _ => eq_refl) (fisher_files d s) [] h h s [] l) as (h1 & b & E & G & H).
    - clear -Fl. induction Fl; constructor; auto.
    - exact Nl.
    - apply holds_nil.
    - lia.
    - cbn [app] in H. exists h1, b, l. split; [exact E|]. split; [exact G|]. split; [exact Hl|]. destruct (holds_key _ _ _ _ H Nl) as (A & B). destruct H as (H1 & _ & H3 & _).
      split; [rewrite H1; exact Nl|]. split; [exact H3|]. split; [intros f Hf; apply A, Hl, Hf|].
      intros k a Hin. destruct (B k a Hin) as (f & Hf & R1 & R2). exists f. split; [apply Hl; exact Hf|]. auto.
  Qed.

  (** ** Splitting the run into its result sets *)
  Lemma variants_NoDup : NoDup variants. Proof. repeat constructor; cbn; intuition discriminate. Qed.
  Lemma cosmologies_NoDup : NoDup cosmologies. Proof. repeat constructor; cbn; intuition discriminate. Qed.
  Lemma variant_inj v w : In v variants -> In w variants -> variant_dir (fst v) (snd v) = variant_dir (fst w) (snd w) -> v = w.
  Proof. cbn. intros [<-|[<-|[<-|[]]]] [<-|[<-|[<-|[]]]]; cbn; congruence. Qed.
  Lemma out_dir_inj main c v c' v' : In v variants -> In v' variants -> out_dir main c (fst v) (snd v) = out_dir main c' (fst v') (snd v') -> c = c' /\ v = v'.
  Proof. intros Hv Hv' E. unfold out_dir in E. apply app_inv_head in E. injection E as -> E. split; [reflexivity|]. apply variant_inj; assumption. Qed.
  Lemma out_dir_length main c mb fx : length (out_dir main c mb fx) = 2 + length main.
  Proof. unfold out_dir. rewrite app_length. cbn. lia. Qed.
  Lemma unit_pres (R : st -> st -> Prop) {A} (m : P A) : rt R -> pres R m -> pres R (pbind m (fun _ => pret (F := F) tt)).
  Proof. intros HR H. apply pres_bind; [exact HR|exact H|]. intros _ x. apply HR. Qed.
  Lemma save_all_pres R base fids posts main ow : rt R ->
    (forall c v, pres R (save_results csv xlsx base fids posts main ow c (fst v) (snd v))) -> pres R (save_all csv xlsx base fids posts main ow).
  Proof. intros HR H. apply pres_each; [exact HR|]. intros c _. apply pres_each; [exact HR|]. intros v _. apply unit_pres; [exact HR|apply H]. Qed.
  Lemma save_all_split base fids posts main ow t t' c v : save_all csv xlsx base fids posts main ow t = (t', Ok tt) -> In c cosmologies -> In v variants ->
    exists t1 t2 an, save_results csv xlsx base fids posts main ow c (fst v) (snd v) t1 = (t2, Ok an) /\
      still (out_dir main c (fst v) (snd v)) t t1 /\ still (out_dir main c (fst v) (snd v)) t2 t' /\ heap_keeps base t t1 /\
      (ow = false -> stays t t1) /\ dirs_stay t2 t'.
  Proof.
    intros E Hc Hv. set (d := out_dir main c (fst v) (snd v)).
    set (fv := fun c' v' => pbind (save_results csv xlsx base fids posts main ow c' (fst v') (snd v')) (fun _ => pret tt)).
    assert (St : forall c' v', In v' variants -> c' <> c \/ v' <> v -> pres (still d) (fv c' v')).
    { intros c' v' Hv' N. apply unit_pres; [apply still_rt|]. apply save_results_still; [apply out_dir_length|]. intros C. apply out_dir_inj in C; [destruct C; intuition congruence|exact Hv|exact Hv']. }
    assert (Hk : forall c' v', pres (heap_keeps base) (fv c' v')) by (intros; apply unit_pres; [apply heap_keeps_rt|apply save_results_heap]).
    assert (Sy : ow = false -> forall c' v', pres stays (fv c' v')) by (intros ->; intros; apply unit_pres; [apply stays_rt|apply save_results_stays]).
    destruct (each_split _ _ _ _ E c Hc cosmologies_NoDup) as (l1 & l2 & s1 & s2 & E1 & E2 & E3 & N1).
    destruct (each_split _ _ _ _ E2 v Hv variants_NoDup) as (m1 & m2 & u1 & u2 & G1 & G2 & G3 & N2).
    assert (Pe : forall X R (f : X -> P (F := F) unit) l a b, rt R -> (forall x, In x l -> pres R (f x)) -> peach f l a = (b, Ok tt) -> R a b).
    { intros X R f l a b HR H Eab. pose proof (pres_each R f l HR H a) as Q. rewrite Eab in Q. exact Q. }
    unfold pbind at 1 in G2. destruct (save_results csv xlsx base fids posts main ow c (fst v) (snd v) u1) as [w [an|e]] eqn:Ew; [|discriminate G2]. cbn in G2. injection G2 as ->.
    exists u1, u2, an. split; [exact Ew|].
    assert (Sv : forall l, (forall y, In y l -> In y variants /\ y <> v) -> forall y, In y l -> pres (still d) (fv c y)) by (intros l Hl y Hy; destruct (Hl y Hy); apply St; auto).
    assert (Sc : forall l, (forall y, In y l -> In y cosmologies /\ y <> c) -> forall y, In y l -> pres (still d) (fun x => peach (fv y) variants x)).
    { intros l Hl y Hy. destruct (Hl y Hy). apply pres_each; [apply still_rt|]. intros v' Hv'. apply St; auto. }
    split; [|split; [|split; [|split]]].
    - eapply (still_rt d); [eapply (Pe _ (still d)); [apply still_rt| |exact E1]|eapply (Pe _ (still d)); [apply still_rt| |exact G1]].
      + apply (Sc l1). intros y Hy. apply N1. left; exact Hy.
      + apply (Sv m1). intros y Hy. apply N2. left; exact Hy.
    - eapply (still_rt d); [eapply (Pe _ (still d)); [apply still_rt| |exact G3]|eapply (Pe _ (still d)); [apply still_rt| |exact E3]].
      + apply (Sv m2). intros y Hy. apply N2. right; exact Hy.
      + apply (Sc l2). intros y Hy. apply N1. right; exact Hy.
    - eapply (heap_keeps_rt base); [eapply (Pe _ (heap_keeps base)); [apply heap_keeps_rt| |exact E1]|eapply (Pe _ (heap_keeps base)); [apply heap_keeps_rt| |exact G1]].
      + intros y _. apply pres_each; [apply heap_keeps_rt|]. intros; apply Hk.
      + intros; apply Hk.
    - intros Ho. eapply stays_rt; [eapply (Pe _ stays); [apply stays_rt| |exact E1]|eapply (Pe _ stays); [apply stays_rt| |exact G1]].
      + intros y _. apply pres_each; [apply stays_rt|]. intros; apply Sy; exact Ho.
      + intros; apply Sy; exact Ho.
    - assert (Dv : forall c' v', pres dirs_stay (fv c' v')) by (intros; apply unit_pres; [apply dirs_rt|apply save_results_dirs]).
      eapply dirs_rt; [eapply (Pe _ dirs_stay); [apply dirs_rt| |exact G3]|eapply (Pe _ dirs_stay); [apply dirs_rt| |exact E3]].
      + intros; apply Dv.
      + intros y _. apply pres_each; [apply dirs_rt|]. intros; apply Dv.
  Qed.

  (** ** C103 *)
  (** What is written is below the output directory (or a directory above it
      that was missing); without overwriting nothing on the disk changes.  Also
      when the function fails. *)
  Theorem C103_untouched base_dir main fids posts ow h s :
    let s' := snd (fst (create_final csv xlsx H2 base_dir main fids posts ow (h, s))) in
    (forall q, lookup s' q = lookup s q \/ (exists r, q = main ++ r) \/ ((exists r, main = q ++ r) /\ lookup s q = None /\ lookup s' q = Some NDir)) /\
    (ow = false -> forall q x, lookup s q = Some x -> lookup s' q = Some x).
  Proof.
    set (t := create_final csv xlsx H2 base_dir main fids posts ow (h, s)). cbn zeta.
    assert (Q : forall R, rt R -> (forall h h' s, R (h, s) (h', s)) -> (forall h s, R (h, s) (h, fst (p_mkdirs main s))) ->
      (forall base c v, pres R (save_results csv xlsx base fids posts main ow c (fst v) (snd v))) -> R (h, s) (fst t)).
    { intros R HR Hh Hm Hs. unfold t, create_final. cbn [snd]. apply (pres_bind R); [exact HR| |].
      - intros [h0 s0]. pose proof (go_pure (load_fisher H2) base_dir (load_base H2 base_dir) (fun _ => eq_refl) (fun _ _ _ => eq_refl) (fun _ _ => eq_refl) (fisher_files base_dir s) [] (h0, s0)) as (A & _).
        destruct (load_base H2 base_dir (fisher_files base_dir s) [] (h0, s0)) as [[h1 s1] r]. cbn [fst snd] in *. subst s1. apply Hh.
      - intros b. apply pres_bind; [exact HR|apply pres_disk; exact Hm|]. intros _. apply save_all_pres; [exact HR|apply Hs]. }
    split.
    - pose proof (Q (within main) (within_rt main)) as W. intros q. apply W.
      + intros h0 h1 s0 q0. left; reflexivity.
      + intros h0 s0. pose proof (mkdirs_within main [] s0 h0) as X. rewrite app_nil_r in X. exact X.
      + intros base c v. apply save_results_within.
    - intros ->. apply (Q stays stays_rt).
      + intros h0 h1 s0 q x H. exact H.
      + intros h0 s0 q x H. cbn [snd] in *. unfold p_mkdirs. destruct (mkdirs_adds (rev main) s0 q) as [E|(_ & E & _)]; congruence.
      + intros base c v. apply save_results_stays.
  Qed.

  (** The matrices of a result set, by name. *)
  Lemma result_names base (h : heap F) c fids cs mb fx h' an d s : sound s d ->
    NoDup (dkeys base) -> NoDup (map snd base) -> (forall f, holds s d f -> at_key h base (fname f) = Some f) ->
    (forall k a, In (k, a) base -> exists f, holds s d f /\ k = fname f /\ view h a = Some f /\ wf f) ->
    (forall f, holds s d f -> plain (fname f)) -> (forall x n, In x cs -> needs x n -> plain n) ->
    create_results base c fids (map cname cs) mb fx h = (h', Ok an) ->
    NoDup (dkeys (an_fishers an)) /\ (forall k, In k (dkeys (an_fishers an)) <-> result_name s d cs k) /\
    (forall k a, In (k, a) (an_fishers an) -> exists t, view h' a = Some t /\ wf t /\ fname t = k) /\
    (forall nv, In nv (an_fid an) <-> In nv fids /\ varies c (fst nv)) /\
    (exists te, an_errs an = Some te /\ an_rel an = Some (rel_table (an_fid an) te) /\ dkeys te = dkeys (an_fishers an) /\
       forall k t, at_key h' (an_fishers an) k = Some t -> exists r, dget String.eqb te k = Some r /\ row_of t r) /\
    exists treat : string -> fisher F,
      (forall f, holds s d f -> treated c fids mb fx f (treat (fname f)) /\ exists t, at_key h' (an_fishers an) (fname f) = Some t /\ same t (treat (fname f)) /\ fname t = fname f) /\
      (forall x, In x cs -> (forall n, needs x n -> available s d n) ->
         exists t, at_key h' (an_fishers an) (cname x) = Some t /\ same t (cvalue treat x) /\ fname t = cname x /\ fname (cvalue treat x) = cname x).
  Proof.
    intros Hs Nk Na A B Pl Pc E.
    assert (Kb : forall k, In k (dkeys base) <-> available s d k).
    { intros k. unfold dkeys. rewrite in_map_iff. split.
      - intros ([k' a] & <- & Hin). destruct (B k' a Hin) as (f & Hf & -> & _). exists f. auto.
      - intros (f & Hf & <-). specialize (A f Hf). unfold at_key in A. destruct (dget String.eqb base (fname f)) as [a|] eqn:G; [|discriminate A]. exists (fname f, a). split; [reflexivity|apply (dget_In _ String.eqb_spec); exact G]. }
    destruct (result_set base c fids cs mb fx h h' an Nk Na) as (_ & Fi & Ks & Nk' & _ & Tb & treat & T1 & T2).
    - intros k a Hin. destruct (B k a Hin) as (f & _ & _ & V & W). exists f. auto.
    - intros k Hk. apply Kb in Hk. destruct Hk as (f & Hf & <-). apply Pl; exact Hf.
    - exact Pc.
    - exact E.
    - assert (T1' : forall f, holds s d f -> treated c fids mb fx f (treat (fname f)) /\ fname (treat (fname f)) = fname f /\
        exists t, at_key h' (an_fishers an) (fname f) = Some t /\ same t (treat (fname f)) /\ wf t /\ fname t = fname f).
      { intros f Hf. destruct (T1 (fname f) f (A f Hf)) as (T & t & Et & St & Wt & Nt). split; [exact T|]. assert (fname (treat (fname f)) = fname f) by apply T. split; [assumption|]. exists t. split; [exact Et|]. split; [exact St|]. split; [exact Wt|congruence]. }
      assert (T2' : forall x, In x cs -> (forall n, needs x n -> available s d n) ->
        exists t, at_key h' (an_fishers an) (cname x) = Some t /\ same t (cvalue treat x) /\ wf t /\ fname t = cname x /\ fname (cvalue treat x) = cname x).
      { intros x Hx Hn. destruct (T2 x Hx) as (t & Et & St & Wt & Nt); [intros n H; apply Kb, Hn; exact H|]. exists t. split; [exact Et|]. split; [exact St|]. split; [exact Wt|].
        assert (Nx : fname (cvalue treat x) = cname x); [|split; [unfold cvalue in Nx; congruence|exact Nx]]. unfold cvalue, cname. apply C27_result_name.
        - destruct (Hn (fst x)) as (f & Hf & Ef); [left; reflexivity|]. destruct (T1' f Hf) as (_ & Nf & _). rewrite <- Ef. exact Nf.
        - rewrite map_map. rewrite <- (map_id (snd x)) at 2. apply map_ext_in. intros [b n] Hin. cbn. f_equal.
          destruct (Hn n) as (f & Hf & Ef); [right; apply in_map_iff; exists (b, n); auto|]. destruct (T1' f Hf) as (_ & Nf & _). rewrite <- Ef. exact Nf. }
      assert (Kr : forall k, In k (dkeys (an_fishers an)) <-> result_name s d cs k).
      { intros k. rewrite Ks. unfold result_name. rewrite Kb. split; (intros [H|(x & H1 & H2 & H3)]; [left; exact H|right; exists x; split; [exact H1|split; [exact H2|]]; intros n Hn; apply Kb, H3; exact Hn]). }
      split; [exact Nk'|]. split; [exact Kr|]. split; [|split; [exact Fi|split; [exact Tb|]]].
      + intros k a Hin. assert (G := dget_NoDup_In _ String.eqb_spec _ _ _ Nk' Hin).
        assert (Hk : result_name s d cs k) by (apply Kr; unfold dkeys; apply in_map_iff; exists (k, a); auto).
        destruct Hk as [(f & Hf & <-)|(x & Hx & -> & Hn)].
        * destruct (T1' f Hf) as (_ & _ & t & Et & _ & Wt & Nt). unfold at_key in Et. rewrite G in Et. exists t. auto.
        * destruct (T2' x Hx Hn) as (t & Et & _ & Wt & Nt & _). unfold at_key in Et. rewrite G in Et. exists t. auto.
      + exists treat. split.
        * intros f Hf. destruct (T1' f Hf) as (T & _ & t & Et & St & _ & Nt). split; [exact T|]. exists t. auto.
        * intros x Hx Hn. destruct (T2' x Hx Hn) as (t & Et & St & _ & Nt). exists t. auto.
  Qed.
  (** The files written for them. *)
  Lemma Forall2_NoDup {X} (fs : list X) (b : odict) (key : X -> string) (nm : string -> path) : Forall2 (fun (ka : string * nat) (y : X) => key y = fst ka) b fs -> NoDup (dkeys b) ->
    (forall k k', In k (dkeys b) -> In k' (dkeys b) -> nm k = nm k' -> k = k') -> NoDup (map (fun y : X => nm (key y)) fs).
  Proof.
    intros D. induction D as [|[k a] y b fs E D IH]; intros N H; cbn; constructor.
    - intros C. apply in_map_iff in C. destruct C as (z & Eg & Hg). cbn in E. destruct (Forall2_r _ _ _ _ D Hg) as ([k' a'] & Hin & Ek). cbn in Ek.
      inversion N as [|? ? Nk _]; subst. apply Nk. cbn [fst]. assert (Q : key z = key y).
      { apply H; [right; unfold dkeys; apply in_map_iff; exists (key z, a'); auto|left; reflexivity|exact Eg]. }
      rewrite <- Q. unfold dkeys. apply in_map_iff. exists (key z, a'). auto.
    - cbn in N. inversion N as [|? ? _ N']; subst. apply IH; [exact N'|]. intros k1 k2 Ha Hb. apply H; right; assumption.
  Qed.
  Lemma stored_of (s : fs (h5 F)) p (t v : fisher F) : lookup s p = Some (NFile (datasets t : h5 F)) -> wf t -> same t v -> fname t = fname v -> stored s p v.
  Proof.
    intros L W Sm Nm. destruct (load_datasets t W) as (g & Eg & Lg). destruct (loaded_same t g W Lg) as (Wg & Sg). exists g.
    split; [rewrite (load_unfold _ _ _ _ L); exact Eg|]. split; [eapply same_trans; eauto|]. split; [exact Wg|]. destruct Lg as (Nl & _). congruence.
  Qed.

  (** Matrices of the same content have the same errors. *)
  Lemma row_same (t g : fisher F) r : wf t -> wf g -> same g t -> row_of t r -> row_of g r.
  Proof.
    intros Wt Wg (S1 & S2 & S3 & _) (C & Iv & Rw). exists C. split.
    - assert (Pm : Permutation (labels t) (labels g)) by (apply NoDup_perm_iff; [apply wf_NoDup; exact Wt|apply wf_NoDup; exact Wg|intros x; rewrite S1; reflexivity]).
      eapply isinv_ext; [| |eapply isinv_perm; [exact Pm|exact Iv]]; [|reflexivity]. intros a b Ha Hb. symmetry. apply S2; assumption.
    - intros a Na. rewrite (Rw a Na). destruct (smem a (fcosmo t)) eqn:E1, (smem a (fcosmo g)) eqn:E2; try reflexivity; exfalso.
      + apply smem_In, S3, smem_In in E1. congruence.
      + apply smem_In, S3, smem_In in E2. congruence.
  Qed.

  Lemma final_core base_dir main fids cs ow h s h' s' : sound s base_dir ->
    (forall f, holds s base_dir f -> plain (fname f)) -> (forall x n, In x cs -> needs x n -> plain n) ->
    (forall k k', result_name s base_dir cs k -> result_name s base_dir cs k' -> fisher_filename k = fisher_filename k' -> k = k') ->
    create_final csv xlsx H2 base_dir main fids (map cname cs) ow (h, s) = ((h', s'), Ok tt) ->
    forall c mb fx, In c ["w0_wa_CDM"; "LCDM"]%string -> In (mb, fx) [(true, false); (false, false); (true, true)] ->
    let d := main ++ [c; if fx then "nuis_fixed" else if mb then "marg_before" else "marg_after"]%string in
    p_isdir s' d = true /\
    (exists treat : string -> fisher F,
      (forall f, holds s base_dir f -> treated c fids mb fx f (treat (fname f)) /\ stored s' (d ++ [fisher_filename (fname f)]) (treat (fname f))) /\
      (forall x, In x cs -> (forall n, needs x n -> available s base_dir n) -> stored s' (d ++ [fisher_filename (cname x)]) (cvalue treat x))) /\
    (forall n, is_fisher_file n = true -> (forall k, result_name s base_dir cs k -> n <> fisher_filename k) -> lookup s' (d ++ [n]) = lookup s (d ++ [n])) /\
    (ow = false -> forall k, result_name s base_dir cs k -> lookup s (d ++ [fisher_filename k]) = None) /\
    (exists te tr, (forall n x, In (n, x) (tables_of csv xlsx te tr) ->
        lookup s' (d ++ [n]) = if ow then Some (NFile x) else match lookup s (d ++ [n]) with Some y => Some y | None => Some (NFile x) end) /\
      (forall k, In k (dkeys te) <-> result_name s base_dir cs k) /\
      (exists fid, (forall nv, In nv fid <-> In nv fids /\ varies c (fst nv)) /\ tr = rel_table fid te) /\
      forall k, result_name s base_dir cs k -> exists g r, fisher_load H2 (d ++ [fisher_filename k]) s' = Ok g /\ wf g /\ dget String.eqb te k = Some r /\ row_of g r).
  Proof.
    intros Hs Pl Pc Dist E c mb fx Hc Hv d. change (In c cosmologies) in Hc. change (In (mb, fx) variants) in Hv.
    destruct (load_base_spec h s base_dir Hs) as (h1 & b & l0 & El & Gr & Hl0 & Nk & Na & A & B).
    unfold create_final in E. cbn [snd] in E. unfold pbind at 1 in E. rewrite El in E. unfold pbind at 1, on_disk at 1 in E. cbn [fst snd] in E.
    assert (Sm : still d (h1, s) (h1, fst (p_mkdirs main s))) by (apply deep_still; unfold d; rewrite app_length; lia).
    assert (Sy : stays (h1, s) (h1, fst (p_mkdirs main s))).
    { intros q x Hx. cbn [snd] in *. unfold p_mkdirs. destruct (mkdirs_adds (rev main) s q) as [Eq|(_ & Eq & _)]; congruence. }
    destruct (p_mkdirs main s) as [s0 [[]|e]] eqn:Em; [|discriminate E]. cbn [fst] in Sm, Sy.
    destruct (save_all_split b fids (map cname cs) main ow (h1, s0) (h', s') c (mb, fx) E Hc Hv) as ([g1 s1] & [g2 s2] & an & Es & St1 & St2 & Hk & Hy & Hd). cbn [fst snd] in Es.
    change (out_dir main c (fst (mb, fx)) (snd (mb, fx))) with d in St1, St2.
    destruct (save_results_inv csv xlsx _ _ _ _ _ _ _ _ _ _ _ _ Es) as (Ec & Dd & l & te & tr & Fa & Ete & Etr & Nl & Ll & Kl & Tl). change (out_dir main c mb fx) with d in *. cbn [fst snd] in *.
    assert (Lv : live h1 b) by (intros k a Hin; destruct (B k a Hin) as (f & _ & _ & V & _); congruence).
    assert (Vk : forall a f, view h1 a = Some f -> view g1 a = Some f) by (intros a f V; exact (Hk Lv a f V)).
    destruct (result_names b g1 c fids cs mb fx g2 an base_dir s Hs Nk Na) as (Nk' & Kr & Vn & Fi & (te' & Te1 & Te2 & Te3 & Te4) & treat & T1 & T2); auto.
    { intros f Hf. specialize (A f Hf). unfold at_key in *. destruct (dget String.eqb b (fname f)); [apply Vk; exact A|discriminate A]. }
    { intros k a Hin. destruct (B k a Hin) as (f & R1 & R2 & R3 & R4). exists f. auto 6. }
    assert (Fn : Forall2 (fun ka f => fname f = fst ka) (an_fishers an) l).
    { clear -Fa Vn. induction Fa as [|[k a] f b l V D IH]; constructor; [destruct (Vn k a (or_introl eq_refl)) as (t & Vt & _ & Nt); cbn in *; congruence|]. apply IH. intros k' a' Hin. apply (Vn k' a'). right; exact Hin. }
    assert (Nd : NoDup (map (file_of d) l)).
    { apply (Forall2_NoDup l (an_fishers an) (fun f => fname f) (fun k => d ++ [fisher_filename k]) Fn Nk'). intros k k' H1 H2 Eq. apply app_inj_tail in Eq. destruct Eq as [_ Eq]. apply Dist; [apply Kr; exact H1|apply Kr; exact H2|exact Eq]. }
    specialize (Ll Nd).
    assert (S2' : forall n, lookup s' (d ++ [n]) = lookup s2 (d ++ [n])) by (intros n; exact (St2 n)).
    assert (S1' : forall n, lookup s1 (d ++ [n]) = lookup s (d ++ [n])) by (intros n; exact (eq_trans (St1 n) (Sm n))).
    assert (Inl : forall k t, at_key g2 (an_fishers an) k = Some t -> In t l /\ wf t /\ fname t = k).
    { intros k t Hk'. unfold at_key in Hk'. destruct (dget String.eqb (an_fishers an) k) as [a|] eqn:G; [|discriminate Hk']. apply (dget_In _ String.eqb_spec) in G.
      destruct (Forall2_l _ _ _ _ Fa G) as (t' & Ht & Vt). cbn in Vt. assert (t' = t) by congruence. subst t'. split; [exact Ht|]. destruct (Vn k a G) as (t' & Vt' & W & N). assert (t' = t) by congruence. subst t'. auto. }
    assert (Sto : forall k t v, at_key g2 (an_fishers an) k = Some t -> same t v -> fname v = k -> stored s' (d ++ [fisher_filename k]) v).
    { intros k t v Hk' Sv Nv. destruct (Inl k t Hk') as (Hin & W & Nt). apply (stored_of s' _ t v); [|exact W|exact Sv|congruence]. rewrite S2'. rewrite <- Nt. apply (Ll t Hin). }
    assert (Dd' : p_isdir s' d = true).
    { unfold p_isdir in *. destruct d as [|x0 d0]; [reflexivity|]. specialize (Hd (x0 :: d0)). cbn [snd] in Hd. destruct (lookup s2 (x0 :: d0)) as [[|y]|]; try discriminate Dd. rewrite Hd; reflexivity. }
    split; [exact Dd'|]. split; [|split; [|split]].
    - exists treat. split.
      + intros f Hf. destruct (T1 f Hf) as (T & t & Et & St & Nt). split; [exact T|]. apply (Sto _ t); [exact Et|exact St|apply T].
      + intros x Hx Hn. destruct (T2 x Hx Hn) as (t & Et & St & Nt & Nv). apply (Sto _ t); assumption.
    - intros n Hn Nr. rewrite S2'. rewrite Kl; [|exact Hn|].
      + apply S1'.
      + intros f Hf Ef. destruct (Forall2_r _ _ _ _ Fn Hf) as ([k a] & Hin & Ek). cbn in Ek. apply (Nr k); [apply Kr; unfold dkeys; apply in_map_iff; exists (k, a); auto|congruence].
    - intros Ho k Hk'. apply Kr in Hk'. unfold dkeys in Hk'. apply in_map_iff in Hk'. destruct Hk' as ([k' a] & <- & Hin). cbn [fst]. destruct (Forall2_l _ _ _ _ Fn Hin) as (f & Hf & Ef). cbn in Ef.
      specialize (Nl Ho f Hf). unfold file_of in Nl. rewrite Ef in Nl. rewrite <- S1'. exact Nl.
    - assert (te' = te) by congruence. subst te'. exists te, tr. split; [|split; [|split]].
      + intros n x Hin. rewrite S2'. rewrite (Tl n x Hin). destruct ow; [reflexivity|]. rewrite (S1' n). reflexivity.
      + intros k. rewrite Te3. apply Kr.
      + exists (an_fid an). split; [exact Fi|congruence].
      + intros k Hk'. apply Kr in Hk'. unfold dkeys in Hk'. apply in_map_iff in Hk'. destruct Hk' as ([k' a] & <- & Hin). cbn [fst]. destruct (Vn k' a Hin) as (t & Vt & Wt & Nt).
        assert (At : at_key g2 (an_fishers an) k' = Some t) by (unfold at_key; rewrite (dget_NoDup_In _ String.eqb_spec _ _ _ Nk' Hin); exact Vt).
        destruct (Te4 k' t At) as (r & Er & Rr). destruct (Inl k' t At) as (Hl & _ & _).
        destruct (load_datasets t Wt) as (g & Eg & Lg). destruct (loaded_same t g Wt Lg) as (Wg & Sg). exists g, r.
        split; [rewrite (load_unfold _ _ _ (datasets t : h5 F)); [exact Eg|rewrite S2', <- Nt; apply (Ll t Hl)]|]. split; [exact Wg|]. split; [exact Er|]. apply (row_same t g r Wt Wg Sg Rr).
  Qed.
  Theorem C103_final base_dir main fids cs ow h s h' s' : sound s base_dir ->
    (forall f, holds s base_dir f -> plain (fname f)) -> (forall x n, In x cs -> needs x n -> plain n) ->
    (forall k k', result_name s base_dir cs k -> result_name s base_dir cs k' -> fisher_filename k = fisher_filename k' -> k = k') ->
    create_final csv xlsx H2 base_dir main fids (map cname cs) ow (h, s) = ((h', s'), Ok tt) ->
    forall c mb fx, In c ["w0_wa_CDM"; "LCDM"]%string -> In (mb, fx) [(true, false); (false, false); (true, true)] ->
    let d := main ++ [c; if fx then "nuis_fixed" else if mb then "marg_before" else "marg_after"]%string in
    p_isdir s' d = true /\
    (exists treat : string -> fisher F,
      (forall f, holds s base_dir f -> treated c fids mb fx f (treat (fname f)) /\ stored s' (d ++ [fisher_filename (fname f)]) (treat (fname f))) /\
      (forall x, In x cs -> (forall n, needs x n -> available s base_dir n) -> stored s' (d ++ [fisher_filename (cname x)]) (cvalue treat x))) /\
    (forall n, is_fisher_file n = true -> (forall k, result_name s base_dir cs k -> n <> fisher_filename k) -> lookup s' (d ++ [n]) = lookup s (d ++ [n])) /\
    (ow = false -> forall k, result_name s base_dir cs k -> lookup s (d ++ [fisher_filename k]) = None).
  Proof.
    intros Hs Pl Pc Dist E c mb fx Hc Hv. destruct (final_core base_dir main fids cs ow h s h' s' Hs Pl Pc Dist E c mb fx Hc Hv) as (A & B & C & D & _). auto.
  Qed.

  (** The tables beside the matrices: the errors of the matrices of the
      directory, and these divided by the fiducial values.  Tables that were
      there before are only replaced when overwriting. *)
  Theorem C103_tables base_dir main fids cs ow h s h' s' : sound s base_dir -> NoDup (dkeys fids) ->
    (forall f, holds s base_dir f -> plain (fname f)) -> (forall x n, In x cs -> needs x n -> plain n) ->
    (forall k k', result_name s base_dir cs k -> result_name s base_dir cs k' -> fisher_filename k = fisher_filename k' -> k = k') ->
    create_final csv xlsx H2 base_dir main fids (map cname cs) ow (h, s) = ((h', s'), Ok tt) ->
    forall c mb fx, In c ["w0_wa_CDM"; "LCDM"]%string -> In (mb, fx) [(true, false); (false, false); (true, true)] ->
    let d := main ++ [c; if fx then "nuis_fixed" else if mb then "marg_before" else "marg_after"]%string in
    exists te tr,
      (forall n x, In (n, x) [("marginalized_errors_test_analysis.xlsx", xlsx te); ("marginalized_errors_test_analysis.csv", csv te);
                              ("relative_marginalized_errors_test_analysis.xlsx", xlsx tr); ("relative_marginalized_errors_test_analysis.csv", csv tr)]%string ->
         lookup s' (d ++ [n]) = if ow then Some (NFile x) else match lookup s (d ++ [n]) with Some y => Some y | None => Some (NFile x) end) /\
      (forall k, In k (dkeys te) <-> result_name s base_dir cs k) /\ dkeys tr = dkeys te /\
      forall k, result_name s base_dir cs k -> exists g C, fisher_load H2 (d ++ [fisher_filename k]) s' = Ok g /\ isinv string_dec (labels g) (fval g) C /\
        forall a, a <> "FoM"%string ->
          (In a (fcosmo g) -> t_cell te k a = np_sqrt (C a a)) /\ (~ In a (fcosmo g) -> t_cell te k a = None) /\
          (forall x v, t_cell te k a = Some x -> In (a, v) fids -> varies c a -> t_cell tr k a = Some (if fdec v fz then fabs x else fabs (fdiv x v))).
  Proof.
    intros Hs Nf Pl Pc Dist E c mb fx Hc Hv d. destruct (final_core base_dir main fids cs ow h s h' s' Hs Pl Pc Dist E c mb fx Hc Hv) as (_ & _ & _ & _ & te & tr & Tl & Tk & (fid & Fi & Er) & Tr).
    exists te, tr. split; [exact Tl|]. split; [exact Tk|]. split; [subst tr; unfold rel_table, dkeys; rewrite map_map; apply map_ext; reflexivity|].
    intros k Hk. destruct (Tr k Hk) as (g & r & Lg & _ & Gr & (C & Iv & Rw)). exists g, C. split; [exact Lg|]. split; [exact Iv|]. intros a Na. unfold t_cell at 1 2. rewrite Gr, (Rw a Na).
    split; [intros Ha; rewrite (proj2 (smem_In _ _) Ha); reflexivity|]. split; [intros Ha; rewrite (proj2 (smem_false _ _) Ha); reflexivity|].
    intros x v Ex Hin Va. subst tr. apply rel_par; [exact Na|exact Ex|].
    assert (Hf : In (a, v) fid) by (apply Fi; split; [exact Hin|exact Va]).
    destruct (dget String.eqb fid a) as [w|] eqn:G.
    - apply (dget_In _ String.eqb_spec) in G. apply Fi in G. destruct G as (G & _). f_equal. pose proof (dget_NoDup_In _ String.eqb_spec _ _ _ Nf G). pose proof (dget_NoDup_In _ String.eqb_spec _ _ _ Nf Hin). congruence.
    - apply (dget_None _ String.eqb_spec) in G. exfalso. apply G. unfold dkeys. apply in_map_iff. exists (a, v). auto.
  Qed.
End Props.
