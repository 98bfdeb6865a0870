(** Lemmas for OutModel: the programs. *)
From Verif Require Import Base SortLib StrLib FrameModel FrameLemmas FisherModel FisherSpec FisherLemmas FsModel FisherFileModel FileLemmas2 TableModel NameModel
  HeapModel ResultsModel ResultsSpec HeapLemmas ResultsLemmas OutModel OutLemmas.
Open Scope list_scope.

Section Programs.
  Context {F : Type} {K : Fld F} {O : OFld (F := F)} {S : SqrtFld F} {SO : SetOrder}.
  Context (csv xlsx : table (F := F) -> h5 F).
  Notation state := (st (F := F)).
  Implicit Types s : state.

  (** ** Relations a program respects, whatever its outcome *)
  Definition pres (R : state -> state -> Prop) {A} (m : P (F := F) A) : Prop := forall s, R s (fst (m s)).
  Definition rt (R : state -> state -> Prop) : Prop := (forall s, R s s) /\ forall s1 s2 s3, R s1 s2 -> R s2 s3 -> R s1 s3.
  Lemma pres_bind R {A B} (m : P A) (k : A -> P B) : rt R -> pres R m -> (forall x, pres R (k x)) -> pres R (pbind m k).
  Proof.
    intros (Rr & Rt) H1 H2 s. unfold pbind. specialize (H1 s). destruct (m s) as [s1 [x|e]]; cbn [fst] in *; [|exact H1]. eapply Rt; [exact H1|apply H2].
  Qed.
  Lemma pres_each R {X} (f : X -> P unit) l : rt R -> (forall x, In x l -> pres R (f x)) -> pres R (peach f l).
  Proof.
    intros HR. induction l as [|x l IH]; intros H; [intros s; apply HR|]. cbn [peach]. apply pres_bind; [exact HR|apply H; left; reflexivity|].
    intros _. apply IH. intros y Hy. apply H. right; exact Hy.
  Qed.
  Lemma each_split {X} (f : X -> P (F := F) unit) l s s' : peach f l s = (s', Ok tt) -> forall x, In x l -> NoDup l ->
    exists l1 l2 s1 s2, peach f l1 s = (s1, Ok tt) /\ f x s1 = (s2, Ok tt) /\ peach f l2 s2 = (s', Ok tt) /\
      (forall y, In y l1 \/ In y l2 -> In y l /\ y <> x).
  Proof.
    revert s. induction l as [|y l IH]; intros s E x Hx N; [destruct Hx|]. inversion N as [|? ? Ny N']; subst. cbn [peach] in E. unfold pbind in E.
    destruct (f y s) as [s1 [[]|e]] eqn:Ey; [|discriminate E]. destruct Hx as [->|Hx].
    - exists [], l, s, s1. split; [reflexivity|]. split; [exact Ey|]. split; [exact E|]. intros z [[]|Hz]. split; [right; exact Hz|congruence].
    - destruct (IH s1 E x Hx N') as (l1 & l2 & t1 & t2 & A & B & C & D). exists (y :: l1), l2, t1, t2. split; [cbn [peach]; unfold pbind; rewrite Ey; exact A|].
      split; [exact B|]. split; [exact C|]. intros z [[->|Hz]|Hz].
      + split; [left; reflexivity|congruence].
      + destruct (D z (or_introl Hz)). split; [right|]; assumption.
      + destruct (D z (or_intror Hz)). split; [right|]; assumption.
  Qed.

  (** What is on the disk stays; everything new is below [main] or a directory
      above it; nothing in directory [d] changes; objects keep their contents. *)
  Definition stays s s' : Prop := forall q x, lookup (snd s) q = Some x -> lookup (snd s') q = Some x.
  Definition within (main : path) s s' : Prop := forall q, lookup (snd s') q = lookup (snd s) q \/ prefix main q \/
    (prefix q main /\ lookup (snd s) q = None /\ lookup (snd s') q = Some NDir).
  Definition still (d : path) s s' : Prop := forall n, lookup (snd s') (d ++ [n]) = lookup (snd s) (d ++ [n]).
  Definition heap_keeps (base : odict) s s' : Prop := live (fst s) base -> forall a f, view (fst s) a = Some f -> view (fst s') a = Some f.
  Lemma stays_rt : rt stays. Proof. split; [intros s q x H; exact H|intros s1 s2 s3 A B q x H; apply B, A, H]. Qed.
  Lemma within_rt main : rt (within main).
  Proof.
    split; [intros s q; left; reflexivity|]. intros s1 s2 s3 A B q. destruct (B q) as [E|[E|(E1 & E2 & E3)]]; [|auto|].
    - destruct (A q) as [E'|[E'|(E1 & E2 & E3)]]; [left; congruence|auto|]. right; right. split; [exact E1|]. split; [exact E2|congruence].
    - destruct (A q) as [E'|[E'|(E1' & E2' & E3')]]; [|auto|congruence]. right; right. split; [exact E1|]. split; [congruence|exact E3].
  Qed.
  Lemma still_rt d : rt (still d). Proof. split; [intros s n; reflexivity|]. intros s1 s2 s3 A B n. rewrite B, A. reflexivity. Qed.
  Lemma live_keeps base s s' : heap_keeps base s s' -> live (fst s) base -> live (fst s') base.
  Proof. intros H L k a Hin V. destruct (view (fst s) a) as [f|] eqn:Vf; [|exact (L k a Hin Vf)]. rewrite (H L a f Vf) in V. discriminate V. Qed.
  Lemma heap_keeps_rt base : rt (heap_keeps base).
  Proof. split; [intros s _ a f V; exact V|]. intros s1 s2 s3 A B L a f V. apply B; [eapply live_keeps; eauto|]. apply A; assumption. Qed.

  Lemma pres_heap (R : state -> state -> Prop) {A} (m : M F A) : (forall h d, R (h, d) (fst (m h), d)) -> pres R (on_heap m).
  Proof. intros H [h d]. unfold on_heap. cbn [fst snd]. specialize (H h d). destruct (m h) as [h' r]. exact H. Qed.
  Lemma pres_disk (R : state -> state -> Prop) {A} (m : fs (h5 F) -> fs (h5 F) * res A) : (forall h d, R (h, d) (h, fst (m d))) -> pres R (on_disk m).
  Proof. intros H [h d]. unfold on_disk. cbn [fst snd]. specialize (H h d). destruct (m d) as [d' r]. exact H. Qed.

  (** ** Saving the matrices *)
  Definition file_of (outdir : path) (f : fisher F) : path := outdir ++ [fisher_filename (fname f)].
  Lemma save_fisher_pres R outdir ow a : rt R -> (forall h d f, R (h, d) (h, fst (fisher_write (Some outdir) None ow false f d))) -> pres R (save_fisher outdir ow a).
  Proof.
    intros (Rr & _) H s. unfold save_fisher. destruct (hget (fst s) a) as [f|e]; [|apply Rr]. apply (pres_disk R); auto.
  Qed.
  Lemma save_fishers_inv outdir ow (d : odict) : forall (h : heap F) (s : fs (h5 F)) (s' : state), peach (fun ka => save_fisher outdir ow (snd ka)) d (h, s) = (s', Ok tt) ->
    exists l, Forall2 (fun ka f => view h (snd ka) = Some f) d l /\ fst s' = h /\
      (ow = false -> forall f, In f l -> lookup s (file_of outdir f) = None) /\
      kept (fun q => exists f, In f l /\ q = file_of outdir f) s (snd s') /\
      (NoDup (map (file_of outdir) l) -> forall f, In f l -> lookup (snd s') (file_of outdir f) = Some (NFile (datasets f : h5 F))).
  Proof.
    induction d as [|[k a] d IH]; intros h s s' E; cbn [peach snd] in E.
    - injection E as <-. exists []. cbn. split; [constructor|]. split; [reflexivity|]. split; [intros _ f []|]. split; [intros q _; reflexivity|intros _ f []].
    - unfold pbind in E. destruct (save_fisher outdir ow a (h, s)) as [s1 [[]|e]] eqn:E1; [|discriminate E].
      unfold save_fisher in E1. cbn [fst] in E1. destruct (hget h a) as [f|e] eqn:G; [|discriminate E1]. apply hget_view in G.
      unfold on_disk in E1. cbn [fst snd] in E1. destruct (fisher_write (Some outdir) None ow false f s) as [d1 [[]|e]] eqn:Ew; [|discriminate E1]. injection E1 as <-.
      destruct (fisher_write_inv _ _ _ _ _ Ew) as (L1 & K1 & N1). change (outdir ++ [fisher_filename (fname f)]) with (file_of outdir f) in *.
      destruct (IH h d1 s' E) as (l & Fa & Eh & Nl & Kl & Dl). exists (f :: l). split; [constructor; assumption|]. split; [exact Eh|]. split; [|split].
      + intros Ho g [<-|Hg]; [apply N1; exact Ho|]. specialize (Nl Ho g Hg).
        destruct (list_eq_dec string_dec (file_of outdir g) (file_of outdir f)) as [Eg|Ng]; [rewrite Eg in Nl; congruence|]. rewrite <- K1 by congruence. exact Nl.
      + intros q Nq. rewrite Kl; [apply K1|].
        * intros <-. apply Nq. exists f. split; [left|]; reflexivity.
        * intros (g & Hg & ->). apply Nq. exists g. split; [right; exact Hg|reflexivity].
      + intros N g Hg. inversion N as [|? ? Nf N']; subst. destruct Hg as [<-|Hg]; [|apply Dl; assumption].
        rewrite Kl; [exact L1|]. intros (g & Hg & Eg). apply Nf. rewrite Eg. apply in_map. exact Hg.
  Qed.

  (** ** Saving the tables *)
  Definition table_names : list string :=
    ["marginalized_errors_test_analysis.xlsx"; "marginalized_errors_test_analysis.csv";
     "relative_marginalized_errors_test_analysis.xlsx"; "relative_marginalized_errors_test_analysis.csv"]%string.
  Lemma save_tables_pres R outdir ow an : rt R ->
    (forall h d t n, In n table_names -> R (h, d) (h, fst (write_table csv xlsx t (outdir ++ [n]) ow d))) -> pres R (save_tables csv xlsx outdir ow an).
  Proof.
    intros HR H. assert (X : forall t n, In n table_names -> pres R (save_table csv xlsx t (outdir ++ [n]) ow)).
    { intros t n Hn. unfold save_table. destruct t as [t|]; [|intros s; apply HR]. apply pres_disk. intros h d. apply H. exact Hn. }
    unfold save_tables. apply pres_bind; [exact HR|apply X; cbn; auto|intros _].
    apply pres_bind; [exact HR|apply X; cbn; auto|intros _]. apply pres_bind; [exact HR|apply X; cbn; auto|intros _]. apply X; cbn; auto.
  Qed.

  (** ** One result set *)
  Definition out_dir (main : path) (cosmology : string) (mb fx : bool) : path := main ++ [cosmology; variant_dir mb fx].
  Lemma save_results_pres R base fids posts main ow cosmology mb fx : rt R ->
    (forall h d, R (h, d) (fst (create_results base cosmology fids posts mb fx h), d)) ->
    (forall h d, R (h, d) (h, fst (p_mkdirs (out_dir main cosmology mb fx) d))) ->
    (forall h d f, R (h, d) (h, fst (fisher_write (Some (out_dir main cosmology mb fx)) None ow false f d))) ->
    (forall h d t n, In n table_names -> R (h, d) (h, fst (write_table csv xlsx t (out_dir main cosmology mb fx ++ [n]) ow d))) ->
    pres R (save_results csv xlsx base fids posts main ow cosmology mb fx).
  Proof.
    intros HR H1 H2 H3 H4. unfold save_results. apply pres_bind; [exact HR|apply pres_heap; exact H1|intros an]. cbn zeta.
    apply pres_bind; [exact HR|apply pres_disk; exact H2|intros _]. apply pres_bind; [exact HR| |intros _].
    - apply pres_each; [exact HR|]. intros ka _. apply save_fisher_pres; [exact HR|exact H3].
    - apply pres_bind; [exact HR|apply save_tables_pres; [exact HR|exact H4]|]. intros _ s. apply HR.
  Qed.
  Lemma save_results_stays base fids posts main cosmology mb fx : pres stays (save_results csv xlsx base fids posts main false cosmology mb fx).
  Proof.
    apply save_results_pres; [exact stays_rt|intros h d q x H; exact H| | |].
    - intros h d q x H. unfold p_mkdirs. cbn [snd] in *. destruct (mkdirs_adds (rev (out_dir main cosmology mb fx)) d q) as [E|(_ & E & _)]; congruence.
    - intros h d f q x H. cbn [snd] in *. set (p := out_dir main cosmology mb fx ++ [fisher_filename (fname f)]).
      destruct (list_eq_dec string_dec p q) as [<-|N]; [rewrite fisher_write_exists; [exact H|fold p; congruence]|].
      pose proof (fisher_write_kept (out_dir main cosmology mb fx) false f d q N) as X. unfold path in *. rewrite X. exact H.
    - intros h d t n Hn q x H. cbn [snd] in *. destruct (table_kept csv xlsx t (out_dir main cosmology mb fx ++ [n]) false d) as (A & B).
      destruct (list_eq_dec string_dec (out_dir main cosmology mb fx ++ [n]) q) as [<-|N]; [rewrite B; [exact H|reflexivity|congruence]|rewrite A; assumption].
  Qed.
  Lemma prefix_out main r q : prefix q (main ++ r) -> prefix main q \/ prefix q main.
  Proof.
    revert q. induction main as [|x main IH]; intros q H; [left; exists q; reflexivity|]. destruct q as [|y q]; [right; exists (x :: main); reflexivity|].
    destruct H as (u & E). injection E as -> E. destruct (IH q) as [(v & ->)|(v & ->)]; [exists u; exact E|left; exists v; reflexivity|right; exists v; reflexivity].
  Qed.
  Lemma mkdirs_within main r d h : within main (h, d) (h, fst (p_mkdirs (main ++ r) d)).
  Proof.
    intros q. cbn [snd]. unfold p_mkdirs. destruct (mkdirs_adds (rev (main ++ r)) d q) as [E|(Pq & E1 & E2)]; [left; exact E|].
    rewrite rev_involutive in Pq. destruct (prefix_out _ _ _ Pq) as [H|H]; [auto|right; right; auto].
  Qed.
  Lemma save_results_within base fids posts main ow cosmology mb fx : pres (within main) (save_results csv xlsx base fids posts main ow cosmology mb fx).
  Proof.
    apply save_results_pres; [apply within_rt|intros h d q; left; reflexivity|intros h d; apply mkdirs_within| |].
    - intros h d f q. cbn [snd]. destruct (list_eq_dec string_dec (out_dir main cosmology mb fx ++ [fisher_filename (fname f)]) q) as [<-|N].
      + right; left. unfold out_dir. rewrite <- app_assoc. eexists; reflexivity.
      + left. apply fisher_write_kept. exact N.
    - intros h d t n _ q. cbn [snd]. destruct (list_eq_dec string_dec (out_dir main cosmology mb fx ++ [n]) q) as [<-|N].
      + right; left. unfold out_dir. rewrite <- app_assoc. eexists; reflexivity.
      + left. apply table_kept. exact N.
  Qed.
  Lemma app_snoc_inj {A} (d d' : list A) x y : d ++ [x] = d' ++ [y] -> d = d'.
  Proof. intros E. apply app_inj_tail in E. tauto. Qed.
  Lemma deep_still (d p : path) (s : fs (h5 F)) (h : heap F) : length p <= length d -> still d (h, s) (h, fst (p_mkdirs p s)).
  Proof.
    intros L n. cbn [snd]. unfold p_mkdirs. destruct (mkdirs_adds (rev p) s (d ++ [n])) as [E|((r & E) & _)]; [exact E|]. exfalso.
    rewrite rev_involutive in E. apply (f_equal (@length _)) in E. rewrite !app_length in E. cbn in E. lia.
  Qed.
  Lemma save_results_still base fids posts main ow cosmology mb fx d : length d = 2 + length main -> d <> out_dir main cosmology mb fx ->
    pres (still d) (save_results csv xlsx base fids posts main ow cosmology mb fx).
  Proof.
    intros Ld Nd. apply save_results_pres; [apply still_rt|intros h s n; reflexivity| | |].
    - intros h s. apply deep_still. unfold out_dir. rewrite app_length. cbn. lia.
    - intros h s f n. cbn [snd]. apply fisher_write_kept. intros E. apply app_snoc_inj in E. congruence.
    - intros h s t n' _ n. cbn [snd]. apply table_kept. intros E. apply app_snoc_inj in E. congruence.
  Qed.
  Lemma save_results_heap base fids posts main ow cosmology mb fx : pres (heap_keeps base) (save_results csv xlsx base fids posts main ow cosmology mb fx).
  Proof.
    apply save_results_pres; [apply heap_keeps_rt| |intros h d _ a f V; exact V|intros h d g _ a f V; exact V|intros h d t n _ _ a f V; exact V].
    intros h d L a f V. cbn [fst] in *. eapply keeps_all; [|exact V]. apply (results_fresh h base cosmology fids posts mb fx L).
  Qed.

  (** Directories are never removed. *)
  Definition dirs_stay s s' : Prop := forall q, lookup (snd s) q = Some NDir -> lookup (snd s') q = Some NDir.
  Lemma dirs_rt : rt dirs_stay. Proof. split; [intros s q H; exact H|intros s1 s2 s3 A B q H; apply B, A, H]. Qed.
  Lemma fisher_write_dir outdir ow (f : fisher F) (d : fs (h5 F)) : lookup d (outdir ++ [fisher_filename (fname f)]) = Some NDir -> fst (fisher_write (Some outdir) None ow false f d) = d.
  Proof.
    intros L. unfold fisher_write. cbn [out_path]. unfold write_ops, p_exists. rewrite L. destruct ow; [|reflexivity]. cbn [run_ops run_op]. unfold p_unlink. rewrite L. reflexivity.
  Qed.
  Lemma table_dir {D} (c x : D -> h5 F) (t : D) p ow (d : fs (h5 F)) : lookup d p = Some NDir -> fst (write_table c x t p ow d) = d.
  Proof.
    intros L. unfold write_table. assert (W : forall y, fst (p_write p y d) = d) by (intros y; unfold p_write; destruct (negb _); [reflexivity|]; destruct p; [reflexivity|rewrite L; reflexivity]).
    destruct (negb _ || _); [|reflexivity]. destruct (String.eqb _ ".csv"); [apply W|]. destruct (String.eqb _ ".xlsx"); [apply W|reflexivity].
  Qed.
  Lemma save_results_dirs base fids posts main ow cosmology mb fx : pres dirs_stay (save_results csv xlsx base fids posts main ow cosmology mb fx).
  Proof.
    apply save_results_pres; [exact dirs_rt|intros h d q H; exact H| | |].
    - intros h d q H. unfold p_mkdirs. cbn [snd] in *. destruct (mkdirs_adds (rev (out_dir main cosmology mb fx)) d q) as [E|(_ & E & _)]; congruence.
    - intros h d f q H. cbn [snd] in *. destruct (list_eq_dec string_dec (out_dir main cosmology mb fx ++ [fisher_filename (fname f)]) q) as [<-|N].
      + rewrite fisher_write_dir; assumption.
      + pose proof (fisher_write_kept (out_dir main cosmology mb fx) ow f d q N) as X. unfold path in *. rewrite X. exact H.
    - intros h d t n Hn q H. cbn [snd] in *. destruct (list_eq_dec string_dec (out_dir main cosmology mb fx ++ [n]) q) as [<-|N].
      + rewrite table_dir; assumption.
      + destruct (table_kept csv xlsx t (out_dir main cosmology mb fx ++ [n]) ow d) as (A & _). rewrite A; assumption.
  Qed.
End Programs.
