(** Lemmas for OutModel: a saved result set; loading directories. *)
From Verif Require LinalgLemmas.
From Verif Require Import Base SortLib StrLib FrameModel FrameLemmas FisherModel FisherSpec FisherLemmas FsModel FisherFileModel FileLemmas2 TableModel NameModel
  HeapModel ResultsModel ResultsSpec HeapLemmas ResultsLemmas OutModel OutLemmas OutLemmas2.
Open Scope list_scope.

Section Results.
  Context {F : Type} {K : Fld F} {O : OFld (F := F)} {S : SqrtFld F} {SO : SetOrder}.
  Context (csv xlsx : table (F := F) -> h5 F).
  Notation state := (st (F := F)).

  (** ** Names *)
  Lemma filename_not_table n m : In m table_names -> fisher_filename n <> m.
  Proof. intros H E. unfold fisher_filename in E. cbn in H. destruct H as [<-|[<-|[<-|[<-|[]]]]]; discriminate E. Qed.
  Lemma table_not_fisher m : In m table_names -> is_fisher_file m = false.
  Proof. intros H. cbn in H. destruct H as [<-|[<-|[<-|[<-|[]]]]]; reflexivity. Qed.
  Lemma ends_app a b : ends b (a ++ b) = true.
  Proof.
    unfold ends. apply existsb_exists. exists (String.length a). split.
    - apply in_seq. rewrite slen_app. lia.
    - apply String.eqb_eq. rewrite slen_app. replace (String.length a + String.length b - String.length a) with (String.length b) by lia.
      induction a as [|c a IH]; cbn; [|exact IH]. clear. induction b as [|c b IH]; cbn; [reflexivity|rewrite IH; reflexivity].
  Qed.
  Lemma filename_is_file n : is_fisher_file (fisher_filename n) = true.
  Proof.
    unfold is_fisher_file, fisher_filename. cbn [strip_prefix append Ascii.eqb Bool.eqb].
    change (String "_" (fisher_suffix n ++ ".hdf5"))%string with (("_" ++ fisher_suffix n) ++ ".hdf5")%string. apply ends_app.
  Qed.

  Lemma p_isdir_kept (p : path) (s s' : fs (h5 F)) q : q <> p -> kept (eq p) s s' -> p_isdir s' q = p_isdir s q.
  Proof. intros N H. unfold p_isdir. destruct q; [reflexivity|]. rewrite H by congruence. reflexivity. Qed.
  Lemma snoc_neq (d : path) n : d <> d ++ [n].
  Proof. intros E. apply (f_equal (@length _)) in E. rewrite app_length in E. cbn in E. lia. Qed.

  (** ** Tables *)
  Definition tables_of (te tr : table (F := F)) : list (string * h5 F) :=
    [("marginalized_errors_test_analysis.xlsx", xlsx te); ("marginalized_errors_test_analysis.csv", csv te);
     ("relative_marginalized_errors_test_analysis.xlsx", xlsx tr); ("relative_marginalized_errors_test_analysis.csv", csv tr)]%string.
  Lemma save_table_inv t p ow (h : heap F) s s' : save_table csv xlsx t p ow (h, s) = (s', Ok tt) -> p <> [] ->
    exists x, t = Some x /\ fst s' = h /\ kept (eq p) s (snd s') /\
      let c := if String.eqb (suffix (last p ""%string)) ".csv" then csv x else xlsx x in
      lookup (snd s') p = if ow then Some (NFile c) else match lookup s p with Some y => Some y | None => Some (NFile c) end.
  Proof.
    intros E Np. destruct t as [x|]; [|discriminate E]. exists x. split; [reflexivity|]. cbn [save_table] in E. unfold on_disk in E. cbn [fst snd] in E.
    pose proof (proj1 (table_kept csv xlsx x p ow s)) as Kp. destruct (write_table csv xlsx x p ow s) as [d [[]|e]] eqn:Ew; [|discriminate E]. injection E as <-.
    split; [reflexivity|]. split; [exact Kp|]. cbn [snd]. destruct (table_inv csv xlsx x p ow s d Ew Np) as (A & B).
    destruct ow; [apply A; left; reflexivity|]. destruct (lookup s p) as [y|] eqn:L; [|apply A; right; reflexivity].
    rewrite (B eq_refl); [exact L|discriminate].
  Qed.
  Lemma save_tables_inv outdir ow an (h : heap F) s s' : save_tables csv xlsx outdir ow an (h, s) = (s', Ok tt) ->
    exists te tr, an_errs an = Some te /\ an_rel an = Some tr /\ fst s' = h /\
      kept (fun q => exists n, In n table_names /\ q = outdir ++ [n]) s (snd s') /\
      forall n c, In (n, c) (tables_of te tr) ->
        lookup (snd s') (outdir ++ [n]) = if ow then Some (NFile c) else match lookup s (outdir ++ [n]) with Some y => Some y | None => Some (NFile c) end.
  Proof.
    intros E. unfold save_tables, pbind in E.
    assert (Np : forall n, outdir ++ [n] <> []) by (intros n; destruct outdir; discriminate).
    destruct (save_table csv xlsx (an_errs an) (outdir ++ ["marginalized_errors_test_analysis.xlsx"%string]) ow (h, s)) as [[h1 s1] [[]|e]] eqn:E1; [|discriminate E].
    destruct (save_table_inv _ _ _ _ _ _ E1 (Np _)) as (te & Te & H1 & K1 & L1). cbn [fst snd] in *. subst h1.
    destruct (save_table csv xlsx (an_errs an) (outdir ++ ["marginalized_errors_test_analysis.csv"%string]) ow (h, s1)) as [[h2 s2] [[]|e]] eqn:E2; [|discriminate E].
    destruct (save_table_inv _ _ _ _ _ _ E2 (Np _)) as (te' & Te' & H2 & K2 & L2). cbn [fst snd] in *. subst h2.
    destruct (save_table csv xlsx (an_rel an) (outdir ++ ["relative_marginalized_errors_test_analysis.xlsx"%string]) ow (h, s2)) as [[h3 s3] [[]|e]] eqn:E3; [|discriminate E].
    destruct (save_table_inv _ _ _ _ _ _ E3 (Np _)) as (tr & Tr & H3 & K3 & L3). cbn [fst snd] in *. subst h3.
    destruct (save_table_inv _ _ _ _ _ _ E (Np _)) as (tr' & Tr' & H4 & K4 & L4). destruct s' as [h4 s4]. cbn [fst snd] in *. subst h4.
    assert (te' = te) by congruence. assert (tr' = tr) by congruence. subst te' tr'. exists te, tr. split; [exact Te|]. split; [exact Tr|]. split; [reflexivity|].
    rewrite !last_last in *. cbv [suffix] in L1, L2, L3, L4. cbn in L1, L2, L3, L4.
    assert (D : forall n m, n <> m -> outdir ++ [n] <> outdir ++ [m]) by (intros n m N C; apply app_inj_tail in C; tauto).
    split.
    - intros q Nq. rewrite K4, K3, K2, K1; [reflexivity| | | |]; intros <-; apply Nq; eexists; (split; [|reflexivity]); cbn; auto.
    - intros n c [H|[H|[H|[H|[]]]]]; injection H as <- <-.
      + rewrite K4, K3, K2 by (apply D; discriminate). exact L1.
      + rewrite K4, K3 by (apply D; discriminate). rewrite L2. rewrite K1 by (apply D; discriminate). reflexivity.
      + rewrite K4 by (apply D; discriminate). rewrite L3. rewrite K2, K1 by (apply D; discriminate). reflexivity.
      + rewrite L4. rewrite K3, K2, K1 by (apply D; discriminate). reflexivity.
  Qed.

  (** ** One result set *)
  Lemma save_results_inv base fids posts main ow cosmology mb fx h s s' an :
    save_results csv xlsx base fids posts main ow cosmology mb fx (h, s) = (s', Ok an) ->
    let d := out_dir main cosmology mb fx in
    create_results base cosmology fids posts mb fx h = (fst s', Ok an) /\ p_isdir (snd s') d = true /\
    exists l te tr, Forall2 (fun ka f => view (fst s') (snd ka) = Some f) (an_fishers an) l /\
      an_errs an = Some te /\ an_rel an = Some tr /\
      (ow = false -> forall f, In f l -> lookup s (file_of d f) = None) /\
      (NoDup (map (file_of d) l) -> forall f, In f l -> lookup (snd s') (file_of d f) = Some (NFile (datasets f : h5 F))) /\
      (forall n, is_fisher_file n = true -> (forall f, In f l -> n <> fisher_filename (fname f)) -> lookup (snd s') (d ++ [n]) = lookup s (d ++ [n])) /\
      (forall n c, In (n, c) (tables_of te tr) ->
        lookup (snd s') (d ++ [n]) = if ow then Some (NFile c) else match lookup s (d ++ [n]) with Some y => Some y | None => Some (NFile c) end).
  Proof.
    intros E d. unfold save_results in E. unfold pbind at 1 in E. unfold on_heap in E. cbn [fst snd] in E.
    destruct (create_results base cosmology fids posts mb fx h) as [h1 [an0|e]] eqn:Ec; [|discriminate E]. cbn zeta in E. fold (out_dir main cosmology mb fx) in E. fold d in E.
    unfold pbind at 1 in E. unfold on_disk in E. cbn [fst snd] in E.
    pose proof (deep_still d d s h1 (le_n _)) as Sm. pose proof (mkdirs_isdir (rev d) s) as Dm. rewrite rev_involutive in Dm. change (mkdirs_rev (rev d) s) with (p_mkdirs d s) in Dm.
    destruct (p_mkdirs d s) as [s1 [[]|e]] eqn:Em; [|discriminate E]. cbn [fst snd] in Dm. specialize (Dm eq_refl). unfold still in Sm. cbn [fst snd] in Sm.
    unfold pbind at 1 in E. destruct (save_fishers d ow an0 (h1, s1)) as [[h2 s2] [[]|e]] eqn:Es; [|discriminate E].
    destruct (save_fishers_inv d ow _ _ _ _ Es) as (l & Fa & Eh & Nl & Kl & Dl). cbn [fst snd] in *. subst h2.
    unfold pbind at 1 in E. destruct (save_tables csv xlsx d ow an0 (h1, s2)) as [[h3 s3] [[]|e]] eqn:Et; [|discriminate E].
    destruct (save_tables_inv _ _ _ _ _ _ Et) as (te & tr & Te & Tr & Eh & Kt & Lt). cbn [fst snd] in *. subst h3. cbn in E. injection E as <- <-. cbn [fst snd].
    split; [reflexivity|].
    assert (Kf : forall n, ~ In n table_names -> lookup s3 (d ++ [n]) = lookup s2 (d ++ [n])).
    { intros n Hn. apply Kt. intros (m & Hm & C). apply app_inj_tail in C. destruct C as [_ ->]. exact (Hn Hm). }
    split.
    - assert (Q : lookup s3 d = lookup s1 d).
      { rewrite Kt; [rewrite Kl; [reflexivity|]|].
        - intros (f & _ & C). exact (snoc_neq _ _ C).
        - intros (n & _ & C). exact (snoc_neq _ _ C). }
      rewrite <- Dm. unfold p_isdir. rewrite Q. reflexivity.
    - exists l, te, tr. split; [exact Fa|]. split; [exact Te|]. split; [exact Tr|]. split; [|split; [|split]].
      + intros Ho f Hf. specialize (Nl Ho f Hf). unfold file_of in *. rewrite <- Sm. exact Nl.
      + intros N f Hf. specialize (Dl N f Hf). unfold file_of in *. rewrite Kf; [exact Dl|]. intros C. exact (filename_not_table _ _ C eq_refl).
      + intros n Hn Nf. rewrite Kf by (intros C; rewrite (table_not_fisher n C) in Hn; discriminate Hn). rewrite Kl; [apply Sm|].
        intros (f & Hf & C). unfold file_of in C. apply app_inj_tail in C. destruct C as [_ C]. exact (Nf f Hf C).
      + intros n c Hn. rewrite (Lt n c Hn). assert (Ht : In n table_names) by (cbn in Hn; destruct Hn as [H|[H|[H|[H|[]]]]]; injection H as <- _; cbn; auto).
        assert (Q : lookup s2 (d ++ [n]) = lookup s (d ++ [n])); [|rewrite Q; reflexivity]. rewrite Kl; [apply Sm|].
        intros (f & _ & C). unfold file_of in C. apply app_inj_tail in C. destruct C as [_ C]. symmetry in C. exact (filename_not_table _ _ Ht C).
  Qed.

  (** ** Loading *)
  Lemma dset_fresh (d : odict) k a : ~ In k (dkeys d) -> dset String.eqb d k a = d ++ [(k, a)].
  Proof.
    induction d as [|[k' b] d IH]; intros H; [reflexivity|]. cbn. destruct (String.eqb_spec k' k) as [->|N]; [elim H; left; reflexivity|].
    rewrite IH; [reflexivity|]. intros C. apply H. right; exact C.
  Qed.
  (** A dictionary of new objects holding [l]. *)
  Definition holds_list (h0 h : heap F) (b : odict) (l : list (fisher F)) : Prop :=
    dkeys b = map (fun f => fname f) l /\ Forall2 (fun ka f => view h (snd ka) = Some f) b l /\ NoDup (map snd b) /\
    forall k a, In (k, a) b -> length (obs h0) <= a.
  Section Load.
    (** Both loops load files one by one into a dictionary by name. *)
    Context (ld : path -> P (F := F) (fisher F)) (d : path) (go : list string -> odict -> P (F := F) odict).
    Hypothesis go_nil : forall acc, go [] acc = pret acc.
    Hypothesis go_cons : forall n r acc, go (n :: r) acc = pbind (ld (d ++ [n])) (fun f =>
        pbind (on_heap (fun h => let (h', a) := h_alloc f h in (h', Ok a))) (fun a => go r (dset String.eqb acc (fname f) a))).
    Hypothesis ld_pure : forall p s, fst (ld p s) = s.
    Lemma go_build files : forall acc h0 h s l0 l, Forall2 (fun n f => forall h, snd (ld (d ++ [n]) (h, s)) = Ok f) files l ->
      NoDup (map (fun f => fname f) (l0 ++ l)) -> holds_list h0 h acc l0 -> length (obs h0) <= length (obs h) ->
      exists h' b, go files acc (h, s) = ((h', s), Ok b) /\ grows h h' /\ holds_list h0 h' b (l0 ++ l).
    Proof.
      induction files as [|n files IH]; intros acc h0 h s l0 l D N H Hl.
      - inversion D; subst. exists h, acc. rewrite go_nil, app_nil_r. split; [reflexivity|]. split; [apply grows_refl|exact H].
      - inversion D as [|? f ? l' E D']; subst. rewrite go_cons. unfold pbind at 1. specialize (E h). pose proof (ld_pure (d ++ [n]) (h, s)) as Lk.
        destruct (ld (d ++ [n]) (h, s)) as [s1 r]. cbn [fst snd] in *. subst s1 r.
        unfold pbind at 1, on_heap at 1. cbn [fst snd]. pose proof (alloc_spec f h) as Al. destruct (h_alloc f h) as [h1 a] eqn:Ea. destruct Al as (Gr & La & Va).
        assert (Nf : ~ In (fname f) (map (fun g => fname g) l0)).
        { rewrite map_app in N. cbn [map] in N. apply NoDup_remove_2 in N. intros C. apply N. apply in_or_app. left; exact C. }
        destruct (IH (dset String.eqb acc (fname f) a) h0 h1 s (l0 ++ [f]) l') as (h' & b & E' & G' & H').
        + exact D'.
        + rewrite <- app_assoc. exact N.
        + destruct H as (H1 & H2 & H3 & H4). rewrite dset_fresh by (rewrite H1; exact Nf). split; [unfold dkeys in *; rewrite !map_app, H1; reflexivity|].
          split; [|split].
          * apply Forall2_app; [|constructor; [exact Va|constructor]]. clear -H2 Gr. induction H2 as [|x y ? ? Hx ? IH]; constructor; [eapply grows_view; eauto|exact IH].
          * rewrite map_app. cbn. apply LinalgLemmas.NoDup_app_intro; [exact H3|repeat constructor; intros []|]. intros x Hx [<-|[]].
            apply in_map_iff in Hx. destruct Hx as ([k' a'] & Ex & Hx). cbn in Ex. subst a'.
            assert (X : exists g, view h a = Some g) by (clear -H2 Hx; induction H2 as [|p y ? ? Hp ? IH]; [destruct Hx|destruct Hx as [->|Hx]; [exists y; exact Hp|apply IH; exact Hx]]).
            destruct X as (g & Vg). apply view_lt in Vg. lia.
          * intros k' a' Hin. apply in_app_iff in Hin. destruct Hin as [Hin|[Hin|[]]]; [eapply H4; eauto|]. injection Hin as <- <-. lia.
        + pose proof (grows_length _ _ Gr). lia.
        + exists h', b. split; [exact E'|]. split; [eapply grows_trans; eauto|]. rewrite <- app_assoc in H'. exact H'.
    Qed.
    (** The first file that cannot be loaded ends the loop. *)
    Lemma go_fails files : forall acc h s e, (forall n h, In n files -> match snd (ld (d ++ [n]) (h, s)) with Ok _ => True | Err e' => e' = e end) ->
      (exists n, In n files /\ forall h, snd (ld (d ++ [n]) (h, s)) = Err e) ->
      snd (go files acc (h, s)) = Err e.
    Proof.
      induction files as [|n files IH]; intros acc h s e D X; [destruct X as (? & [] & _)|]. rewrite go_cons. unfold pbind at 1.
      pose proof (D n h (or_introl eq_refl)) as Dn. pose proof (ld_pure (d ++ [n]) (h, s)) as Lk. destruct (ld (d ++ [n]) (h, s)) as [s1 r] eqn:El. cbn [fst snd] in *. subst s1.
      destruct r as [f|e']; [|cbn; congruence]. unfold pbind at 1, on_heap at 1. cbn [fst snd]. destruct (h_alloc f h) as [h1 a]. apply IH.
      - intros m h' Hm. apply D. right; exact Hm.
      - destruct X as (m & [->|Hm] & Hx); [|exists m; auto]. specialize (Hx h). rewrite El in Hx. discriminate Hx.
    Qed.
    Lemma go_pure files : forall acc s, snd (fst (go files acc s)) = snd s /\ grows (fst s) (fst (fst (go files acc s))).
    Proof.
      induction files as [|n files IH]; intros acc [h s]; [rewrite go_nil; split; [reflexivity|apply grows_refl]|]. rewrite go_cons. unfold pbind at 1 3.
      pose proof (ld_pure (d ++ [n]) (h, s)) as Lk. destruct (ld (d ++ [n]) (h, s)) as [s1 [f|e']]; cbn [fst] in Lk; subst s1; [|split; [reflexivity|apply grows_refl]].
      unfold pbind, on_heap. cbn [fst snd]. pose proof (alloc_spec f h) as Al. destruct (h_alloc f h) as [h1 a]. destruct Al as (Gr & _).
      destruct (IH (dset String.eqb acc (fname f) a) (h1, s)) as (A & B). split; [exact A|]. eapply grows_trans; [exact Gr|exact B].
    Qed.
  End Load.
  Lemma holds_nil (h : heap F) : holds_list h h [] [].
  Proof. split; [reflexivity|]. split; [constructor|]. split; [constructor|intros k a []]. Qed.
End Results.
