(** Property C103, continued: a second run into the same directory and loading
    the results of a run. *)
From Verif Require Import Base MatInv LabLin SortLib StrLib FrameModel FrameLemmas FisherModel FisherSpec FisherLemmas FisherLemmas2 FisherLemmas5 FsModel FisherFileModel FileLemmas2 TableModel NameModel
  HeapModel ResultsModel ResultsSpec HeapLemmas ResultsLemmas ResultsLemmas2 ResultsLemmas3 ResultsProps ResultsProps2 OutModel OutLemmas OutLemmas2 OutLemmas3 OutProps.
From Coq Require Import Permutation.
Open Scope list_scope.

Section Props.
  Context {F : Type} {K : Fld F} {O : OFld (F := F)} {S : SqrtFld F} {SO : SetOrder}.
  Context (csv xlsx : table (F := F) -> h5 F).
  Implicit Types s : fs (h5 F).
  Implicit Types f g : fisher F.

  (** ** A second run *)
  Lemma prefix_snoc (p q : path) n r : q ++ [n] = p ++ r -> (exists r', q = p ++ r') \/ p = q ++ [n].
  Proof.
    intros E. destruct r as [|x r] using rev_ind; [right; rewrite app_nil_r in E; auto|]. clear IHr.
    rewrite app_assoc in E. apply app_inj_tail in E. left. exists r. apply E.
  Qed.
  (** Directories of which neither is inside the other. *)
  Definition apart (p q : path) : Prop := (forall r, p <> q ++ r) /\ (forall r, q <> p ++ r).
  (** The base matrices are not affected by creating final results elsewhere. *)
  Lemma base_kept base_dir main fids posts ow h s : apart base_dir main ->
    let s' := snd (fst (create_final csv xlsx H2 base_dir main fids posts ow (h, s))) in
    (forall n, lookup s' (base_dir ++ [n]) = lookup s (base_dir ++ [n])) /\ lookup s' base_dir = lookup s base_dir.
  Proof.
    intros (A1 & A2) s'. destruct (C103_untouched csv xlsx base_dir main fids posts ow h s) as (W & _). fold s' in W. split.
    - intros n. destruct (W (base_dir ++ [n])) as [E|[(r & E)|((r & E) & _)]]; [exact E| |].
      + exfalso. destruct (prefix_snoc _ _ _ _ E) as [(r' & E')|E']; [exact (A1 _ E')|exact (A2 _ E')].
      + exfalso. rewrite <- app_assoc in E. exact (A2 _ E).
    - destruct (W base_dir) as [E|[(r & E)|((r & E) & _)]]; [exact E|exfalso; exact (A1 _ E)|exfalso; exact (A2 _ E)].
  Qed.
  Lemma holds_kept s s' d : (forall n, lookup s' (d ++ [n]) = lookup s (d ++ [n])) -> lookup s' d = lookup s d ->
    (forall f, holds s' d f <-> holds s d f) /\ (sound s d -> sound s' d).
  Proof.
    intros E Ed. assert (L : forall n, fisher_load H2 (d ++ [n]) s' = fisher_load H2 (d ++ [n]) s) by (intros n; apply load_lookup, E). split.
    - intros f. unfold holds. assert (D : p_isdir s' d = p_isdir s d) by (unfold p_isdir; rewrite Ed; reflexivity). rewrite D.
      split; (intros (A & n & B & C); split; [exact A|]; exists n; split; [exact B|]); [rewrite <- L|rewrite L]; exact C.
    - intros (A & B). split.
      + intros n Hn He. rewrite L. apply A; [exact Hn|]. unfold p_exists in *. rewrite <- E. exact He.
      + intros n n' f f' Hn Hn' Lf Lf'. rewrite L in Lf, Lf'. apply B; assumption.
  Qed.

  Theorem C103_rerun base_dir main fids cs h s h' s' : sound s base_dir -> apart base_dir main -> (exists f, holds s base_dir f) ->
    (forall f, holds s base_dir f -> plain (fname f)) -> (forall x n, In x cs -> needs x n -> plain n) ->
    (forall k k', result_name s base_dir cs k -> result_name s base_dir cs k' -> fisher_filename k = fisher_filename k' -> k = k') ->
    create_final csv xlsx H2 base_dir main fids (map cname cs) false (h, s) = ((h', s'), Ok tt) ->
    forall h0, exists e, snd (create_final csv xlsx H2 base_dir main fids (map cname cs) false (h0, s')) = Err e.
  Proof.
    intros Hs Ap (f & Hf) Pl Pc Dist E h0.
    destruct (create_final csv xlsx H2 base_dir main fids (map cname cs) false (h0, s')) as [[h2 s2] [[]|e]] eqn:E2; [|exists e; reflexivity]. exfalso.
    pose proof (base_kept base_dir main fids (map cname cs) false h s Ap) as Kb. rewrite E in Kb. cbn [fst snd] in Kb. destruct Kb as (Kb1 & Kb2).
    destruct (holds_kept s s' base_dir Kb1 Kb2) as (Hh & Hso).
    assert (Av : forall n, available s' base_dir n <-> available s base_dir n) by (intros n; unfold available; split; intros (g & A & B); exists g; (split; [apply Hh; exact A|exact B])).
    assert (Rn : forall k, result_name s' base_dir cs k <-> result_name s base_dir cs k).
    { intros k. unfold result_name. rewrite Av. split; (intros [H|(x & A & B & C)]; [left; exact H|right; exists x; split; [exact A|split; [exact B|]]; intros n Hn; apply Av, C, Hn]). }
    assert (Hc : In "LCDM"%string ["w0_wa_CDM"; "LCDM"]%string) by (right; left; reflexivity).
    assert (Hv : In (true, false) [(true, false); (false, false); (true, true)]) by (left; reflexivity).
    destruct (C103_final csv xlsx base_dir main fids cs false h s h' s' Hs Pl Pc Dist E _ _ _ Hc Hv) as (_ & (treat & T & _) & _).
    destruct (T f Hf) as (_ & (g & Lg & _)).
    destruct (C103_final csv xlsx base_dir main fids cs false h0 s' h2 s2 (Hso Hs)) with (c := "LCDM"%string) (mb := true) (fx := false) as (_ & _ & _ & Nn); auto.
    - intros f' Hf'. apply Pl, Hh, Hf'.
    - intros k k' Hk Hk'. apply Dist; apply Rn; assumption.
    - assert (Rf : result_name s' base_dir cs (fname f)) by (apply Rn; left; exists f; auto).
      specialize (Nn eq_refl (fname f) Rf). apply load_exists in Lg. unfold p_exists in Lg. cbn in Nn, Lg. rewrite Nn in Lg. discriminate Lg.
  Qed.

  (** ** Loading results *)
  (** What is loaded for given cosmological parameters: the part of the matrix
      for these and its nuisance parameters. *)
  Definition part (ps : list string) f t : Prop :=
    wf t /\ fname t = fname f /\ (forall x, In x (labels t) <-> In x ps \/ In x (fnuis f)) /\
    (forall a b, In a (labels t) -> In b (labels t) -> fval t a b = fval f a b) /\
    (forall x, In x (fcosmo t) <-> In x ps) /\ (forall x, In x (fnuis t) <-> In x (fnuis f)).
  Lemma select_part (fids : dict string F) f : wf f -> fmflag f = true ->
    (forall x, In x (dkeys fids) -> In x (labels f)) -> exists t, select_relevant (with_cosmo (set_of (dkeys fids)) f) = (t, Ok tt) /\ part (dkeys fids) f t.
  Proof.
    intros (Ok1 & N1 & N2 & L) Fl Sb. unfold select_relevant. cbn [with_cosmo fcosmo fnuis fmat fmflag]. rewrite Fl.
    set (rel0 := set_union (set_of (dkeys fids)) (fnuis f)).
    assert (Hr0 : forall x, In x rel0 <-> In x (dkeys fids) \/ In x (fnuis f)) by (intros x; unfold rel0; rewrite set_union_In, set_of_In; reflexivity).
    assert (E0 : subsetb rel0 (ix (fmat f)) = true).
    { apply subsetb_spec. intros x Hx. apply Hr0 in Hx. destruct Hx as [Hx|Hx]; [apply Sb; exact Hx|apply L; right; exact Hx]. }
    rewrite E0. cbn [negb]. set (rel := set_diff rel0 []).
    assert (Hr : forall x, In x rel <-> In x (dkeys fids) \/ In x (fnuis f)) by (intros x; unfold rel; rewrite set_diff_In, Hr0; cbn; tauto).
    assert (Nr : NoDup rel) by (apply set_diff_NoDup, set_union_NoDup).
    destruct (loc_ok (fmat f) rel Ok1 Nr) as (m & E & Okm & Im & Cm).
    { intros x Hx. apply Hr in Hx. destruct Hx as [Hx|Hx]; [apply Sb; exact Hx|apply L; right; exact Hx]. }
    rewrite E. destruct (sort_ok m Okm) as (Oks & _). eexists. split; [reflexivity|].
    assert (Hl : forall x, In x (ssort (ix m)) <-> In x (dkeys fids) \/ In x (fnuis f)) by (intros x; rewrite ssort_In, Im; apply Hr).
    split; [|split; [reflexivity|split; [exact Hl|split; [|split; [intros x; apply set_of_In|reflexivity]]]]].
    - split; [exact Oks|]. split; [apply set_of_NoDup|]. split; [exact N2|]. intros x. cbn. rewrite Hl, set_of_In. reflexivity.
    - intros a b _ _. unfold fval, fv. cbn [with_mat fmat f_sort1 f_sort0 ce]. rewrite Cm. reflexivity.
  Qed.
  Lemma select_lacks (fids : dict string F) f x : In x (dkeys fids) -> ~ In x (labels f) -> snd (select_relevant (with_cosmo (set_of (dkeys fids)) f)) = Err EDomain.
  Proof.
    intros Hx Nx. unfold select_relevant. cbn [with_cosmo fcosmo fnuis fmat].
    destruct (subsetb (set_union (set_of (dkeys fids)) (fnuis f)) (ix (fmat f))) eqn:E; [|reflexivity]. exfalso. apply Nx. apply subsetb_spec with (x := x) in E; [exact E|].
    apply set_union_In. left. apply set_of_In. exact Hx.
  Qed.
  Lemma load_flag v p s f : fisher_load v p s = Ok f -> fmflag f = true.
  Proof.
    unfold fisher_load. intros E. repeat match type of E with rbind ?m _ = _ => destruct m; [cbn [rbind] in E|discriminate E] end. injection E as <-. reflexivity.
  Qed.
  Lemma load_relevant_pure v (fids : dict string F) p t : fst (load_relevant v fids p t) = t.
  Proof. unfold load_relevant. destruct (fisher_load v p (snd t)); [|reflexivity]. destruct (select_relevant _) as [? [|]]; reflexivity. Qed.
  Lemma dupdate_nil (b : odict) : NoDup (dkeys b) -> dupdate String.eqb [] b = b.
  Proof.
    unfold dupdate. assert (X : forall a : odict, NoDup (dkeys (a ++ b)) -> fold_left (fun e kv => dset String.eqb e (fst kv) (snd kv)) b a = a ++ b).
    { induction b as [|[k v] b IH]; intros a N; [symmetry; apply app_nil_r|]. cbn [fold_left fst snd]. rewrite dset_fresh.
      - rewrite IH; [rewrite <- app_assoc; reflexivity|]. rewrite <- app_assoc. exact N.
      - unfold dkeys in *. rewrite map_app in N. cbn in N. apply NoDup_remove_2 in N. intros C. apply N. apply in_or_app. left; exact C. }
    intros N. exact (X [] N).
  Qed.

  (** fromFishersDir on a sound directory. *)
  Lemma from_dir_ok (fids : dict string F) d h s : sound s d -> p_isdir s d = true ->
    (forall f x, holds s d f -> In x (dkeys fids) -> In x (labels f)) ->
    exists h' an, from_dir H2 fids d (h, s) = ((h', s), Ok an) /\ grows h h' /\ an_fid an = fids /\ an_base an = Some (an_fishers an) /\ NoDup (dkeys (an_fishers an)) /\
      (forall k, In k (dkeys (an_fishers an)) <-> exists f, holds s d f /\ k = fname f) /\
      (forall f, holds s d f -> exists t, at_key h' (an_fishers an) (fname f) = Some t /\ part (dkeys fids) f t).
  Proof.
    intros Hs Hd Sb. unfold from_dir. cbn [snd]. rewrite Hd. cbn [orb negb]. destruct (load_list s d Hs) as (l & Fl & Nl & Hl & Wl).
    assert (Q : exists l', Forall2 (fun n t => forall h, snd (load_relevant H2 fids (d ++ [n]) (h, s)) = Ok t) (fisher_files d s) l' /\
       Forall2 (fun f t => part (dkeys fids) f t) l l').
    { assert (Hh : forall f, In f l -> holds s d f) by (intros f; apply Hl). clear -Fl Hh Wl Sb. induction Fl as [|n f ns l E D IH]; [exists []; split; constructor|].
      destruct IH as (l' & A & B); [intros; apply Wl; right; assumption|intros; apply Hh; right; assumption|].
      destruct (select_part fids f (Wl f (or_introl eq_refl)) (load_flag _ _ _ _ E)) as (t & Et & Pt); [intros x Hx; apply (Sb f x); [apply Hh; left; reflexivity|exact Hx]|].
      exists (t :: l'). split; constructor; auto. intros h0. unfold load_relevant. cbn [snd]. rewrite E, Et. reflexivity. }
    destruct Q as (l' & D' & Pl).
    assert (Nn : map (fun f => fname f) l' = map (fun f => fname f) l).
    { clear -Pl. induction Pl as [|f t l l' H D IH]; [reflexivity|]. cbn. destruct H as (_ & -> & _). f_equal. exact IH. }
    destruct (go_build (load_relevant H2 fids) d (load_dir H2 fids d) (fun _ => eq_refl) (fun _ _ _ => eq_refl) (load_relevant_pure H2 fids) (fisher_files d s) [] h h s [] l') as (h1 & b & E & G & H).
    - exact D'.
    - cbn [app]. rewrite Nn. exact Nl.
    - apply holds_nil.
    - lia.
    - cbn [app] in H. assert (Nl' : NoDup (map (fun f => fname f) l')) by (rewrite Nn; exact Nl). destruct (holds_key _ _ _ _ H Nl') as (A & B). destruct H as (H1 & _ & H3 & _).
      assert (Nb : NoDup (dkeys b)) by (rewrite H1; exact Nl').
      exists h1, (mkAn (Some b) b None fids None None true). split.
      + unfold pbind. rewrite E. unfold use_base. cbn [an_base an_order an_fid an_errs an_rel an_flag]. rewrite (dupdate_nil b Nb). reflexivity.
      + cbn [an_fid an_base an_fishers]. split; [exact G|]. split; [reflexivity|]. split; [reflexivity|]. split; [exact Nb|]. split.
        * intros k. rewrite H1, Nn, in_map_iff. split; [intros (f & <- & Hf); exists f; split; [apply Hl; exact Hf|reflexivity]|intros (f & Hf & ->); exists f; split; [reflexivity|apply Hl; exact Hf]].
        * intros f Hf. apply Hl in Hf. destruct (Forall2_l _ _ _ _ Pl Hf) as (t & Ht & Pt). exists t. split; [|exact Pt]. destruct Pt as (_ & Nt & _). rewrite <- Nt. apply A; exact Ht.
  Qed.
  Lemma from_dir_fails (fids : dict string F) d h s f x : sound s d -> holds s d f -> In x (dkeys fids) -> ~ In x (labels f) ->
    snd (from_dir H2 fids d (h, s)) = Err EDomain.
  Proof.
    intros Hs Hf Hx Nx. unfold from_dir. cbn [snd]. rewrite (proj1 Hf). cbn [orb negb]. unfold pbind.
    assert (Q : snd (load_dir H2 fids d (fisher_files d s) [] (h, s)) = Err EDomain).
    { apply (go_fails (load_relevant H2 fids) d (load_dir H2 fids d) (fun _ _ _ => eq_refl) (load_relevant_pure H2 fids)).
      - intros n h0 Hn. apply files_In in Hn. destruct Hn as (_ & Fn & En). destruct (proj1 Hs n Fn En) as (g & Lg & Wg). unfold load_relevant. cbn [snd]. rewrite Lg.
        destruct (subsetb (dkeys fids) (labels g)) eqn:Es.
        + destruct (select_part fids g Wg (load_flag _ _ _ _ Lg)) as (t' & Et & _); [apply subsetb_spec; exact Es|]. rewrite Et. exact I.
        + assert (X : exists y, In y (dkeys fids) /\ ~ In y (labels g)).
          { clear -Es. unfold subsetb in Es. induction (dkeys fids) as [|p ps IH]; [discriminate|]. cbn in Es. destruct (smem p (labels g)) eqn:M.
            - destruct IH as (y & A & B); [exact Es|]. exists y. split; [right; exact A|exact B].
            - exists p. split; [left; reflexivity|apply smem_false; exact M]. }
          destruct X as (y & Hy & Ny). pose proof (select_lacks fids g y Hy Ny) as Q'. destruct (select_relevant _) as [? [|]]; [discriminate Q'|cbn in *; congruence].
      - apply holds_files in Hf. destruct Hf as (n & Hn & Ln). exists n. split; [exact Hn|]. intros h0. unfold load_relevant. cbn [snd]. rewrite Ln.
        pose proof (select_lacks fids f x Hx Nx) as Q'. destruct (select_relevant _) as [? [|]]; [discriminate Q'|cbn in *; congruence]. }
    destruct (load_dir H2 fids d (fisher_files d s) [] (h, s)) as [t [b|e]]; cbn [snd] in *; [discriminate Q|congruence].
  Qed.

  (** ** The results of a run *)
  (** Combinations of matrices: their parameters. *)
  Lemma comb_params gs : forall f0, wf f0 -> (forall og, In og gs -> wf (snd og)) ->
    (forall x, In x (labels (comb_value f0 gs)) <-> In x (labels f0) \/ exists og, In og gs /\ In x (labels (snd og))) /\
    (forall x, In x (fcosmo (comb_value f0 gs)) <-> In x (fcosmo f0) \/ exists og, In og gs /\ In x (fcosmo (snd og))) /\
    (forall x, In x (fnuis (comb_value f0 gs)) <-> In x (fnuis f0) \/ exists og, In og gs /\ In x (fnuis (snd og))).
  Proof.
    unfold comb_value. induction gs as [|[b g] gs IH]; intros f0 W Wg.
    - cbn [fold_left]. assert (N : forall (Q : bool * fisher F -> Prop), (exists og, In og [] /\ Q og) <-> False) by (intros Q; split; [intros (? & [] & _)|intros []]).
      split; [|split]; intros x; rewrite N; tauto.
    - cbn [fold_left fst snd]. assert (W' : wf g) by (apply (Wg (b, g)); left; reflexivity).
      assert (X : let h := if b then fisher_add f0 g else fisher_sub f0 g in wf h /\ (forall x, In x (labels h) <-> In x (labels f0) \/ In x (labels g)) /\
        (forall x, In x (fcosmo h) <-> In x (fcosmo f0) \/ In x (fcosmo g)) /\ (forall x, In x (fnuis h) <-> In x (fnuis f0) \/ In x (fnuis g))).
      { destruct b; [destruct (fcombine_spec fadd " + " f0 g W W') as (A & B & _ & C & D & _)|destruct (fcombine_spec fsub " - " f0 g W W') as (A & B & _ & C & D & _)]; auto. }
      destruct X as (A & B & C & D). destruct (IH _ A) as (I1 & I2 & I3); [intros og H; apply Wg; right; exact H|].
      assert (N : forall (Q : fisher F -> Prop), (exists og, In og ((b, g) :: gs) /\ Q (snd og)) <-> Q g \/ exists og, In og gs /\ Q (snd og)).
      { intros Q. split; [intros (og & [<-|H] & R); [left; exact R|right; exists og; auto]|intros [R|(og & H & R)]; [exists (b, g); split; [left; reflexivity|exact R]|exists og; split; [right; exact H|exact R]]]. }
      split; [|split]; intros x; [rewrite I1, B, (N (fun y => In x (labels y)))|rewrite I2, C, (N (fun y => In x (fcosmo y)))|rewrite I3, D, (N (fun y => In x (fnuis y)))]; tauto.
  Qed.

  Lemma varies_dec c x : In c cosmologies -> varies c x \/ ~ varies c x.
  Proof.
    intros Hc. pose proof (C100_free_parameters c) as Fr. destruct (free_names c) as [l|].
    - destruct Fr as (_ & _ & Fr). destruct (in_dec string_dec x l) as [I|I]; [left; apply Fr; exact I|right; intros V; apply I, Fr; exact V].
    - exfalso. apply (proj2 Fr). destruct Hc as [<-|[<-|[]]]; cbn; auto.
  Qed.
  (** The free cosmological parameters of the base matrices are those of the
      run, none of them is a nuisance parameter. *)
  Definition run_base s (d : path) (fids : dict string F) : Prop := forall f, holds s d f ->
    (forall x, In x (fcosmo f) <-> In x (dkeys fids)) /\ (forall x, In x (fcosmo f) -> ~ In x (fnuis f)).
  Lemma treated_params c fids mb fx f g : In c cosmologies -> (forall x, In x (fcosmo f) <-> In x (dkeys fids)) -> (forall x, In x (fcosmo f) -> ~ In x (fnuis f)) ->
    treated c fids mb fx f g ->
    wf g /\ (forall x, In x (fcosmo g) <-> In x (dkeys fids) /\ varies c x) /\ (forall x, In x (dkeys fids) -> ~ varies c x -> ~ In x (labels g)).
  Proof.
    intros Hc A B (W & _ & L & C & _). split; [exact W|]. split.
    - intros x. rewrite C, A. split.
      + intros (H1 & H3 & _). split; [exact H1|]. destruct (varies_dec c x Hc) as [V|V]; [exact V|]. exfalso. apply H3. auto.
      + intros (H1 & V). split; [exact H1|]. split; [tauto|]. intros (Hn & _). apply (B x); [apply A; exact H1|exact Hn].
    - intros x Hx V Hl. apply L in Hl. tauto.
  Qed.
  Lemma cvalue_params treat c (fids : dict string F) (y : comb) : (forall n, needs y n -> wf (treat n) /\ (forall x, In x (fcosmo (treat n)) <-> In x (dkeys fids) /\ varies c x) /\
      (forall x, In x (dkeys fids) -> ~ varies c x -> ~ In x (labels (treat n)))) ->
    (forall x, In x (fcosmo (cvalue treat y)) <-> In x (dkeys fids) /\ varies c x) /\ (forall x, In x (dkeys fids) -> ~ varies c x -> ~ In x (labels (cvalue treat y))).
  Proof.
    intros H. destruct (comb_params (map (fun on => (fst on, treat (snd on))) (snd y)) (treat (fst y))) as (L & C & _).
    - apply H. left; reflexivity.
    - intros og Hog. apply in_map_iff in Hog. destruct Hog as (on & <- & Hon). cbn [snd]. apply H. right. apply in_map; exact Hon.
    - destruct (H (fst y) (or_introl eq_refl)) as (_ & H1 & H3).
      assert (Op : forall og, In og (map (fun on => (fst on, treat (snd on))) (snd y)) -> (forall x, In x (fcosmo (snd og)) <-> In x (dkeys fids) /\ varies c x) /\
        (forall x, In x (dkeys fids) -> ~ varies c x -> ~ In x (labels (snd og)))).
      { intros og Hog. apply in_map_iff in Hog. destruct Hog as (on & <- & Hon). cbn [snd]. apply H. right. apply in_map; exact Hon. }
      split.
      + intros x. unfold cvalue. rewrite C, H1. split; [intros [Q|(og & Hog & Q)]; [exact Q|apply (Op og Hog); exact Q]|left; assumption].
      + intros x Hx V Hl. unfold cvalue in Hl. apply L in Hl. destruct Hl as [Hl|(og & Hog & Hl)]; [exact (H3 x Hx V Hl)|exact (proj2 (Op og Hog) x Hx V Hl)].
  Qed.

  (** What a directory of results holds. *)
  Lemma result_dir base_dir main fids cs ow h s h' s' c mb fx : sound s base_dir ->
    (forall f, holds s base_dir f -> plain (fname f)) -> (forall x n, In x cs -> needs x n -> plain n) ->
    (forall k k', result_name s base_dir cs k -> result_name s base_dir cs k' -> fisher_filename k = fisher_filename k' -> k = k') ->
    run_base s base_dir fids ->
    create_final csv xlsx H2 base_dir main fids (map cname cs) ow (h, s) = ((h', s'), Ok tt) -> In c cosmologies -> In (mb, fx) variants ->
    let d := out_dir main c mb fx in
    (forall n, is_fisher_file n = true -> lookup s (d ++ [n]) = None) ->
    p_isdir s' d = true /\ sound s' d /\ (forall k, result_name s base_dir cs k <-> exists g, holds s' d g /\ fname g = k) /\
    (forall g, holds s' d g -> fisher_load H2 (d ++ [fisher_filename (fname g)]) s' = Ok g) /\
    (forall g, holds s' d g -> wf g /\ (forall x, In x (fcosmo g) <-> In x (dkeys fids) /\ varies c x) /\ (forall x, In x (dkeys fids) -> ~ varies c x -> ~ In x (labels g))).
  Proof.
    intros Hs Pl Pc Dist Rb E Hc Hv d Fresh.
    destruct (C103_final csv xlsx base_dir main fids cs ow h s h' s' Hs Pl Pc Dist E c mb fx Hc Hv) as (Dd & (treat & T1 & T2) & Oth & _). change (main ++ [c; _]) with d in *.
    assert (Tp : forall n, available s base_dir n -> wf (treat n) /\ (forall x, In x (fcosmo (treat n)) <-> In x (dkeys fids) /\ varies c x) /\
      (forall x, In x (dkeys fids) -> ~ varies c x -> ~ In x (labels (treat n)))).
    { intros n (f & Hf & <-). destruct (Rb f Hf) as (R1 & R2). exact (treated_params c fids mb fx f _ Hc R1 R2 (proj1 (T1 f Hf))). }
    assert (St : forall k, result_name s base_dir cs k -> exists g, fisher_load H2 (d ++ [fisher_filename k]) s' = Ok g /\ fname g = k /\ wf g /\
      (forall x, In x (fcosmo g) <-> In x (dkeys fids) /\ varies c x) /\ (forall x, In x (dkeys fids) -> ~ varies c x -> ~ In x (labels g))).
    { assert (Q : forall g v, same g v -> wf g -> (forall x, In x (fcosmo v) <-> In x (dkeys fids) /\ varies c x) -> (forall x, In x (dkeys fids) -> ~ varies c x -> ~ In x (labels v)) ->
        wf g /\ (forall x, In x (fcosmo g) <-> In x (dkeys fids) /\ varies c x) /\ (forall x, In x (dkeys fids) -> ~ varies c x -> ~ In x (labels g))).
      { intros g v (S1 & _ & S3 & _) Wg C1 C2. split; [exact Wg|]. split; [intros x; rewrite S3; apply C1|intros x Hx V; rewrite S1; apply C2; assumption]. }
      intros k [(f & Hf & <-)|(y & Hy & -> & Hn)].
      - destruct (T1 f Hf) as (T & (g & Lg & Sg & Wg & Ng)). exists g. split; [exact Lg|]. split; [rewrite Ng; apply T|]. destruct (Tp (fname f)) as (_ & C1 & C2); [exists f; auto|]. exact (Q g _ Sg Wg C1 C2).
      - destruct (T2 y Hy Hn) as (g & Lg & Sg & Wg & Ng). exists g. split; [exact Lg|]. split.
        + rewrite Ng. unfold cvalue, cname. apply C27_result_name.
          * destruct (Hn (fst y)) as (f & Hf & Ef); [left; reflexivity|]. rewrite <- Ef. apply (proj1 (T1 f Hf)).
          * rewrite map_map. rewrite <- (map_id (snd y)) at 2. apply map_ext_in. intros [b n] Hin. cbn. f_equal.
            destruct (Hn n) as (f & Hf & Ef); [right; apply in_map_iff; exists (b, n); auto|]. rewrite <- Ef. apply (proj1 (T1 f Hf)).
        + destruct (cvalue_params treat c fids y) as (C1 & C2); [intros n Hn'; apply Tp, Hn, Hn'|]. exact (Q g _ Sg Wg C1 C2). }
    assert (Nm : forall n, is_fisher_file n = true -> p_exists s' (d ++ [n]) = true -> exists k, result_name s base_dir cs k /\ n = fisher_filename k).
    { intros n Fn En. destruct (load_base_spec h s base_dir Hs) as (h1 & b & l0 & _ & _ & Hl0 & _).
      (* the candidates form a list *)
      set (cand := map (fun f : fisher F => fname f) l0 ++ map cname cs).
      assert (Dec : forall l : list string, (exists k, In k l /\ n = fisher_filename k) \/ forall k, In k l -> n <> fisher_filename k).
      { induction l as [|k l [(k' & A & B)|IH]]; [right; intros ? []|left; exists k'; split; [right; exact A|exact B]|].
        destruct (string_dec n (fisher_filename k)) as [->|N]; [left; exists k; split; [left; reflexivity|reflexivity]|right; intros k' [<-|Hk']; auto]. }
      assert (AvD : forall m, available s base_dir m \/ ~ available s base_dir m).
      { intros m. destruct (in_dec string_dec m (map (fun f : fisher F => fname f) l0)) as [I|I]; [left|right].
        - apply in_map_iff in I. destruct I as (f & <- & Hf). exists f. split; [apply Hl0; exact Hf|reflexivity].
        - intros (f & Hf & <-). apply I. apply in_map_iff. exists f. split; [reflexivity|apply Hl0; exact Hf]. }
      assert (ND : forall y : comb, (forall m, needs y m -> available s base_dir m) \/ ~ (forall m, needs y m -> available s base_dir m)).
      { intros y. assert (X : forall l, (forall m, In m l -> available s base_dir m) \/ ~ (forall m, In m l -> available s base_dir m)).
        { induction l as [|m l [A|A]]; [left; intros ? []| |right; intros B; apply A; intros k Hk; apply B; right; exact Hk].
          destruct (AvD m) as [B|B]; [left; intros k [<-|Hk]; auto|right; intros C; apply B, C; left; reflexivity]. }
        destruct (X (fst y :: map snd (snd y))) as [A|A]; [left|right].
        - intros m [->|Hm]; apply A; [left; reflexivity|right; exact Hm].
        - intros B. apply A. intros m [<-|Hm]; apply B; [left; reflexivity|right; exact Hm]. }
      assert (RD : forall k, In k cand -> result_name s base_dir cs k \/ ~ result_name s base_dir cs k).
      { intros k _. destruct (AvD k) as [A|A]; [left; left; exact A|].
        assert (X : forall l : list comb, (exists y, In y l /\ k = cname y /\ forall m, needs y m -> available s base_dir m) \/ ~ (exists y, In y l /\ k = cname y /\ forall m, needs y m -> available s base_dir m)).
        { induction l as [|y l [(z & B)|B]]; [right; intros (? & [] & _)|left; exists z; split; [right; apply B|apply B]|].
          destruct (string_dec k (cname y)) as [->|N]; [destruct (ND y) as [C|C]|].
          - left. exists y. split; [left; reflexivity|]. auto.
          - right. intros (z & [<-|Hz] & H1 & H3); [exact (C H3)|apply B; exists z; auto].
          - right. intros (z & [<-|Hz] & H1 & H3); [exact (N H1)|apply B; exists z; auto]. }
        destruct (X cs) as [B|B]; [left; right; exact B|right; intros [C|C]; [exact (A C)|exact (B C)]]. }
      assert (Cd : forall k, result_name s base_dir cs k -> In k cand).
      { intros k [(f & Hf & <-)|(y & Hy & -> & _)]; apply in_or_app; [left; apply in_map_iff; exists f; split; [reflexivity|apply Hl0; exact Hf]|right; apply in_map; exact Hy]. }
      assert (Y : (exists k, result_name s base_dir cs k /\ n = fisher_filename k) \/ forall k, result_name s base_dir cs k -> n <> fisher_filename k).
      { assert (X : forall l, (forall k, In k l -> In k cand) -> (exists k, result_name s base_dir cs k /\ n = fisher_filename k) \/ forall k, In k l -> result_name s base_dir cs k -> n <> fisher_filename k).
        { induction l as [|k l IH]; intros Sub; [right; intros ? []|]. destruct IH as [A|A]; [intros; apply Sub; right; assumption|left; exact A|].
          destruct (RD k (Sub k (or_introl eq_refl))) as [R|R].
          - destruct (string_dec n (fisher_filename k)) as [->|N]; [left; exists k; auto|right; intros k' [<-|Hk'] R'; auto].
          - right. intros k' [<-|Hk'] R'; [contradiction|auto]. }
        destruct (X cand (fun _ H => H)) as [A|A]; [left; exact A|right; intros k Hk; apply A; [apply Cd; exact Hk|exact Hk]]. }
      destruct Y as [Y|Y]; [exact Y|]. exfalso. unfold p_exists in En. rewrite (Oth n Fn Y), (Fresh n Fn) in En. discriminate En. }
    assert (Hd : forall g, holds s' d g -> exists k, result_name s base_dir cs k /\ fisher_load H2 (d ++ [fisher_filename k]) s' = Ok g).
    { intros g (_ & n & Fn & Ln). destruct (Nm n Fn (load_exists _ _ _ _ Ln)) as (k & Hk & ->). exists k. auto. }
    assert (Kg : forall k g, result_name s base_dir cs k -> fisher_load H2 (d ++ [fisher_filename k]) s' = Ok g -> fname g = k /\ wf g /\
      (forall x, In x (fcosmo g) <-> In x (dkeys fids) /\ varies c x) /\ (forall x, In x (dkeys fids) -> ~ varies c x -> ~ In x (labels g))).
    { intros k g Hk Lg. destruct (St k Hk) as (g' & Lg' & R). assert (g' = g) by congruence. subst g'. exact R. }
    split; [exact Dd|]. split; [|split; [|split]].
    - split.
      + intros n Fn En. destruct (Nm n Fn En) as (k & Hk & ->). destruct (St k Hk) as (g & Lg & _ & Wg & _). exists g. auto.
      + intros n n' g g' Fn Fn' Ln Ln' Eq. destruct (Nm n Fn (load_exists _ _ _ _ Ln)) as (k & Hk & ->). destruct (Nm n' Fn' (load_exists _ _ _ _ Ln')) as (k' & Hk' & ->).
        destruct (Kg k g Hk Ln) as (Nk & _). destruct (Kg k' g' Hk' Ln') as (Nk' & _). congruence.
    - intros k. split.
      + intros Hk. destruct (St k Hk) as (g & Lg & Ng & _). exists g. split; [|exact Ng]. split; [exact Dd|]. exists (fisher_filename k). split; [apply filename_is_file|exact Lg].
      + intros (g & Hg & <-). destruct (Hd g Hg) as (k & Hk & Lg). destruct (Kg k g Hk Lg) as (-> & _). exact Hk.
    - intros g Hg. destruct (Hd g Hg) as (k & Hk & Lg). destruct (Kg k g Hk Lg) as (-> & _). exact Lg.
    - intros g Hg. destruct (Hd g Hg) as (k & Hk & Lg). apply (Kg k g Hk Lg).
  Qed.

  (** The parameters fromRundir asks for. *)
  Definition wanted (c : string) (fids : dict string F) (x : string) : Prop := In x (dkeys fids) /\ ~ (c = "LCDM"%string /\ (x = "w0" \/ x = "wa")%string).
  Lemma del_pars (names : list string) (fids : dict string F) c : (c = "LCDM" -> In "w0" names /\ In "wa" names)%string ->
    exists pf : list string * dict string F, (if String.eqb c "LCDM" then rbind (del_par "w0" (names, fids)) (del_par "wa") else Ok (names, fids)) = Ok pf /\ forall x, In x (dkeys (snd pf)) <-> wanted c fids x.
  Proof.
    intros H. destruct (String.eqb_spec c "LCDM") as [->|N].
    - destruct (H eq_refl) as (H0 & Ha). unfold del_par. cbn [fst snd]. rewrite (proj2 (smem_In _ _) H0). cbn [rbind fst snd].
      assert (Hb : smem "wa" (filter (fun x => negb (String.eqb x "w0")) names) = true) by (apply smem_In, filter_In; split; [exact Ha|reflexivity]). rewrite Hb.
      eexists. split; [reflexivity|]. intros x. unfold wanted, dkeys. cbn [snd]. rewrite !in_map_iff. split.
      + intros (nv & <- & Hin). apply filter_In in Hin. destruct Hin as (Hin & B). apply filter_In in Hin. destruct Hin as (Hin & A).
        apply Bool.negb_true_iff, String.eqb_neq in A. apply Bool.negb_true_iff, String.eqb_neq in B. split; [exists nv; auto|intros (_ & [E|E]); contradiction].
      + intros ((nv & <- & Hin) & Nn). exists nv. split; [reflexivity|]. apply filter_In. split; [apply filter_In; split; [exact Hin|]|]; apply Bool.negb_true_iff, String.eqb_neq; intros E; apply Nn; auto.
    - exists (names, fids). split; [reflexivity|]. intros x. unfold wanted. cbn [snd]. intuition.
  Qed.

  (** Loading the results of a cosmology back: it works exactly when every free
      cosmological parameter of the run varies in that cosmology (w0 and wa
      aside for LCDM), and then gives the matrices of the directory under their
      names. *)
  Theorem C103_reload base_dir run_dir (names : list string) (fids : dict string F) cs ow (h : heap F) s (h' : heap F) s' c (mb fx : bool) (h0 : heap F) :
    let main := run_dir ++ ["final_results"%string] in
    let sub := (if fx then "nuis_fixed" else if mb then "marg_before" else "marg_after")%string in
    let d := main ++ [c; sub] in
    sound s base_dir -> (exists f, holds s base_dir f) ->
    (forall f, holds s base_dir f -> plain (fname f)) -> (forall x n, In x cs -> needs x n -> plain n) ->
    (forall k k', result_name s base_dir cs k -> result_name s base_dir cs k' -> fisher_filename k = fisher_filename k' -> k = k') ->
    (forall f, holds s base_dir f -> (forall x, In x (fcosmo f) <-> In x (dkeys fids)) /\ (forall x, In x (fcosmo f) -> ~ In x (fnuis f))) ->
    create_final csv xlsx H2 base_dir main fids (map cname cs) ow (h, s) = ((h', s'), Ok tt) ->
    In c ["w0_wa_CDM"; "LCDM"]%string -> In (mb, fx) [(true, false); (false, false); (true, true)] ->
    (forall n, is_fisher_file n = true -> lookup s (d ++ [n]) = None) ->
    let outcome := from_rundir H2 run_dir names fids c sub (h0, s') in
    (c = "LCDM"%string -> ~ (In "w0" names /\ In "wa" names)%string -> outcome = ((h0, s'), Err EKeyError)) /\
    ((c = "LCDM" -> In "w0" names /\ In "wa" names)%string ->
      ((exists x, wanted c fids x /\ ~ varies c x) -> snd outcome = Err EDomain) /\
      ((forall x, wanted c fids x -> varies c x) -> exists h1 an, outcome = ((h1, s'), Ok an) /\ grows h0 h1 /\
         (forall x, In x (dkeys (an_fid an)) <-> wanted c fids x) /\
         NoDup (dkeys (an_fishers an)) /\ (forall k, In k (dkeys (an_fishers an)) <-> result_name s base_dir cs k) /\
         forall k, result_name s base_dir cs k -> exists g t, fisher_load H2 (d ++ [fisher_filename k]) s' = Ok g /\ at_key h1 (an_fishers an) k = Some t /\ same t g /\ fname t = k)).
  Proof.
    intros main sub d Hs (f0 & Hf0) Pl Pc Dist Rb E Hc Hv Fresh outcome.
    destruct (result_dir base_dir main fids cs ow h s h' s' c mb fx Hs Pl Pc Dist Rb E Hc Hv Fresh) as (Dd & So & Nm & Ld & Pr). change (out_dir main c mb fx) with d in *.
    assert (Dp : run_dir ++ ["final_results"%string; c; sub] = d) by (unfold d, main; rewrite <- app_assoc; reflexivity).
    split.
    - intros -> Nn. unfold outcome, from_rundir. cbn [String.eqb Ascii.eqb Bool.eqb]. unfold del_par. cbn [fst snd].
      destruct (smem "w0" names) eqn:M0; [cbn [rbind fst snd]|reflexivity].
      destruct (smem "wa" (filter (fun x => negb (String.eqb x "w0")) names)) eqn:Ma; [|reflexivity]. exfalso. apply Nn. apply smem_In in M0. apply smem_In, filter_In in Ma. tauto.
    - intros Hn. destruct (del_pars names fids c Hn) as (pf & Ep & Kp). split.
      + intros (x & Wx & Vx). unfold outcome, from_rundir. rewrite Ep. unfold pbind. rewrite Dp.
        assert (Rf : result_name s base_dir cs (fname f0)) by (left; exists f0; auto). apply Nm in Rf. destruct Rf as (g & Hg & Ng).
        pose proof (from_dir_fails (snd pf) d h0 s' g x So Hg (proj2 (Kp x) Wx)) as Q. destruct (Pr g Hg) as (_ & _ & Nl). specialize (Q (Nl x (proj1 Wx) Vx)).
        destruct (from_dir H2 (snd pf) d (h0, s')) as [t [an|e]]; cbn [snd] in *; [discriminate Q|congruence].
      + intros All. destruct (from_dir_ok (snd pf) d h0 s' So Dd) as (h1 & an & Ea & Gr & Fi & Ba & Nk & Kk & At).
        { intros g x Hg Hx. apply Kp in Hx. destruct (Pr g Hg) as ((_ & _ & _ & Lw) & Cw & _). apply Lw. left. apply Cw. split; [apply Hx|apply All; exact Hx]. }
        exists h1. exists (mkAn (an_base an) (an_fishers an) (an_order an) (an_fid an) (an_errs an) (an_rel an) (an_flag an)). split.
        * unfold outcome, from_rundir. rewrite Ep. unfold pbind. rewrite Dp, Ea. unfold use_base. rewrite Ba, (dupdate_nil _ Nk), <- Ba. reflexivity.
        * cbn [an_fid an_fishers]. split; [exact Gr|]. split; [intros x; rewrite Fi; apply Kp|]. split; [exact Nk|]. split.
          -- intros k. rewrite Kk, Nm. split; intros (g & A & B); exists g; auto.
          -- intros k Hk. apply Nm in Hk. destruct Hk as (g & Hg & <-). destruct (At g Hg) as (t & Et & (Wt & Nt & Lt & Vt & Ct & Ut)). exists g, t.
             split; [apply Ld; exact Hg|]. split; [exact Et|]. split; [|exact Nt]. destruct (Pr g Hg) as ((_ & _ & _ & Lw) & Cw & _).
             assert (Cg : forall x, In x (dkeys (snd pf)) <-> In x (fcosmo g)).
             { intros x. rewrite Kp, Cw. split; [intros Wx; split; [apply Wx|apply All; exact Wx]|]. intros (A & B). split; [exact A|]. intros (-> & Ex).
               unfold varies in B. destruct B as [B|[(B & _)|(B & _)]]; [|congruence|discriminate B]. destruct Ex as [->| ->]; cbn in B; intuition discriminate. }
             split; [intros x; rewrite Lt, Lw, Cg; reflexivity|]. split; [exact Vt|]. split; [intros x; rewrite Ct; apply Cg|exact Ut].
  Qed.
End Props.
