(** Properties C12 (operands), C27-C30, C72-C75: combinations of Fisher
    matrices, result sets and analyses. *)
From Verif Require Import Base SortLib StrLib FrameModel FrameLemmas FisherModel FisherSpec FisherLemmas FisherLemmas2 FisherLemmas4 FisherLemmas5 RealInst
  HeapModel ResultsModel ResultsSpec HeapLemmas ResultsLemmas ResultsLemmas2 ResultsLemmas3.
From Coq Require Import Permutation Qcanon Reals.
Close Scope Qc_scope. Close Scope R_scope. Open Scope list_scope.

Section Props.
  Context {F : Type} {K : Fld F} {O : OFld (F := F)} {S : SqrtFld F} {SO : SetOrder}.
  Implicit Types h : heap F.

  (** ** C12 *)
  (** The sum is a new object; every object there was, operands included, keeps
      its contents, even when the operands are one object or share a frame. *)
  Theorem C12_operands_unchanged a b h f g : view h a = Some f -> view h b = Some g ->
    exists h' c, h_add a b h = (h', Ok c) /\ view h c = None /\ view h' c = Some (fisher_add f g) /\
      forall x y, view h x = Some y -> view h' x = Some y.
  Proof.
    intros A B. destruct (combine_spec fadd " + " _ _ _ _ _ A B) as (h' & c & E & G & L & V). exists h', c.
    split; [exact E|]. split; [|split; [exact V|intros x y; apply grows_view; exact G]].
    destruct (view h c) eqn:Vc; [|reflexivity]. apply view_lt in Vc. lia.
  Qed.
  Theorem C14_operands_unchanged a b h f g : view h a = Some f -> view h b = Some g ->
    exists h' c, h_sub a b h = (h', Ok c) /\ view h c = None /\ view h' c = Some (fisher_sub f g) /\
      forall x y, view h x = Some y -> view h' x = Some y.
  Proof.
    intros A B. destruct (combine_spec fsub " - " _ _ _ _ _ A B) as (h' & c & E & G & L & V). exists h', c.
    split; [exact E|]. split; [|split; [exact V|intros x y; apply grows_view; exact G]].
    destruct (view h c) eqn:Vc; [|reflexivity]. apply view_lt in Vc. lia.
  Qed.

  (** ** C27 *)
  Theorem C27_combination h d n0 ops f0 gs : plain n0 -> (forall on, In on ops -> plain (snd on)) ->
    at_key h d n0 = Some f0 ->
    Forall2 (fun on og => fst on = fst og /\ at_key h d (snd on) = Some (snd og)) ops gs ->
    exists h' a, compute_comb (comb_text n0 ops) d h = (h', Ok (Some a)) /\ view h' a = Some (comb_value f0 gs) /\
      forall x y, view h x = Some y -> view h' x = Some y.
  Proof.
    intros P0 P A D. destruct (compute_value h d (n0, ops) f0 gs (conj P0 P) A D) as (h' & a & E & G & V & _). exists h', a.
    split; [exact E|]. split; [exact V|]. intros x y. apply grows_view. exact G.
  Qed.
  Theorem C27_missing_operand_skipped h d n0 ops n : plain n0 -> (forall on, In on ops -> plain (snd on)) ->
    n = n0 \/ In n (map snd ops) -> dget String.eqb d n = None ->
    compute_comb (comb_text n0 ops) d h = (h, Ok None).
  Proof. intros P0 P Hn G. exact (compute_missing h d (n0, ops) n (conj P0 P) Hn G). Qed.
  (** The whole dictionary, for any list of combinations, repeated or not. *)
  Theorem C27_dictionary cs h d : (forall c, In c cs -> plain (fst c) /\ forall on, In on (snd c) -> plain (snd on)) -> live h d ->
    let name c := comb_text (fst c) (snd c) in
    exists h' d', eval_combs (map name cs) d h = (h', Ok d') /\
      (forall x y, view h x = Some y -> view h' x = Some y) /\
      (forall k, ~ In k (map name cs) -> dget String.eqb d' k = dget String.eqb d k) /\
      (forall c f0 gs, In c cs -> at_key h d (fst c) = Some f0 ->
         Forall2 (fun on og => fst on = fst og /\ at_key h d (snd on) = Some (snd og)) (snd c) gs ->
         at_key h' d' (name c) = Some (comb_value f0 gs)) /\
      (forall c n, In c cs -> n = fst c \/ In n (map snd (snd c)) -> dget String.eqb d n = None ->
         dget String.eqb d' (name c) = dget String.eqb d (name c)).
  Proof.
    intros P Lv name. destruct (combs_spec cs h d) as (h' & d' & E & G & _ & A & _ & B & C); [apply Forall_forall; exact P|exact Lv|].
    exists h', d'. split; [exact E|]. split; [intros x y; apply grows_view; exact G|]. auto.
  Qed.
  (** The result is called like the combination when the operands are called
      like their keys. *)
  Theorem C27_result_name n0 (ops : list (bool * string)) (f0 : fisher F) gs : fname f0 = n0 ->
    map (fun og => (fst og, fname (snd og))) gs = ops -> fname (comb_value f0 gs) = comb_text n0 ops.
  Proof. intros <- E. exact (comb_value_name ops f0 gs E). Qed.

  (** ** C28 *)
  (** The result set is a function of the contents of the base matrices:
      whatever their addresses and the rest of the state. *)
  Theorem C28_depends_on_base_only h1 h2 b1 b2 cosmology fids posts mb fx :
    live h1 b1 -> contents h1 b1 = contents h2 b2 -> NoDup (map snd b1) -> NoDup (map snd b2) ->
    observe (create_results b1 cosmology fids posts mb fx h1) = observe (create_results b2 cosmology fids posts mb fx h2).
  Proof.
    intros Lv E N1 N2. apply results_same; [exact Lv|exact E|]. intros i j k a k' a' l b l' b' A B A' B'.
    assert (X : forall (d : odict) i j k a k' a', NoDup (map snd d) -> nth_error d i = Some (k, a) -> nth_error d j = Some (k', a') -> (a = a' <-> i = j)).
    { clear. intros d i j k a k' a' N A A'. assert (B := map_nth_error snd _ _ A). assert (B' := map_nth_error snd _ _ A'). cbn in B, B'. split; [|congruence].
      intros ->. eapply (proj1 (NoDup_nth_error _) N); [|congruence]. rewrite map_length. apply nth_error_Some. congruence. }
    rewrite (X b1 i j k a k' a' N1 A A'), (X b2 i j l b l' b' N2 B B'). reflexivity.
  Qed.
  (** In particular not of the result sets made before, for any number of them
      and whether they succeeded or not. *)
  Theorem C28_independent_of_history h h' base cosmology fids posts mb fx : live h base -> session h h' ->
    observe (create_results base cosmology fids posts mb fx h') = observe (create_results base cosmology fids posts mb fx h).
  Proof.
    intros Lv Ss. symmetry. apply results_same; [exact Lv| |].
    - unfold contents. apply map_ext_in. intros [k a] Hin. cbn. destruct (view h a) as [f|] eqn:V; [|elim (Lv _ _ Hin V)].
      rewrite (session_keeps _ _ Ss _ _ V). reflexivity.
    - intros i j k a k' a' l b l' b' A B A' B'. assert (a = b) by congruence. assert (a' = b') by congruence. subst. tauto.
  Qed.
  Theorem C28_base_unchanged h base cosmology fids posts mb fx : live h base ->
    let o := create_results base cosmology fids posts mb fx h in
    (forall x y, view h x = Some y -> view (fst o) x = Some y) /\
    (forall an, snd o = Ok an -> forall k a, In (k, a) (an_fishers an) -> view h a = None).
  Proof.
    intros Lv o. destruct (results_fresh h base cosmology fids posts mb fx Lv) as (A & _ & B). split.
    - intros x y V. eapply keeps_all; eauto.
    - intros an E k a Hin. specialize (B an E k a Hin). destruct (view h a) eqn:V; [|reflexivity]. apply view_lt in V. lia.
  Qed.
  Theorem C28_session_keeps_base h h' : session h h' -> forall x y, view h x = Some y -> view h' x = Some y.
  Proof. exact (session_keeps h h'). Qed.

  (** ** C29 *)
  Theorem C29_dictionary_kept d fid flag h : NoDup (dkeys d) -> NoDup (map snd d) ->
    (forall k a, In (k, a) d -> exists f, view h a = Some f /\ wf f /\ (forall x, In x (fcosmo f) -> flag = true \/ ~ In x (fnuis f))) ->
    exists h' an, an_init None (IDict d) fid flag h = (h', Ok an) /\ an_fishers an = d /\ fishers_order an = dkeys d /\
      forall k a f, In (k, a) d -> view h a = Some f -> exists t, view h' a = Some t /\
        labels t = ssort (filter (fun x => flag || negb (smem x (fnuis f))) (labels f)) /\
        (forall x y, ce (fmat t) x y = ce (fmat f) x y) /\ fname t = fname f /\ fcosmo t = fcosmo f.
  Proof.
    intros Nk Na Hv. destruct (init_spec None d fid flag h Nk Na Hv) as (h' & E & A & _). eexists h', _. split; [exact E|].
    split; [reflexivity|]. split; [reflexivity|]. intros k a f Hin V. specialize (A k a f Hin V).
    destruct (Hv k a Hin) as (f' & V' & W & Dj). assert (f' = f) by congruence. subst f'.
    destruct (select_spec (with_flag flag f) W Dj) as (t & Et & _ & L & C & Co & _ & Nm & _). rewrite Et in A. cbn [fst] in A. exists t. auto 8.
  Qed.
  Theorem C29_order_is_permutation d o fid flag h : NoDup (dkeys d) -> NoDup (map snd d) ->
    (forall k a, In (k, a) d -> exists f, view h a = Some f /\ wf f /\ (forall x, In x (fcosmo f) -> flag = true \/ ~ In x (fnuis f))) ->
    NoDup o ->
    (Permutation o (dkeys d) -> exists h' an, an_init (Some o) (IDict d) fid flag h = (h', Ok an) /\ an_fishers an = d /\ fishers_order an = o) /\
    (~ Permutation o (dkeys d) -> exists h', an_init (Some o) (IDict d) fid flag h = (h', Err EException)).
  Proof.
    intros Nk Na Hv No. destruct (init_spec (Some o) d fid flag h Nk Na Hv) as (h' & E & _). destruct (set_eqb o (dkeys d)) eqn:Es; split; intros P.
    - eexists h', _. split; [exact E|]. split; reflexivity.
    - elim P. apply order_perm; assumption.
    - exfalso. assert (T : set_eqb o (dkeys d) = true); [|congruence]. apply set_eqb_spec. intros x. split; apply Permutation_in; [exact P|apply Permutation_sym; exact P].
    - exists h'. exact E.
  Qed.

  (** ** C30 *)
  Theorem C30_relative_error fid (t : table (F := F)) k p x v : p <> "FoM"%string -> t_cell t k p = Some x -> dget String.eqb fid p = Some v ->
    t_cell (rel_table fid t) k p = Some (if fdec v fz then fabs x else fabs (fdiv x v)).
  Proof. exact (rel_par fid t k p x v). Qed.
  Theorem C30_never_negative fid (t : table (F := F)) k c y : t_cell (rel_table fid t) k c = Some y -> fle fz y.
  Proof. exact (rel_nonneg fid t k c y). Qed.
  Theorem C30_fom_unchanged fid (t : table (F := F)) k x : t_cell t k "FoM" = Some x -> fle fz x -> t_cell (rel_table fid t) k "FoM" = Some x.
  Proof. exact (rel_fom fid t k x). Qed.
  Theorem C30_no_fiducial_is_nan fid (t : table (F := F)) k c : c <> "FoM"%string -> dget String.eqb fid c = None -> t_cell (rel_table fid t) k c = None.
  Proof. exact (rel_nan fid t k c). Qed.
  (** The tables of an analysis: one row per matrix, its marginalized errors. *)
  Theorem C30_tables an h h' an' : NoDup (map snd (an_fishers an)) -> eval_errors an h = (h', Ok an') ->
    exists t, an_errs an' = Some t /\ an_rel an' = Some (rel_table (an_fid an) t) /\
      dkeys t = dkeys (an_fishers an) /\
      (forall k a f, In (k, a) (an_fishers an) -> view h a = Some f -> exists r, snd (marginalized_errors true true f) = Ok r /\ In (k, r) t).
  Proof.
    intros N E. destruct (errors_spec an h h' an' N E) as (t & A & B & _ & _ & C & D). exists t. auto.
  Qed.

  (** ** C72: sums from lists of addends *)
  Theorem C72_sums b ls h fs : NoDup (map (join "+") ls) ->
    Forall2 (fun l fg => map (at_key h b) l = map Some (fst fg :: snd fg) /\ wf (fst fg) /\ Forall wf (snd fg)) ls fs ->
    exists h' d, from_addends b ls [] h = (h', Ok d) /\ dkeys d = map (join "+") ls /\
      (forall x y, view h x = Some y -> view h' x = Some y) /\
      Forall2 (fun ka fg => exists v, view h' (snd ka) = Some v /\ same v (sum_list (fst fg) (snd fg))) d fs.
  Proof.
    intros N D. set (val := fun fg : fisher F * list (fisher F) => match snd fg with [] => fst fg | _ => sum_list (fcopy (fst fg)) (snd fg) end).
    destruct (addends_spec b ls h [] (map val fs)) as (h' & d & E & G & new & Ed & C).
    - exact N.
    - clear -D. induction D as [|l fg ? ? (A & _ & _) D IH]; constructor; [|exact IH]. exists (fst fg), (snd fg). split; [exact A|reflexivity].
    - cbn in Ed. subst new. exists h', d. split; [exact E|].
      assert (Ln : length ls = length fs) by (clear -D; induction D; cbn; congruence).
      assert (Kd : dkeys d = map (join "+") ls).
      { assert (X : map fst (contents h' d) = dkeys d) by (unfold contents, dkeys; rewrite map_map; reflexivity). rewrite <- X, C.
        clear -Ln. revert fs Ln. induction ls as [|l ls IH]; intros [|f fs] L; cbn in *; try discriminate L; [reflexivity|]. f_equal. apply IH. congruence. }
      split; [exact Kd|]. split; [intros x y; apply grows_view; exact G|].
      assert (X : forall (d : odict) ls' fs', Forall2 (fun l fg => map (at_key h b) l = map Some (fst fg :: snd fg) /\ wf (fst fg) /\ Forall wf (snd fg)) ls' fs' ->
        contents h' d = combine (map (join "+") ls') (map Some (map val fs')) ->
        Forall2 (fun ka fg => exists v, view h' (snd ka) = Some v /\ same v (sum_list (fst fg) (snd fg))) d fs').
      { clear. intros d ls' fs' D. revert d. induction D as [|l fg ls fs (A & W1 & W2) D IH]; intros [|[k a] d] C; try discriminate C; constructor.
        - cbn in C. injection C as _ C1 _. exists (val fg). split; [exact C1|]. unfold val. destruct (snd fg) as [|g gs] eqn:Eg.
          + unfold sum_list. cbn. repeat split; auto.
          + apply sum_copy; assumption.
        - cbn in C. injection C as _ _ C2. apply IH. exact C2. }
      apply (X d ls fs D C).
  Qed.
  Theorem C72_missing_addend_raises b ls h : live h b -> (forall l, In l ls -> l <> []) ->
    (exists l n, In l ls /\ In n l /\ dget String.eqb b n = None) ->
    exists h', from_addends b ls [] h = (h', Err EDomain) /\ forall x y, view h x = Some y -> view h' x = Some y.
  Proof.
    intros Lv Ne M. destruct (addends_missing b ls h [] Lv Ne M) as (h' & E & G). exists h'. split; [exact E|]. intros x y. apply grows_view. exact G.
  Qed.

  (** ** C73: marginalising an analysis and the matrices it was built from *)
  (** A method called on one object leaves every other object alone. *)
  Theorem C73_other_objects_unchanged {A} rb (m : fisher F -> fisher F * res A) a b h f : b <> a -> view h b = Some f ->
    view (fst (h_method rb m a h)) b = Some f.
  Proof.
    intros N V. unfold h_method. destruct (hget h a) as [g|]; [|exact V]. destruct (m g) as [g' r]. cbn [fst]. apply assign_other; assumption.
  Qed.

  (** ** C74: selecting the relevant parameters *)
  Theorem C74_select (f : fisher F) : wf f -> (forall x, In x (fcosmo f) -> fmflag f = true \/ ~ In x (fnuis f)) ->
    exists t, select_relevant f = (t, Ok tt) /\ wf t /\
      labels t = ssort (filter (fun x => fmflag f || negb (smem x (fnuis f))) (labels f)) /\
      (forall a b, ce (fmat t) a b = ce (fmat f) a b) /\
      fcosmo t = fcosmo f /\ fnuis t = (if fmflag f then fnuis f else []) /\
      fname t = fname f /\ finverse t = finverse f /\ fmflag t = fmflag f.
  Proof. exact (select_spec f). Qed.
  Theorem C74_missing_raises_unchanged (f : fisher F) : (exists x, (In x (fcosmo f) \/ In x (fnuis f)) /\ ~ In x (labels f)) ->
    select_relevant f = (f, Err EDomain).
  Proof.
    intros (x & Hx & Nx). unfold select_relevant. destruct (subsetb _ _) eqn:E; [|reflexivity]. exfalso. apply Nx.
    apply (proj1 (subsetb_spec _ _) E). apply set_union_In. exact Hx.
  Qed.
End Props.

(** ** Refutations *)
#[local] Existing Instance id_order.
Definition hF : fisher Qc := fish2 (qz 2) (qz 1) (qz 1) (qz 1) "Omm" "bgph0".
Definition hG : fisher Qc := fish2 (qz 3) (qz 1) (qz 1) (qz 2) "Omm" "aIA".
Definition exh : heap Qc := fst (h_alloc hG (fst (h_alloc hF (mkHeap [] [])))).
Definition exd : odict := [("[GCph]"%string, 0); ("[WL]"%string, 1)].

(** C29: a list of matrices is dropped. *)
Theorem C29_list_kept_refuted : exists (h h' : heap Qc) l an, an_init None (IList l) [] true h = (h', Ok an) /\ l <> [] /\
  (forall a, In a l -> view h a <> None) /\ an_fishers an = [].
Proof.
  eexists exh, _, [0; 1], _. split; [reflexivity|]. split; [discriminate|]. split; [|reflexivity].
  intros a [<-|[<-|[]]]; discriminate.
Qed.
(** C29: an order naming a matrix twice is accepted. *)
Theorem C29_order_refuted : exists (h h' : heap Qc) d o an, NoDup (dkeys d) /\ an_init (Some o) (IDict d) [] true h = (h', Ok an) /\
  fishers_order an = o /\ ~ Permutation o (dkeys (an_fishers an)).
Proof.
  set (o := ["[WL]"; "[GCph]"; "[WL]"]%string).
  destruct (init_spec (Some o) exd [] true exh) as (h' & E & _).
  - repeat constructor; cbn; intuition discriminate.
  - repeat constructor; cbn; intuition discriminate.
  - intros k a [H|[H|[]]]; injection H as <- <-; eexists; (split; [reflexivity|]); (split; [apply fish2_wf; discriminate|]); auto.
  - eexists exh, h', exd, o, _. split; [repeat constructor; cbn; intuition discriminate|].
    split; [exact E|]. split; [reflexivity|]. intros P. apply Permutation_length in P. discriminate P.
Qed.
(** C73: after useBaseFishers the analysis works on the base matrices
    themselves, so marginalising the analysis changes them. *)
Theorem C73_base_kept_refuted : exists (h h' : heap Qc) an an' b k a f g, an_base an = Some b /\ In (k, a) b /\ view h a = Some f /\ wf f /\
  use_base an = Ok an' /\ marg_fishers None an' h = (h', Ok tt) /\ view h' a = Some g /\ labels g <> labels f.
Proof.
  set (an' := mkAn (Some exd) exd None [] None None true : analysis Qc).
  assert (X : match marg_fishers None an' exh with
              | (h', Ok tt) => match view h' 0 with Some g => negb (sl_eqb (labels g) (labels hF)) | None => false end
              | _ => false
              end = true) by (vm_compute; reflexivity).
  destruct (marg_fishers None an' exh) as [h' [[]|]] eqn:E; [|discriminate X]. destruct (view h' 0) as [g|] eqn:V; [|discriminate X].
  exists exh, h', (mkAn (Some exd) [] None [] None None true), an', exd, "[GCph]"%string, 0, hF, g.
  split; [reflexivity|]. split; [left; reflexivity|]. split; [reflexivity|]. split; [apply fish2_wf; discriminate|]. split; [reflexivity|].
  split; [exact E|]. split; [exact V|]. intros C. rewrite C in X. vm_compute in X. discriminate X.
Qed.

(** ** Concrete cases meeting the hypotheses *)
(** C12, C14, C27, C29, C72: two matrices in a dictionary; a combination. *)
Example C12_C27_C29_C72_ex :
  view exh 0 = Some hF /\ view exh 1 = Some hG /\ live exh exd /\ wf hF /\ wf hG /\
  plain "[GCph]" /\ plain "[WL]" /\ comb_text "[GCph]" [(true, "[WL]"%string)] = "[GCph] + [WL]"%string /\
  at_key exh exd "[GCph]" = Some hF /\
  Forall2 (fun on og => fst on = fst og /\ at_key exh exd (snd on) = Some (snd og)) [(true, "[WL]"%string)] [(true, hG)] /\
  fval (comb_value hF [(true, hG)]) "Omm" "Omm" = qz 5 /\
  dget String.eqb exd "[GCsp]"%string = None /\
  NoDup (map (join "+") [["[GCph]"]; ["[GCph]"; "[WL]"]]%string) /\
  Forall2 (fun l fg => map (at_key exh exd) l = map Some (fst fg :: snd fg) /\ wf (fst fg) /\ Forall wf (snd fg))
    [["[GCph]"]; ["[GCph]"; "[WL]"]]%string [(hF, []); (hF, [hG])].
Proof.
  assert (WF : wf hF) by (apply fish2_wf; discriminate). assert (WG : wf hG) by (apply fish2_wf; discriminate).
  split; [reflexivity|]. split; [reflexivity|]. split; [intros k a [H|[H|[]]]; injection H as <- <-; discriminate|].
  split; [exact WF|]. split; [exact WG|].
  split; [split; [cbn; intuition discriminate|split; discriminate]|]. split; [split; [cbn; intuition discriminate|split; discriminate]|].
  split; [reflexivity|]. split; [reflexivity|]. split; [repeat constructor|]. split; [vm_compute; reflexivity|]. split; [reflexivity|].
  split; [repeat constructor; cbn; intuition discriminate|].
  repeat (apply Forall2_cons || apply Forall2_nil); cbn; (split; [reflexivity|]); split; auto.
Qed.
(** C28, C30: a positive definite matrix over the reals whose table of errors is
    computed; a session with two failing or succeeding result sets. *)
Definition rh : heap R := fst (h_alloc wit (mkHeap [] [])).
Definition rd : odict := [("[WL]"%string, 0)].
Example C28_C30_ex : live rh rd /\ NoDup (map snd rd) /\ (exists h', session rh h' /\ h' <> rh) /\
  exists h' an', eval_errors (mkAn None rd None [("a"%string, 2%R)] None None true) rh = (h', Ok an').
Proof.
  assert (Lv : live rh rd) by (intros k a [H|[]]; injection H as <- <-; discriminate).
  split; [exact Lv|]. split; [repeat constructor; intros []|]. split.
  - eexists. split; [eapply (ses_step _ _ rd "?"%string [] [] true true Lv); apply ses_refl|]. cbn. intros C. apply (f_equal (fun h => length (obs h))) in C. discriminate C.
  - destruct (wit_invert (F := R)) as (i & Ei & _). destruct (FisherLemmas3.held_inv wit i wit_wf Ei) as [Hh Wh].
    destruct (FisherLemmas3.errors_held true true (with_inv wit i) i Wh Hh) as (v & _ & Ev).
    assert (E : marginalized_errors true true (wit : fisher R) = marginalized_errors true true (with_inv wit i)) by (apply FisherLemmas3.errors_none; [reflexivity|exact Ei]).
    rewrite Ev in E. unfold eval_errors. cbn [an_fishers rd map_each snd fst]. unfold bind at 1 2 3. unfold h_errors at 1, h_method at 1.
    change (hget rh 0) with (Ok (wit : fisher R)). cbn iota. rewrite E. cbn. eexists. eexists. reflexivity.
Qed.
(** C30: a table with a negative fiducial, a zero one and a FoM. *)
Example C30_cells_ex :
  let t := [("[WL]"%string, [("FoM"%string, Some (qz 7)); ("Omm"%string, Some (qz 3)); ("w0"%string, Some (qz 2)); ("wa"%string, Some (qz 5))])] in
  let r := rel_table [("Omm"%string, qz 6); ("w0"%string, qz (-1)); ("wa"%string, qz 0)] t in
  t_cell r "[WL]" "Omm" = Some (qq 1 2) /\ t_cell r "[WL]" "w0" = Some (qz 2) /\ t_cell r "[WL]" "wa" = Some (qz 5) /\
  t_cell r "[WL]" "FoM" = Some (qz 7) /\ fle fz (qz 7).
Proof. vm_compute. repeat split; try reflexivity; try discriminate; f_equal; apply Qc_is_canon; reflexivity. Qed.
(** C73, C74. *)
Example C73_C74_ex : view exh 1 = Some hG /\ 1 <> 0 /\ wf hG /\ (forall x, In x (fcosmo hG) -> fmflag hG = true \/ ~ In x (fnuis hG)) /\
  exists x, (In x (fcosmo (with_mat hG (mkF [] [] (fun _ _ => None)))) \/ In x (fnuis hG)) /\ ~ In x (labels (with_mat hG (mkF [] [] (fun _ _ => None)))).
Proof.
  split; [reflexivity|]. split; [discriminate|]. split; [apply fish2_wf; discriminate|]. split; [auto|]. exists "Omm"%string. split; [left; left; reflexivity|intros []].
Qed.
#[local] Remove Hints id_order : typeclass_instances.

Print Assumptions C12_operands_unchanged.
Print Assumptions C14_operands_unchanged.
Print Assumptions C27_combination.
Print Assumptions C27_missing_operand_skipped.
Print Assumptions C27_dictionary.
Print Assumptions C27_result_name.
Print Assumptions C28_depends_on_base_only.
Print Assumptions C28_independent_of_history.
Print Assumptions C28_base_unchanged.
Print Assumptions C28_session_keeps_base.
Print Assumptions C29_dictionary_kept.
Print Assumptions C29_order_is_permutation.
Print Assumptions C29_list_kept_refuted.
Print Assumptions C29_order_refuted.
Print Assumptions C30_relative_error.
Print Assumptions C30_never_negative.
Print Assumptions C30_fom_unchanged.
Print Assumptions C30_no_fiducial_is_nan.
Print Assumptions C30_tables.
Print Assumptions C72_sums.
Print Assumptions C72_missing_addend_raises.
Print Assumptions C73_other_objects_unchanged.
Print Assumptions C73_base_kept_refuted.
Print Assumptions C74_select.
Print Assumptions C74_missing_raises_unchanged.
