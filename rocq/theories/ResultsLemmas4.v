(** What the loops over the matrices of a result set do, read back from their
    success. *)
From Verif Require Import Base SortLib StrLib FrameModel FrameLemmas FisherModel FisherSpec FisherLemmas FisherLemmas2 FisherLemmas4 HeapModel ResultsModel ResultsSpec HeapLemmas ResultsLemmas ResultsLemmas2 ResultsLemmas3.
From Coq Require Import Permutation Field.
Open Scope list_scope.

Section Inversion.
  Context {F : Type} {K : Fld F} {O : OFld (F := F)} {S : SqrtFld F} {SO : SetOrder}.
  Implicit Types h : heap F.

  (** A step on one object: related contents there, the others as they were. *)
  Definition acts (g : nat -> M F unit) (R : fisher F -> fisher F -> Prop) : Prop :=
    forall a h f h', view h a = Some f -> g a h = (h', Ok tt) ->
      (exists f', view h' a = Some f' /\ R f f') /\ length (obs h') = length (obs h) /\
      (forall b x, b <> a -> view h b = Some x -> view h' b = Some x).
  Lemma acts_method {A} rb (m : fisher F -> fisher F * res A) (g : A -> M F unit) : (forall x h, g x h = (h, Ok tt)) ->
    acts (fun a => bind (h_method rb m a) g) (fun f f' => exists r, snd (m f) = Ok r /\ f' = assigned rb f (fst (m f))).
  Proof.
    intros Hg a h f h' V E. unfold bind, h_method in E. rewrite (proj2 (hget_view _ _ _) V) in E. destruct (m f) as [f' r] eqn:Em.
    destruct r as [r|]; [|discriminate E]. rewrite Hg in E. injection E as <-. split; [|split].
    - eexists. split; [apply (assign_same rb a f' h f V)|]. exists r. split; [reflexivity|]. destruct rb; reflexivity.
    - apply assign_length.
    - intros b x N Vb. apply assign_other; assumption.
  Qed.
  Lemma acts_unit rb (m : fisher F -> fisher F * res unit) :
    acts (h_method rb m) (fun f f' => snd (m f) = Ok tt /\ f' = assigned rb f (fst (m f))).
  Proof.
    intros a h f h' V E. destruct (acts_method rb m (fun _ => ret tt) (fun _ _ => eq_refl) a h f h' V) as ((f' & V' & [] & R) & L & Oth).
    - unfold bind. rewrite E. reflexivity.
    - split; [|split; [exact L|exact Oth]]. exists f'. split; [exact V'|]. exact R.
  Qed.
  Lemma each_inv g R (d : odict) : acts g R -> forall h h', NoDup (map snd d) -> live h d ->
    for_each (fun ka => g (snd ka)) d h = (h', Ok tt) ->
    (forall k a f, In (k, a) d -> view h a = Some f -> exists f', view h' a = Some f' /\ R f f') /\
    length (obs h') = length (obs h) /\
    (forall b x, ~ In b (map snd d) -> view h b = Some x -> view h' b = Some x).
  Proof.
    intros G. induction d as [|[k a] d IH]; intros h h' N Lv E.
    - cbn in E. injection E as <-. split; [intros ? ? ? []|auto].
    - inversion N as [|? ? Na N']; subst. cbn [for_each snd] in E. unfold bind at 1 in E. destruct (g a h) as [h1 [[]|e]] eqn:E1; [|discriminate E].
      destruct (view h a) as [f|] eqn:V; [|elim (Lv k a (or_introl eq_refl) V)].
      destruct (G a h f h1 V E1) as ((f1 & V1 & R1) & L1 & O1).
      destruct (IH h1 h' N') as (A & L2 & B); [|exact E|].
      + intros k' a' Hin Vn. destruct (view h a') as [x|] eqn:Vx; [|elim (Lv k' a' (or_intror Hin) Vx)].
        rewrite (O1 a' x) in Vn; [discriminate| |exact Vx]. intros ->. apply Na. apply in_map_iff. exists (k', a); auto.
      + split; [|split; [congruence|]].
        * intros k' a' f' [Hin|Hin] V'.
          -- injection Hin as <- <-. assert (f' = f) by congruence. subst f'. exists f1. split; [|exact R1]. apply B; assumption.
          -- apply (A k' a' f' Hin). apply O1; [|exact V']. intros ->. apply Na. apply in_map_iff. exists (k', a); auto.
        * intros b x Nb Vb. apply B; [intros H; apply Nb; right; exact H|]. apply O1; [|exact Vb]. intros ->. apply Nb; left; reflexivity.
  Qed.

  (** ** Copies of a dictionary *)
  Lemma deep_spec (d : odict) : forall memo h, NoDup (map snd d) -> (forall a, In a (map snd d) -> dget Nat.eqb memo a = None) -> live h d ->
    exists h' d', deepcopy d memo h = (h', Ok d') /\ grows h h' /\ dkeys d' = dkeys d /\
      NoDup (map snd d') /\ (forall k b, In (k, b) d' -> length (obs h) <= b) /\
      Forall2 (fun ka kb => fst ka = fst kb /\ exists f, view h (snd ka) = Some f /\ view h' (snd kb) = Some (fcopy f)) d d'.
  Proof.
    induction d as [|[k a] d IH]; intros memo h N Nm Lv.
    - exists h, []. cbn. split; [reflexivity|]. split; [apply grows_refl|]. split; [reflexivity|]. split; [constructor|]. split; [intros ? ? []|constructor].
    - inversion N as [|? ? Na N']; subst. cbn [deepcopy]. rewrite (Nm a (or_introl eq_refl)).
      destruct (view h a) as [f|] eqn:V; [|elim (Lv k a (or_introl eq_refl) V)].
      pose proof (alloc_spec (fcopy f) h) as Al. unfold bind at 1, h_copy at 1. rewrite (proj2 (hget_view _ _ _) V).
      destruct (h_alloc (fcopy f) h) as [h1 b]. destruct Al as (G1 & Eb & V1).
      destruct (IH (dset Nat.eqb memo a b) h1 N') as (h' & d' & E & G & Ks & Nd & Fr & Fa).
      + intros x Hx. rewrite (dget_dset_other _ Nat.eqb_spec); [apply Nm; right; exact Hx|]. intros ->. apply Na; exact Hx.
      + intros k' a' Hin Vn. destruct (view h a') as [x|] eqn:Vx; [|elim (Lv k' a' (or_intror Hin) Vx)]. rewrite (grows_view _ _ _ _ G1 Vx) in Vn. discriminate.
      + exists h', ((k, b) :: d'). unfold bind at 1. rewrite E. cbn [ret].
        assert (Lb : length (obs h) = b) by (subst b; reflexivity).
        assert (L1 : length (obs h) < length (obs h1)).
        { apply view_lt in V1. lia. }
        split; [reflexivity|]. split; [eapply grows_trans; eauto|]. split; [cbn; unfold dkeys in Ks; rewrite Ks; reflexivity|].
        split; [|split].
        * cbn. constructor; [|exact Nd]. intros H. apply in_map_iff in H. destruct H as ([k' b'] & Eb' & Hin). cbn in Eb'. subst b'. specialize (Fr _ _ Hin). lia.
        * intros k' b' [H|H]; [injection H as <- <-; lia|]. specialize (Fr _ _ H). lia.
        * constructor; [cbn; split; [reflexivity|]; exists f; split; [exact V|eapply grows_view; eauto]|].
          assert (Lv' : forall ka, In ka d -> view h (snd ka) <> None) by (intros [k' a'] H; apply (Lv k'); right; exact H).
          clear -Fa G1 Lv'. induction Fa as [|x y ? ? [A (g & B & C)] Fa IH]; constructor.
          -- split; [exact A|]. exists g. split; [|exact C]. destruct (view h (snd x)) as [z|] eqn:Vz; [|elim (Lv' x (or_introl eq_refl) Vz)].
             rewrite (grows_view _ _ _ _ G1 Vz) in B. congruence.
          -- apply IH. intros ka H. apply Lv'. right; exact H.
  Qed.

  (** ** Combinations are held by new objects *)
  Lemma grows_length h h' : grows h h' -> length (obs h) <= length (obs h').
  Proof. intros [_ [l E]]. rewrite E, app_length. lia. Qed.
  Lemma op_fresh o a b h h' c : view h a <> None -> view h b <> None -> apply_op o a b h = (h', Ok c) ->
    grows h h' /\ length (obs h) <= c /\ view h' c <> None.
  Proof.
    intros Va Vb E. destruct (view h a) as [f|] eqn:Ea; [|elim Va; reflexivity]. destruct (view h b) as [g|] eqn:Eb; [|elim Vb; reflexivity].
    unfold apply_op in E. destruct (String.eqb o "+").
    - destruct (combine_spec fadd " + " a b h f g Ea Eb) as (h1 & c1 & E1 & G & L & V). unfold h_add in E. rewrite E1 in E. injection E as <- <-. split; [exact G|]. split; [exact L|]. congruence.
    - destruct (combine_spec fsub " - " a b h f g Ea Eb) as (h1 & c1 & E1 & G & L & V). unfold h_sub in E. rewrite E1 in E. injection E as <- <-. split; [exact G|]. split; [exact L|]. congruence.
  Qed.
  Lemma live_at h (d : odict) n b : live h d -> dget String.eqb d n = Some b -> view h b <> None.
  Proof. intros Lv G. apply (Lv n). apply (dget_In _ String.eqb_spec). exact G. Qed.
  Lemma fold_fresh d l is : forall acc h h' c, live h d -> view h acc <> None -> fold_ops d l is acc h = (h', Ok c) ->
    (is = [] /\ c = acc /\ h' = h) \/ length (obs h) <= c.
  Proof.
    induction is as [|i is IH]; intros acc h h' c Lv Va E.
    - cbn in E. injection E as <- <-. auto.
    - right. cbn [fold_ops] in E. destruct (nth_error l (i + 1)) as [n|]; [|discriminate E]. unfold bind at 1, dict_at in E.
      destruct (dget String.eqb d n) as [b|] eqn:G; [|discriminate E]. cbn [ret] in E. unfold bind in E.
      destruct (apply_op (nth i l ""%string) acc b h) as [h1 [a1|e]] eqn:E1; [|discriminate E].
      destruct (op_fresh _ _ _ _ _ _ Va (live_at _ _ _ _ Lv G) E1) as (G1 & L1 & V1).
      destruct (IH a1 h1 h' c (live_grows _ _ _ G1 Lv) V1 E) as [(_ & -> & _)|L]; [exact L1|]. pose proof (grows_length _ _ G1). lia.
  Qed.
  Lemma compute_fresh d c h h' a : all_plain c -> live h d -> compute_comb (comb_text (fst c) (snd c)) d h = (h', Ok (Some a)) ->
    (snd c = [] /\ dget String.eqb d (fst c) = Some a) \/ length (obs h) <= a.
  Proof.
    destruct c as [n0 ops]. intros [P0 P] Lv E. cbn [fst snd] in *. unfold compute_comb in E.
    rewrite split_comb in E by (first [apply P0|intros; apply P; assumption]). destruct (existsb _ (tokens n0 ops)); [discriminate E|].
    unfold bind at 1, dict_at in E. change (nth 0 (tokens n0 ops) ""%string) with n0 in E. destruct (dget String.eqb d n0) as [a0|] eqn:G; [|discriminate E].
    cbn [ret] in E. unfold bind in E. match type of E with context [fold_ops d _ ?x a0 h] => set (is := x) in E end.
    destruct (fold_ops d (tokens n0 ops) is a0 h) as [h1 [c1|]] eqn:E1; [|discriminate E]. cbn in E. injection E as <- <-.
    destruct (fold_fresh _ _ _ _ _ _ _ Lv (live_at _ _ _ _ Lv G) E1) as [(Ei & -> & _)|L]; [|right; exact L]. left. split; [|reflexivity].
    destruct ops as [|[b n] ops]; [reflexivity|]. exfalso. assert (H : In 1 is); [|rewrite Ei in H; destruct H].
    unfold is. apply filter_In. split; [apply in_seq; cbn; lia|]. cbn [tokens flat_map app nth fst]. apply is_op_sym.
  Qed.
  Lemma NoDup_set_fresh (d : odict) k a : NoDup (map snd d) -> ~ In a (map snd d) -> NoDup (map snd (dset String.eqb d k a)).
  Proof.
    intros N Na. induction d as [|[k' b] d IH]; cbn in *; [repeat constructor; intros []|]. inversion N as [|? ? Nb N']; subst.
    destruct (String.eqb k' k); cbn; constructor; [tauto|exact N'| |apply IH; tauto].
    intros H. assert (X : In b (map snd d) \/ b = a).
    { clear -H. induction d as [|[x y] d IH]; cbn in *; [intuition|]. destruct (String.eqb x k); cbn in H; intuition. }
    destruct X as [X| ->]; tauto.
  Qed.
  Lemma dset_same_value (d : odict) k a : dget String.eqb d k = Some a -> dset String.eqb d k a = d.
  Proof. induction d as [|[x y] d IH]; cbn; [discriminate|]. destruct (String.eqb x k); [intros E; injection E as ->; reflexivity|]. intros E. rewrite IH by exact E. reflexivity. Qed.
  Lemma combs_nodup cs : forall h d h' d', Forall all_plain cs -> live h d -> NoDup (dkeys d) -> NoDup (map snd d) ->
    eval_combs (texts cs) d h = (h', Ok d') -> NoDup (dkeys d') /\ NoDup (map snd d').
  Proof.
    induction cs as [|c cs IH]; intros h d h' d' P Lv Nk Na E.
    - cbn in E. injection E as <- <-. auto.
    - inversion P as [|? ? Pc P']; subst. cbn [texts map eval_combs] in E. unfold bind at 1 in E.
      destruct (missing_or h d c Pc Lv) as [(f0 & gs & A & B)|(n & A & B)].
      + destruct (compute_value h d c f0 gs Pc A B) as (h1 & a & E1 & G1 & V1 & _). rewrite E1 in E.
        assert (Lv1 : live h1 (dset String.eqb d (comb_text (fst c) (snd c)) a)) by (apply live_set; [eapply live_grows; eauto|rewrite V1; discriminate]).
        apply (IH _ _ _ _ P' Lv1) in E; [exact E| |].
        * apply (NoDup_dset _ String.eqb_spec). exact Nk.
        * destruct (compute_fresh d c h h1 a Pc Lv E1) as [[Ec Eg]|L].
          -- assert (Et : comb_text (fst c) (snd c) = fst c) by (rewrite Ec; unfold comb_text; cbn; apply sapp_nil). rewrite Et, dset_same_value by exact Eg. exact Na.
          -- apply NoDup_set_fresh; [exact Na|]. intros H. apply in_map_iff in H. destruct H as ([k b] & Eb & Hin). cbn in Eb. subst b.
             destruct (view h a) as [x|] eqn:Vx; [apply view_lt in Vx; lia|]. exact (Lv k a Hin Vx).
      + rewrite (compute_missing h d c n Pc A B) in E. exact (IH _ _ _ _ P' Lv Nk Na E).
  Qed.

  (** ** The table of errors changes only stored inverses *)
  Lemma errors_keep fom oc (f : fisher F) : let g := fst (marginalized_errors fom oc f) in
    fmat g = fmat f /\ fcosmo g = fcosmo f /\ fnuis g = fnuis f /\ fname g = fname f.
  Proof.
    cbn zeta. unfold marginalized_errors. destruct (finverse f); [|unfold eval_inverse; destruct (invert_dataframe (fmat f))];
      repeat (match goal with |- context [match ?x with _ => _ end] => destruct x end; cbn); auto.
  Qed.
  Lemma map_rows_keep (d : odict) : forall h h' t, map_each (fun ka => bind (h_errors true true (snd ka)) (fun r => ret (fst ka, r))) d h = (h', Ok t) ->
    forall a f, view h a = Some f -> exists g, view h' a = Some g /\ fmat g = fmat f /\ fcosmo g = fcosmo f /\ fnuis g = fnuis f /\ fname g = fname f.
  Proof.
    induction d as [|[k a] d IH]; intros h h' t E b f V.
    - cbn in E. injection E as <- <-. exists f. auto.
    - cbn [map_each snd fst] in E. unfold bind at 1 2 in E. unfold h_errors, h_method in E.
      destruct (hget h a) as [f0|] eqn:G; [|discriminate E]. apply hget_view in G. destruct (marginalized_errors true true f0) as [f' r] eqn:Em.
      destruct r as [r|]; [|discriminate E]. cbn [ret] in E. unfold bind in E at 1.
      destruct (map_each _ d (h_assign false a f' h)) as [h1 [t1|]] eqn:E1; [|discriminate E]. cbn in E. injection E as <- <-.
      pose proof (errors_keep true true f0) as Ke. rewrite Em in Ke. cbn [fst] in Ke. destruct Ke as (K1 & K2 & K3 & K4).
      destruct (Nat.eq_dec b a) as [->|N].
      + assert (f0 = f) by congruence. subst f0. destruct (IH _ _ _ E1 a _ (assign_same false a f' h f V)) as (g & Vg & A1 & A2 & A3 & A4).
        exists g. split; [exact Vg|]. cbn in A1, A2, A3, A4. repeat split; congruence.
      + apply (IH _ _ _ E1 b f). apply assign_other; assumption.
  Qed.
End Inversion.
