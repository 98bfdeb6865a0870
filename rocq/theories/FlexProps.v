(** Properties of the dictionaries of spectra (C112). *)
From Verif Require Import Base StrLib SortLib FrameModel FrameLemmas KeyModel KeySpec FlexModel.
Open Scope string_scope.
Open Scope list_scope.

(** The two spellings a dictionary of spectra understands. *)
Definition spelling (k : kind) : Prop := k = Long \/ k = Alias.
Definition pair_eqb (a b : probe * probe) : bool := probe_eqb (fst a) (fst b) && probe_eqb (snd a) (snd b).
Lemma pair_eqb_spec a b : reflect (a = b) (pair_eqb a b).
Proof. destruct a as [p q], b as [r s]. unfold pair_eqb. cbn [fst snd]. destruct (probe_eqb_spec p r), (probe_eqb_spec q s); constructor; congruence. Qed.
(** A dictionary of spectra with the pairs and values [d]. *)
Definition filed {V} (d : list ((probe * probe) * V)) : base (V := V) := map (fun x => (spell Long (fst (fst x)) (snd (fst x)), snd x)) d.

Section Props.
  Context {V : Type} (tr : V -> V).
  Implicit Types d : list ((probe * probe) * V).
  Lemma long_inj p q r s : raw_eqb (spell Long p q) (spell Long r s) = pair_eqb (p, q) (r, s).
  Proof. destruct p, q, r, s; reflexivity. Qed.
  Lemma get_long d p q : dget raw_eqb (filed d) (spell Long p q) = dget pair_eqb d (p, q).
  Proof. induction d as [|[[r s] v] d IH]; [reflexivity|]. cbn [filed map fst snd dget]. rewrite long_inj. destruct (pair_eqb (r, s) (p, q)); [reflexivity|exact IH]. Qed.
  Lemma get_alias d p q : dget raw_eqb (filed d) (spell Alias p q) = None.
  Proof. induction d as [|[[r s] v] d IH]; [reflexivity|]. exact IH. Qed.
  Lemma reverse_long p q : reverse_text (comb (pname Long p) (pname Long q)) = Ok (comb (pname Long q) (pname Long p)).
  Proof. destruct p, q; reflexivity. Qed.
  Lemma full_alias p : full (pname Alias p) = Ok (pname Long p).
  Proof. destruct p; reflexivity. Qed.
  Lemma alias_long p : alias (pname Long p) = Ok (pname Alias p).
  Proof. destruct p; reflexivity. Qed.
  Lemma here_long d p q : here (filed d) (RStr (comb (pname Long p) (pname Long q))) = match dget pair_eqb d (p, q) with Some v => Ok v | None => Err EKeyError end.
  Proof. unfold here. change (RStr (comb (pname Long p) (pname Long q))) with (spell Long p q). rewrite get_long. reflexivity. Qed.

  (** Looking a pair up by text or by a tuple of aliases: what is stored for the pair,
      otherwise the transposed of what is stored for the reversed pair, otherwise
      KeyError. *)
  Theorem C112_lookup d k p q : spelling k -> fx_get tr (filed d) (spell k p q) =
    match dget pair_eqb d (p, q) with
    | Some v => Ok v
    | None => match dget pair_eqb d (q, p) with Some v => Ok (tr v) | None => Err EKeyError end
    end.
  Proof.
    intros [->| ->]; unfold fx_get.
    - rewrite get_long. destruct (dget pair_eqb d (p, q)) as [v|]; [reflexivity|]. cbn [spell]. change (pname Long p ++ "_" ++ pname Long q)%string with (comb (pname Long p) (pname Long q)).
      rewrite reverse_long. cbn [rbind]. rewrite here_long. destruct (dget pair_eqb d (q, p)); reflexivity.
    - rewrite get_alias. cbn [spell]. rewrite !full_alias. cbn [rbind]. rewrite !here_long. destruct (dget pair_eqb d (p, q)); [reflexivity|]. destruct (dget pair_eqb d (q, p)); reflexivity.
  Qed.
  (** Exchanging the probes transposes, if the pair is stored in one order only. *)
  Theorem C112_exchange d k k' p q v : spelling k -> spelling k' -> (forall x, tr (tr x) = x) ->
    (dget pair_eqb d (p, q) = None \/ dget pair_eqb d (q, p) = None) ->
    fx_get tr (filed d) (spell k p q) = Ok v -> fx_get tr (filed d) (spell k' q p) = Ok (tr v).
  Proof.
    intros H H' T N. rewrite !C112_lookup by assumption. destruct (dget pair_eqb d (p, q)) as [x|], (dget pair_eqb d (q, p)) as [y|]; intros [= <-]; try reflexivity; [destruct N; discriminate|]. rewrite T. reflexivity.
  Qed.
  (** A pair is there, under either spelling, when it is stored in either order. *)
  Theorem C112_in d k p q : spelling k -> exists b, contains (fx_get tr) (filed d) (spell k p q) = Ok b /\
    (b = true <-> (exists v, dget pair_eqb d (p, q) = Some v) \/ exists v, dget pair_eqb d (q, p) = Some v).
  Proof.
    intros H. unfold contains. rewrite C112_lookup by exact H. destruct (dget pair_eqb d (p, q)) as [x|] eqn:E1; [exists true; split; [reflexivity|]; split; [intros _; left; eauto|reflexivity]|].
    destruct (dget pair_eqb d (q, p)) as [y|] eqn:E2; [exists true; split; [reflexivity|]; split; [intros _; right; eauto|reflexivity]|].
    exists false. split; [reflexivity|]. split; [discriminate|]. intros [[v E]|[v E]]; discriminate.
  Qed.
  (** The tuples of the stored pairs, in their order. *)
  Theorem C112_tuples d : tuple_keys (filed d) = Ok (map (fun x => (pname Alias (fst (fst x)), pname Alias (snd (fst x)))) d).
  Proof.
    unfold tuple_keys, dkeys, filed. rewrite map_map. cbn [fst]. induction d as [|[[p q] v] d IH]; [reflexivity|]. cbn [map rmapM fst snd].
    assert (E : to_tuple (spell Long p q) = Ok (pname Alias p, pname Alias q)) by (destruct p, q; reflexivity). rewrite E. cbn [rbind]. rewrite IH. reflexivity.
  Qed.
  (** The text for a tuple: as expected only if the pair itself is stored.  If only the
      reversed pair is stored the answer is a text under which nothing is stored;
      if nothing is stored it is the reversed text. *)
  Theorem C112_text d p q : dget pair_eqb d (p, q) <> None -> to_text tr (filed d) (spell Alias p q) = Ok (comb (pname Long p) (pname Long q)) /\ dget raw_eqb (filed d) (RStr (comb (pname Long p) (pname Long q))) <> None.
  Proof.
    intros H. cbn [to_text spell]. rewrite !full_alias. cbn [rbind]. unfold contains. change (RStr (comb (pname Long p) (pname Long q))) with (spell Long p q). rewrite C112_lookup by (left; reflexivity).
    rewrite get_long. destruct (dget pair_eqb d (p, q)); [|congruence]. split; [reflexivity|discriminate].
  Qed.
  Theorem C112_text_refuted d p q : dget pair_eqb d (p, q) = None -> dget pair_eqb d (q, p) <> None ->
    exists s, to_text tr (filed d) (spell Alias p q) = Ok s /\ dget raw_eqb (filed d) (RStr s) = None /\ fx_del (filed d) (RStr s) = Err EKeyError.
  Proof.
    intros H G. exists (comb (pname Long p) (pname Long q)). assert (X : dget raw_eqb (filed d) (RStr (comb (pname Long p) (pname Long q))) = None) by (change (RStr (comb (pname Long p) (pname Long q))) with (spell Long p q); rewrite get_long; exact H).
    split; [|split; [exact X|unfold fx_del, dmem; rewrite X; reflexivity]].
    cbn [to_text spell]. rewrite !full_alias. cbn [rbind]. unfold contains. change (RStr (comb (pname Long p) (pname Long q))) with (spell Long p q). rewrite C112_lookup by (left; reflexivity).
    rewrite H. destruct (dget pair_eqb d (q, p)); [reflexivity|congruence].
  Qed.
  Theorem C112_text_missing d p q : dget pair_eqb d (p, q) = None -> dget pair_eqb d (q, p) = None -> to_text tr (filed d) (spell Alias p q) = Ok (comb (pname Long q) (pname Long p)).
  Proof.
    intros H G. cbn [to_text spell]. rewrite !full_alias. cbn [rbind]. unfold contains. change (RStr (comb (pname Long p) (pname Long q))) with (spell Long p q). rewrite C112_lookup by (left; reflexivity).
    rewrite H, G. cbn. apply reverse_long.
  Qed.
  (** Storing under a pair: that pair has the value, under both spellings; other
      pairs are as they were. *)
  Lemma filed_set d p q v : fx_set (filed d) (spell Long p q) v = filed (dset pair_eqb d (p, q) v).
  Proof.
    unfold fx_set. induction d as [|[[r s] w] d IH]; [reflexivity|]. cbn [filed map dset fst snd]. rewrite long_inj. destruct (pair_eqb (r, s) (p, q)); [reflexivity|]. cbn [map fst snd]. f_equal. exact IH.
  Qed.
  Theorem C112_set d k p q v r s : spelling k ->
    fx_get tr (fx_set (filed d) (spell Long p q) v) (spell k p q) = Ok v /\
    ((p, q) <> (r, s) -> (p, q) <> (s, r) -> fx_get tr (fx_set (filed d) (spell Long p q) v) (spell k r s) = fx_get tr (filed d) (spell k r s)).
  Proof.
    intros H. rewrite filed_set, !C112_lookup by exact H. split; [rewrite (dget_dset_same _ pair_eqb_spec); reflexivity|]. intros A B.
    rewrite !(dget_dset_other _ pair_eqb_spec) by congruence. reflexivity.
  Qed.
  Lemma filed_update d e : fx_update (filed d) (filed e) = filed (dupdate pair_eqb d e).
  Proof.
    unfold fx_update. revert d. induction e as [|[[p q] v] e IH]; intros d; [reflexivity|].
    change (dupdate raw_eqb (filed d) (filed (((p, q), v) :: e))) with (dupdate raw_eqb (fx_set (filed d) (spell Long p q) v) (filed e)). rewrite filed_set. apply IH.
  Qed.
  (** Updating with another dictionary: its pairs replace those of the first. *)
  Theorem C112_update d e k p q : spelling k -> NoDup (dkeys e) ->
    let both a := match dget pair_eqb e a with Some v => Some v | None => dget pair_eqb d a end in
    fx_get tr (fx_update (filed d) (filed e)) (spell k p q) =
    match both (p, q) with
    | Some v => Ok v
    | None => match both (q, p) with Some v => Ok (tr v) | None => Err EKeyError end
    end.
  Proof.
    intros H N both. rewrite filed_update, C112_lookup by exact H.
    assert (D : forall a, dget pair_eqb (dupdate pair_eqb d e) a = both a).
    { unfold both. clear both H. revert d N. induction e as [|[a v] e IH]; intros d N b; [reflexivity|]. inversion N as [|x l Hx Hl]; subst.
      change (dupdate pair_eqb d ((a, v) :: e)) with (dupdate pair_eqb (dset pair_eqb d a v) e). rewrite (IH _ Hl). cbn [dget]. destruct (pair_eqb_spec a b) as [->|Ne].
      - rewrite (proj2 (dget_None _ pair_eqb_spec e b) Hx). apply (dget_dset_same _ pair_eqb_spec).
      - rewrite (dget_dset_other _ pair_eqb_spec) by exact Ne. reflexivity. }
    rewrite !D. reflexivity.
  Qed.
  (** Storing under the exchanged pair does not change what the pair gives: the two
      orders then disagree. *)
  Theorem C112_set_exchanged_refuted d k p q v w : p <> q -> spelling k -> dget pair_eqb d (p, q) = Some v ->
    let e := fx_set (filed d) (spell Long q p) w in fx_get tr e (spell k p q) = Ok v /\ fx_get tr e (spell k q p) = Ok w.
  Proof.
    intros N H E e. unfold e. rewrite filed_set, !C112_lookup by exact H. rewrite (dget_dset_same _ pair_eqb_spec). rewrite (dget_dset_other _ pair_eqb_spec) by congruence. rewrite E. auto.
  Qed.
  (** Storing under a tuple makes a second entry: the text still gives the old value. *)
  Theorem C112_set_tuple_refuted d p q v w : dget pair_eqb d (p, q) = Some v ->
    let e := fx_set (filed d) (spell Alias p q) w in fx_get tr e (spell Long p q) = Ok v /\ fx_get tr e (spell Alias p q) = Ok w /\ length e = Datatypes.S (length d).
  Proof.
    intros E. cbv zeta.
    assert (S : fx_set (filed d) (spell Alias p q) w = filed d ++ [(spell Alias p q, w)]).
    { unfold fx_set. clear E. induction d as [|[[r s] x] d IH]; [reflexivity|]. cbn [filed map dset fst snd app]. cbn [spell raw_eqb]. f_equal. exact IH. }
    rewrite S. split; [|split].
    - unfold fx_get. assert (G : dget raw_eqb (filed d ++ [(spell Alias p q, w)]) (spell Long p q) = Some v); [|rewrite G; reflexivity].
      rewrite <- get_long in E. clear S. revert E. generalize (filed d). intros b. induction b as [|[x y] b IH]; cbn [app dget]; [discriminate|]. destruct (raw_eqb x (spell Long p q)); auto.
    - unfold fx_get. assert (G : dget raw_eqb (filed d ++ [(spell Alias p q, w)]) (spell Alias p q) = Some w); [|rewrite G; reflexivity].
      pose proof (get_alias d p q) as Na. clear S E. revert Na. generalize (filed d). intros b. induction b as [|[x y] b IH]; cbn [app dget]; [intros _; destruct p, q; reflexivity|]. destruct (raw_eqb x (spell Alias p q)); [discriminate|exact IH].
    - rewrite app_length. unfold filed. rewrite map_length. cbn. lia.
  Qed.
  (** Deleting takes exactly the pair away. *)
  Theorem C112_delete d p q : match fx_del (filed d) (spell Long p q) with
    | Ok b => exists e, b = filed e /\ dget pair_eqb d (p, q) <> None /\ dget pair_eqb e (p, q) = None /\ forall r s, (r, s) <> (p, q) -> dget pair_eqb e (r, s) = dget pair_eqb d (r, s)
    | Err x => x = EKeyError /\ dget pair_eqb d (p, q) = None
    end.
  Proof.
    unfold fx_del, dmem. rewrite get_long. destruct (dget pair_eqb d (p, q)) as [v|] eqn:E; [|auto].
    exists (filter (fun x => negb (pair_eqb (fst x) (p, q))) d). split; [|split; [discriminate|]].
    - clear E. induction d as [|[[r s] x] d IH]; [reflexivity|]. cbn [filed map filter fst snd]. rewrite long_inj. destruct (pair_eqb (r, s) (p, q)); cbn [negb]; [exact IH|]. cbn [map fst snd]. f_equal. exact IH.
    - clear E. split.
      + induction d as [|[[r s] x] d IH]; [reflexivity|]. cbn [filter fst]. destruct (pair_eqb (r, s) (p, q)) eqn:E; cbn [negb]; [exact IH|]. cbn [dget]. rewrite E. exact IH.
      + intros r s N. induction d as [|[[a b] x] d IH]; [reflexivity|]. cbn [filter fst dget]. destruct (pair_eqb_spec (a, b) (p, q)) as [E|Ne]; cbn [negb].
        * destruct (pair_eqb_spec (a, b) (r, s)); [congruence|exact IH].
        * cbn [dget]. destruct (pair_eqb (a, b) (r, s)); [reflexivity|exact IH].
  Qed.
  (** A text that is stored nowhere and has not exactly two parts: ValueError, also when
      it is only asked whether it is there; a tuple that has not two parts likewise;
      other keys TypeError; names that are no aliases KeyError, and are not there. *)
  Theorem C112_bad (b : base (V := V)) s l p q : dget raw_eqb b (RStr s) = None -> dget raw_eqb b (RTup l) = None -> dget raw_eqb b (RTup [p; q]) = None -> dget raw_eqb b ROther = None ->
    (length (split_char "_" s) <> 2 -> fx_get tr b (RStr s) = Err EValueError /\ contains (fx_get tr) b (RStr s) = Err EValueError) /\
    (length l <> 2 -> fx_get tr b (RTup l) = Err EValueError /\ contains (fx_get tr) b (RTup l) = Err EValueError) /\
    ((forall x, pname Alias x <> p) \/ (forall x, pname Alias x <> q) -> fx_get tr b (RTup [p; q]) = Err EKeyError /\ contains (fx_get tr) b (RTup [p; q]) = Ok false) /\
    fx_get tr b ROther = Err ETypeError.
  Proof.
    intros Hs Hl Hp Ho. split; [|split; [|split]].
    - intros L. assert (E : fx_get tr b (RStr s) = Err EValueError); [|unfold contains; rewrite E; auto]. unfold fx_get. rewrite Hs. unfold reverse_text. destruct (split_char "_" s) as [|x [|y [|z r]]]; try reflexivity. cbn in L. congruence.
    - intros L. assert (E : fx_get tr b (RTup l) = Err EValueError); [|unfold contains; rewrite E; auto]. unfold fx_get. rewrite Hl. destruct l as [|x [|y [|z r]]]; try reflexivity. cbn in L. congruence.
    - assert (X : forall y, (forall x, pname Alias x <> y) -> full y = Err EKeyError).
      { intros y H. unfold full, dgetr, transl, names. cbn [combine alias_names long_names dget].
        destruct (String.eqb_spec "GCph" y); [destruct (H Ph); assumption|]. destruct (String.eqb_spec "GCsp" y); [destruct (H Sp); assumption|]. destruct (String.eqb_spec "WL" y); [destruct (H Wl); assumption|]. destruct (String.eqb_spec "V" y); [destruct (H Vd); assumption|]. reflexivity. }
      intros H. assert (E : fx_get tr b (RTup [p; q]) = Err EKeyError); [|unfold contains; rewrite E; auto]. unfold fx_get. rewrite Hp. destruct H as [H|H]; rewrite (X _ H); [reflexivity|].
      unfold full, dgetr. destruct (dget String.eqb (transl Alias Long) p); reflexivity.
    - unfold fx_get. rewrite Ho. reflexivity.
  Qed.
  (** A dictionary made from another such dictionary is empty. *)
  Theorem C112_copy_refuted d k p q : spelling k -> fx_new (SSame (filed d)) = filed [] /\ fx_get tr (fx_new (SSame (filed d))) (spell k p q) = Err EKeyError.
  Proof. intros H. split; [reflexivity|]. change (fx_new (SSame (filed d))) with (filed (V := V) []). rewrite C112_lookup by exact H. reflexivity. Qed.
  (** The dictionary with tuples as keys. *)
  Theorem C112_tuple_dict (b : base (V := V)) p q : ts_get tr b (RTup [p; q]) =
    match dget raw_eqb b (RTup [p; q]) with
    | Some v => Ok v
    | None => match dget raw_eqb b (RTup [q; p]) with Some v => Ok (tr v) | None => Err EKeyError end
    end.
  Proof. unfold ts_get, here. destruct (dget raw_eqb b (RTup [p; q])); [reflexivity|]. destruct (dget raw_eqb b (RTup [q; p])); reflexivity. Qed.
  (** A text of two letters that is not stored is taken for a tuple; other keys are errors. *)
  Theorem C112_tuple_dict_text (b : base (V := V)) x y k : dget raw_eqb b k = None ->
    (k = RStr (String x (String y "")) -> ts_get tr b k = match dget raw_eqb b (RTup [String y ""; String x ""]) with Some v => Ok (tr v) | None => Err EKeyError end) /\
    ((forall s, k = RStr s -> String.length s <> 2%nat) -> (forall p q, k <> RTup [p; q]) -> ts_get tr b k = Err (match k with ROther => ETypeError | _ => EValueError end)).
  Proof.
    intros N. unfold ts_get, here. rewrite N. split.
    - intros ->. destruct (dget raw_eqb b (RTup [String y ""; String x ""])); reflexivity.
    - intros S T. destruct k as [s|l|]; [| |reflexivity].
      + destruct s as [|a [|c [|d s]]]; try reflexivity. destruct (S _ eq_refl). reflexivity.
      + destruct l as [|a [|c [|d l]]]; try reflexivity. destruct (T a c). reflexivity.
  Qed.
End Props.

(** Spectra: the cell of bins i and j of a pair is that of j and i of the exchanged
    pair. *)
Theorem C112_spectra {F} (d : list ((probe * probe) * array3 F)) k k' p q a b : spelling k -> spelling k' ->
  (dget pair_eqb d (p, q) = None \/ dget pair_eqb d (q, p) = None) ->
  fx_get transposed (filed d) (spell k p q) = Ok a -> fx_get transposed (filed d) (spell k' q p) = Ok b -> forall l i j, b l i j = a l j i.
Proof.
  intros H H' N E E' l i j. rewrite (C112_exchange transposed d k k' p q a H H' (fun x => eq_refl) N E) in E'. injection E' as <-. reflexivity.
Qed.

Example C112_instance : let d := filed [((Wl, Ph), fun l i j => (100 * l + 10 * i + j)%nat); ((Wl, Wl), fun _ _ _ => 7%nat)] in
  rmap (fun a => a 1 2 3) (fx_get transposed d (RTup ["WL"; "GCph"])) = Ok 123%nat /\
  rmap (fun a => a 1 2 3) (fx_get transposed d (RTup ["GCph"; "WL"])) = Ok 132%nat /\
  rmap (fun a => a 1 2 3) (fx_get transposed d (RStr "PhotometricGalaxy_Lensing")) = Ok 132%nat /\
  rmap (fun a => a 1 2 3) (fx_get transposed d (RStr "Lensing")) = Err EValueError /\
  rmap (fun a => a 1 2 3) (fx_get transposed d (RTup ["V"; "WL"])) = Err EKeyError /\
  to_text transposed d (RTup ["GCph"; "WL"]) = Ok "PhotometricGalaxy_Lensing" /\
  dget raw_eqb d (RStr "PhotometricGalaxy_Lensing") = None /\
  tuple_keys d = Ok [("WL", "GCph"); ("WL", "WL")].
Proof. repeat split; reflexivity. Qed.

Print Assumptions C112_lookup.
Print Assumptions C112_exchange.
Print Assumptions C112_in.
Print Assumptions C112_tuples.
Print Assumptions C112_text.
Print Assumptions C112_text_refuted.
Print Assumptions C112_text_missing.
Print Assumptions C112_set.
Print Assumptions C112_update.
Print Assumptions C112_tuple_dict_text.
Print Assumptions C112_set_exchanged_refuted.
Print Assumptions C112_set_tuple_refuted.
Print Assumptions C112_delete.
Print Assumptions C112_bad.
Print Assumptions C112_copy_refuted.
Print Assumptions C112_tuple_dict.
Print Assumptions C112_spectra.
