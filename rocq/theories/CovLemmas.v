(** The covariance of the spectra. *)
From Verif Require Import Base SortLib StrLib MatInv LinalgModel FrameModel KeyModel KeySpec KeyLemmas
  ParamModel EvalModel EvalSpec EllLemmas.
From Coq Require Import Sorted Permutation.

Lemma nth_error_ext {A} (l m : list A) : (forall n, nth_error l n = nth_error m n) -> l = m.
Proof.
  revert m. induction l as [|x l IH]; intros [|y m] H; [reflexivity|specialize (H 0); discriminate|specialize (H 0); discriminate|].
  pose proof (H 0) as E. cbn in E. injection E as ->. f_equal. apply IH. intros n. exact (H (S n)).
Qed.

(** ** Enumerations *)
Lemma filter_flat_map {A B} (p : B -> bool) (f : A -> list B) l :
  filter p (flat_map f l) = flat_map (fun x => filter p (f x)) l.
Proof. induction l as [|x l IH]; cbn; [reflexivity|]. rewrite filter_app, IH. reflexivity. Qed.
Lemma flat_map_ext_in {A B} (f g : A -> list B) l : (forall x, In x l -> f x = g x) -> flat_map f l = flat_map g l.
Proof. induction l as [|x l IH]; cbn; intros H; [reflexivity|]. rewrite H, IH; auto. Qed.
Lemma filter_all {A} (p : A -> bool) l : (forall x, In x l -> p x = true) -> filter p l = l.
Proof. induction l as [|x l IH]; cbn; intros H; [reflexivity|]. rewrite H, IH; auto. Qed.
Lemma filter_leb_seq (j n : nat) : j < n -> filter (fun i => Nat.leb i j) (seq 0 n) = seq 0 (S j).
Proof.
  intros H. replace n with (S j + (n - S j)) by lia. rewrite seq_app, filter_app.
  assert (E1 : filter (fun i => Nat.leb i j) (seq 0 (S j)) = seq 0 (S j)).
  { apply filter_all. intros x Hx. apply in_seq in Hx. apply Nat.leb_le. lia. }
  assert (E2 : filter (fun i => Nat.leb i j) (seq (0 + S j) (n - S j)) = []).
  { generalize (n - S j). intros k. assert (G : forall s, j < s -> filter (fun i => Nat.leb i j) (seq s k) = []).
    { induction k as [|k IH]; intros s Hs; cbn; [reflexivity|].
      destruct (Nat.leb_spec s j); [lia|]. apply IH. lia. }
    apply G. lia. }
  rewrite E1, E2, app_nil_r. reflexivity.
Qed.
Lemma triu_flat n : triu_idxs_by_col n = flat_map (fun j => map (fun i => (i, j)) (seq 0 (S j))) (seq 0 n).
Proof.
  unfold triu_idxs_by_col, get_idxs_by, all_idxs. rewrite filter_flat_map. apply flat_map_ext_in.
  intros j Hj. apply in_seq in Hj. rewrite <- (filter_leb_seq j n) by lia.
  generalize (seq 0 n). intros l. induction l as [|i l IH]; cbn; [reflexivity|].
  destruct (Nat.leb i j); cbn; rewrite IH; reflexivity.
Qed.

Lemma enum_pairs (nb : probe -> nat) p q :
  get_enumeration_map (nb p, nb q) (probe_eqb p q) =
  Ok (combine (bin_pairs nb p q) (seq 0 (length (bin_pairs nb p q)))).
Proof.
  unfold get_enumeration_map, bin_pairs. destruct (probe_eqb_spec p q) as [->|N].
  - rewrite Nat.eqb_refl. cbn [negb]. rewrite triu_flat. reflexivity.
  - reflexivity.
Qed.
Lemma bin_pairs_In (nb : probe -> nat) p q i j : In (i, j) (bin_pairs nb p q) -> i < nb p /\ j < nb q.
Proof.
  unfold bin_pairs. rewrite in_flat_map. intros (j' & Hj & Hi). apply in_map_iff in Hi. destruct Hi as (i' & E & Hi).
  injection E as -> ->. apply in_seq in Hi, Hj. destruct (probe_eqb_spec p q) as [->|N]; lia.
Qed.
Lemma enum_inv_nth (l : list (nat * nat)) r : enum_inv (combine l (seq 0 (length l))) r = nth_error l r.
Proof.
  unfold enum_inv.
  assert (G : forall s r, s <= r ->
    match find (fun kv : (nat * nat) * nat => Nat.eqb (snd kv) r) (combine l (seq s (length l))) with
    | Some kv => Some (fst kv) | None => None end = nth_error l (r - s)).
  { induction l as [|x l IH]; intros s r0 H; cbn [combine seq find length snd].
    - destruct (r0 - s); reflexivity.
    - destruct (Nat.eqb_spec s r0) as [->|N]; [rewrite Nat.sub_diag; reflexivity|].
      rewrite IH by lia. replace (r0 - s) with (S (r0 - S s)) by lia. reflexivity. }
  rewrite (G 0 r) by lia. rewrite Nat.sub_0_r. reflexivity.
Qed.
Lemma combine_seq_length {A} (l : list A) : length (combine l (seq 0 (length l))) = length l.
Proof. rewrite combine_length, seq_length. lia. Qed.

Section Cov.
  Context {F : Type} {K : Fld F} {O : OFld (F := F)}.
  Add Field CovField : (fth (F := F)).
  Open Scope fld_scope.
  Implicit Types d : spectra (F := F).

  (** ** Lookups *)
  Lemma stored_map {V W} (f : V -> W) (e : list (spelled * V)) p q :
    stored (map (fun ev => (fst ev, f (snd ev))) e) p q = option_map f (stored e p q).
  Proof.
    unfold stored.
    assert (G : forall acc, fold_left (fun acc ev => let '((_, (a, b)), v) := ev in
        if probe_eqb a p && probe_eqb b q then Some v else acc) (map (fun ev => (fst ev, f (snd ev))) e) (option_map f acc)
      = option_map f (fold_left (fun acc ev => let '((_, (a, b)), v) := ev in
        if probe_eqb a p && probe_eqb b q then Some v else acc) e acc)).
    { induction e as [|[[k [a b]] v] e IH]; intros acc; [reflexivity|]. cbn [map fold_left fst snd].
      rewrite <- IH. destruct (probe_eqb a p && probe_eqb b q); reflexivity. }
    exact (G None).
  Qed.

  Definition lk d p q : option (list F * cube F) :=
    match stored d p q with
    | Some v => Some v
    | None => match stored d q p with Some v => Some (fst v, ctransp (snd v)) | None => None end
    end.

  Definition opt_res {A} (o : option A) : res A := match o with Some x => Ok x | None => Err EKeyError end.

  Lemma smart_get_all {V} (e : list (spelled * V)) (tr : V -> V) :
    exists sd, smart_of (map (fun ev => (spell1 (fst ev), snd ev)) e) = Ok sd /\
      forall k p q, smart_get tr sd (pkey k p q) =
        match stored e p q with
        | Some v => Ok v
        | None => match stored e q p with Some v => Ok (tr v) | None => Err EKeyError end
        end.
  Proof.
    unfold smart_of. change (@nil (clkey * V)) with (kd_of (V := V) []). rewrite smart_fill_key. eexists. split; [reflexivity|].
    intros k p q. destruct (smart_lookup e tr k p q) as (sd & E & H).
    unfold smart_of in E. change (@nil (clkey * V)) with (kd_of (V := V) []) in E. rewrite smart_fill_key in E. injection E as <-.
    apply H. apply is_key_iff. reflexivity.
  Qed.

  Lemma ells_of_raw d : ells_of (raw_spectra d) =
    map (fun ev => (spell1 (fst ev), snd ev)) (map (fun e => (fst e, fst (snd e))) d).
  Proof. unfold ells_of, raw_spectra. rewrite !map_map. reflexivity. Qed.
  Lemma cls_of_raw d : cls_of (raw_spectra d) =
    map (fun ev => (spell1 (fst ev), snd ev)) (map (fun e => (fst e, snd (snd e))) d).
  Proof. unfold cls_of, raw_spectra. rewrite !map_map. reflexivity. Qed.

  Definition looks_up d (sl : ell_dict (F := F)) (sc : cl_dict (F := F)) : Prop :=
    forall k p q, get_ells sl (pkey k p q) = opt_res (option_map fst (lk d p q)) /\
                  get_cl sc (pkey k p q) = opt_res (option_map snd (lk d p q)).
  Lemma smart_pair d : exists sl sc,
    smart_of (ells_of (raw_spectra d)) = Ok sl /\ smart_of (cls_of (raw_spectra d)) = Ok sc /\ looks_up d sl sc.
  Proof.
    rewrite ells_of_raw, cls_of_raw.
    destruct (smart_get_all (map (fun e => (fst e, fst (snd e))) d) (fun x => x)) as (sl & El & Hl).
    destruct (smart_get_all (map (fun e => (fst e, snd (snd e))) d) ctransp) as (sc & Ec & Hc).
    exists sl, sc. split; [exact El|]. split; [exact Ec|]. intros k p q. unfold get_ells, get_cl.
    rewrite Hl, Hc, !stored_map. unfold lk.
    destruct (stored d p q) as [[l c]|]; [split; reflexivity|]. destruct (stored d q p) as [[l c]|]; split; reflexivity.
  Qed.

  Lemma lk_available d p q : available d p q -> exists l c, lk d p q = Some (l, c).
  Proof.
    unfold available, lk. destruct (stored d p q) as [[l c]|]; [eauto|].
    destruct (stored d q p) as [[l c]|]; [cbn; eauto|]. intros [H|H]; congruence.
  Qed.
  Lemma row_at_nth {A} (l : list F) (rows : list A) s x m : NoDup l -> length l = length rows ->
    nth_error l s = Some x -> nth_error rows s = Some m -> row_at l rows x = Some m.
  Proof.
    intros N E Hl Hr. unfold row_at.
    revert rows s N E Hl Hr. induction l as [|y l IH]; intros [|r rows] [|s] N E Hl Hr; cbn in *; try discriminate.
    - injection Hl as ->. injection Hr as ->. destruct (fdec x x); [reflexivity|congruence].
    - inversion N as [|? ? Hn N']; subst.
      destruct (fdec y x) as [->|ne].
      + exfalso. apply Hn. eapply nth_error_In. exact Hl.
      + eapply IH; eauto.
  Qed.
  Lemma lk_wf nb d p q l c : wf_spectra nb d -> lk d p q = Some (l, c) ->
    cnr c = nb p /\ cnc c = nb q /\ length l = length (crows c) /\ increasing l /\ ells_at d p q = l /\
    forall s x m i j, nth_error l s = Some x -> nth_error (crows c) s = Some m -> cl_at d p q x i j = Some (m i j).
  Proof.
    intros W. unfold lk, ells_at, cl_at.
    destruct (stored d p q) as [[l0 c0]|] eqn:E1.
    - intros E. injection E as -> ->. destruct (W _ _ _ _ E1) as (A & B & C & D). repeat split; auto.
      intros s x m i j Hs Hm. rewrite (row_at_nth l (crows c) s x m); auto using increasing_NoDup.
    - destruct (stored d q p) as [[l0 c0]|] eqn:E2; [|discriminate]. cbn [fst snd]. intros E. injection E as -> <-.
      destruct (W _ _ _ _ E2) as (A & B & C & D). cbn [cnr cnc crows ctransp]. rewrite map_length. repeat split; auto.
      intros s x m i j Hs Hm. rewrite nth_error_map in Hm.
      destruct (nth_error (crows c0) s) as [m0|] eqn:Em; [|discriminate]. cbn in Hm. injection Hm as <-.
      rewrite (row_at_nth l (crows c0) s x m0); auto using increasing_NoDup.
  Qed.

  (** ** A block *)
  Lemma spair_spec a b : reflect (a = b) (spair_eqb a b).
  Proof.
    destruct a as [a1 a2], b as [b1 b2]. unfold spair_eqb. cbn [fst snd].
    destruct (String.eqb_spec a1 b1) as [->|N]; [|constructor; congruence].
    destruct (String.eqb_spec a2 b2) as [->|N]; constructor; congruence.
  Qed.
  Section Fill.
    Context {Key V : Type} (eqb : Key -> Key -> bool) (eqb_spec : forall a b, reflect (a = b) (eqb a b)) (g : Key -> V).
    Lemma dset_graph_In dd k : (forall kv, In kv dd -> snd kv = g (fst kv)) ->
      forall kv, In kv (dset eqb dd k (g k)) -> snd kv = g (fst kv).
    Proof.
      induction dd as [|[k' v'] dd IH]; intros H kv; cbn [dset].
      - intros [<-|[]]. reflexivity.
      - destruct (eqb_spec k' k) as [->|N]; intros [<-|Hin].
        + reflexivity.
        + apply H. right; exact Hin.
        + apply H. left; reflexivity.
        + apply IH; [|exact Hin]. intros kv' H'. apply H. right; exact H'.
    Qed.
    Lemma fill_graph keys : forall dd, (forall kv, In kv dd -> snd kv = g (fst kv)) ->
      let r := fold_left (fun w kv => dset eqb w (fst kv) (snd kv)) (map (fun k => (k, g k)) keys) dd in
      (forall kv, In kv r -> snd kv = g (fst kv) /\ (In (fst kv) keys \/ In kv dd)) /\
      (forall k, In k keys \/ dget eqb dd k = Some (g k) -> dget eqb r k = Some (g k)).
    Proof.
      induction keys as [|k keys IH]; intros dd H; cbn [map fold_left fst snd].
      - split; [intros kv Hkv; split; [apply H; exact Hkv|right; exact Hkv]|intros k [[]|E]; exact E].
      - destruct (IH (dset eqb dd k (g k))) as [A B].
        { intros kv. apply dset_graph_In. exact H. }
        split.
        + intros kv Hkv. destruct (A kv Hkv) as [E [Hi|Hi]]; split; auto; [left; right; exact Hi|].
          clear A B Hkv E. induction dd as [|[k' v'] dd IHd]; cbn [dset] in Hi.
          * destruct Hi as [<-|[]]. left; left; reflexivity.
          * destruct (eqb_spec k' k) as [->|N]; destruct Hi as [<-|Hi].
            -- left; left; reflexivity.
            -- right; right; exact Hi.
            -- right; left; reflexivity.
            -- destruct IHd as [?|?]; [intros kv' H'; apply H; right; exact H'|exact Hi|left; assumption|right; right; assumption].
        + intros k2 Hk2. apply B. destruct (eqb_spec k k2) as [<-|N].
          * right. apply (dget_dset_same eqb eqb_spec).
          * destruct Hk2 as [[E|Hi]|E]; [contradiction|left; exact Hi|].
            right. rewrite (dget_dset_other eqb eqb_spec) by exact N. exact E.
    Qed.
  End Fill.
  Lemma dget_Forall2 {Key V W} (eqb : Key -> Key -> bool) (eqb_spec : forall a b, reflect (a = b) (eqb a b))
    (R : Key -> V -> W -> Prop) dd ee k v :
    Forall2 (fun a b => fst b = fst a /\ R (fst a) (snd a) (snd b)) dd ee ->
    dget eqb dd k = Some v -> exists w, dget eqb ee k = Some w /\ R k v w.
  Proof.
    intros H. induction H as [|[k1 v1] [k2 v2] dd ee [E HR] H IH]; cbn [dget]; [discriminate|].
    cbn [fst snd] in *. subst k2. destruct (eqb_spec k1 k) as [->|N]; [|exact IH].
    intros E. injection E as ->. eauto.
  Qed.
  Lemma mask_common_ok {Key} vals lget (items : list (Key * cube F)) : vals <> [] ->
    (forall k c, In (k, c) items -> exists l, lget k = Ok l /\ length l = length (crows c)) ->
    exists r, mask_common vals lget items = Ok r.
  Proof.
    intros Nv H. unfold mask_common.
    destruct (arrays_intersection vals) as [ells|e] eqn:E.
    2:{ destruct vals as [|a [|b t]]; cbn in E; congruence. }
    cbn [rbind].
    assert (G : exists m, rmapM (fun kb => l <- lget (fst kb);; b <- cmask ells l (snd kb);; Ok (fst kb, b)) items = Ok m).
    { induction items as [|[k c] items IH]; cbn [rmapM]; [eauto|].
      destruct (H k c (or_introl eq_refl)) as (l & El & Ll). cbn [fst snd]. rewrite El. cbn [rbind].
      unfold cmask. rewrite Ll, Nat.eqb_refl. cbn [rbind].
      destruct IH as (m & Em); [intros k' c' H'; apply H; right; exact H'|].
      unfold cmask in Em. rewrite Em. cbn [rbind]. eauto. }
    destruct G as (m & ->). cbn [rbind]. eauto.
  Qed.

  (** A block laid out by row labels R and column labels C, with values g. *)
  Definition comps1 (nb : probe -> nat) (p q : probe) := map (pair (p, q)) (bin_pairs nb p q).
  Definition good_block nb d (a b : probe * probe) (ells : list F) (blk : cube F) : Prop :=
    increasing ells /\
    (forall x, In x ells <-> In x (ells_at d (fst a) (fst b)) /\ In x (ells_at d (snd a) (snd b)) /\
                            In x (ells_at d (fst a) (snd b)) /\ In x (ells_at d (snd a) (fst b))) /\
    laid ells (comps1 nb (fst a) (snd a)) (comps1 nb (fst b) (snd b)) (gauss d) blk.

  Lemma nth_map_seq {A} (f : nat -> A) n t : t < n -> nth_error (map f (seq 0 n)) t = Some (f t).
  Proof.
    intros H. rewrite nth_error_map. rewrite (nth_error_nth' _ 0%nat) by (rewrite seq_length; exact H).
    rewrite seq_nth by exact H. reflexivity.
  Qed.

  Definition dflt_lk d (key : probe * probe) : list F * cube F :=
    match lk d (fst key) (snd key) with Some v => v | None => ([], mkCube 0 0 []) end.
  Definition pk (key : probe * probe) : string * string := (pname Alias (fst key), pname Alias (snd key)).
  Definition unpk (s : string * string) : probe * probe :=
    match find (fun a => spair_eqb (pk a) s) (list_prod [Ph; Sp; Wl; Vd] [Ph; Sp; Wl; Vd]) with Some a => a | None => (Ph, Ph) end.
  Lemma unpk_pk a : unpk (pk a) = a.
  Proof. destruct a as [[] []]; reflexivity. Qed.

  Lemma cov_block_ok nb d sl sc k k' A B C D : wf_spectra nb d -> looks_up d sl sc ->
    (forall p q, In p [A; B; C; D] -> In q [A; B; C; D] -> available d p q) ->
    exists ells blk, cov_block (pkey k A B) (pkey k' C D) sl sc = Ok (ells, blk) /\
      good_block nb d (A, B) (C, D) ells blk.
  Proof.
    intros W L Av.
    set (g := fun s => dflt_lk d (unpk s)).
    assert (Lk : forall p q, In p [A; B; C; D] -> In q [A; B; C; D] -> lk d p q = Some (dflt_lk d (p, q))).
    { intros p q Hp Hq. destruct (lk_available d p q (Av p q Hp Hq)) as (l & c & E). unfold dflt_lk. cbn [fst snd]. rewrite E. reflexivity. }
    assert (GE : forall kk p q, In p [A; B; C; D] -> In q [A; B; C; D] -> get_ells sl (pkey kk p q) = Ok (fst (dflt_lk d (p, q)))).
    { intros kk p q Hp Hq. rewrite (proj1 (L kk p q)), (Lk p q Hp Hq). reflexivity. }
    assert (GC : forall kk p q, In p [A; B; C; D] -> In q [A; B; C; D] -> get_cl sc (pkey kk p q) = Ok (snd (dflt_lk d (p, q)))).
    { intros kk p q Hp Hq. rewrite (proj2 (L kk p q)), (Lk p q Hp Hq). reflexivity. }
    assert (WF : forall p q, In p [A; B; C; D] -> In q [A; B; C; D] -> let v := dflt_lk d (p, q) in
      cnr (snd v) = nb p /\ cnc (snd v) = nb q /\ length (fst v) = length (crows (snd v)) /\ increasing (fst v) /\ ells_at d p q = fst v /\
      forall s x m i j, nth_error (fst v) s = Some x -> nth_error (crows (snd v)) s = Some m -> cl_at d p q x i j = Some (m i j)).
    { intros p q Hp Hq v. apply (lk_wf nb d p q); [exact W|]. rewrite (Lk p q Hp Hq). unfold v. destruct (dflt_lk d (p, q)); reflexivity. }
    assert (IA : In A [A; B; C; D]) by (cbn; tauto). assert (IB : In B [A; B; C; D]) by (cbn; tauto).
    assert (IC : In C [A; B; C; D]) by (cbn; tauto). assert (ID : In D [A; B; C; D]) by (cbn; tauto).
    unfold cov_block. rewrite !tuple_raw_key. cbn [rbind].
    change (clkey_of (tup (pname Alias A, pname Alias B))) with (clkey_of (spell Alias A B)).
    change (clkey_of (tup (pname Alias C, pname Alias D))) with (clkey_of (spell Alias C D)).
    rewrite !clkey_spell. cbn [rbind].
    set (keys := [(A, C); (B, D); (A, D); (B, C)]).
    change [(pname Alias A, pname Alias C); (pname Alias B, pname Alias D); (pname Alias A, pname Alias D); (pname Alias B, pname Alias C)]
      with (map pk keys).
    assert (Hk : forall a, In a keys -> In (fst a) [A; B; C; D] /\ In (snd a) [A; B; C; D]).
    { intros a Ha. cbn in Ha. destruct Ha as [<-|[<-|[<-|[<-|[]]]]]; cbn [fst snd]; auto. }
    match goal with |- context [rmapM ?f (map pk keys)] => set (ff := f) end.
    assert (Esel : rmapM ff (map pk keys) = Ok (map (fun s => (s, g s)) (map pk keys))).
    { assert (G : forall ks, (forall a, In a ks -> In (fst a) [A; B; C; D] /\ In (snd a) [A; B; C; D]) ->
        rmapM ff (map pk ks) = Ok (map (fun s => (s, g s)) (map pk ks))).
      { induction ks as [|[p q] ks IH]; intros H; cbn [map rmapM]; [reflexivity|].
        destruct (H (p, q) (or_introl eq_refl)) as [Hp Hq]. cbn [fst snd] in Hp, Hq.
        replace (ff (pk (p, q))) with (Ok (pk (p, q), g (pk (p, q)))).
        - cbn [rbind]. rewrite IH by (intros a Ha; apply H; right; exact Ha). reflexivity.
        - unfold ff. change (tup (pk (p, q))) with (spell Alias p q). rewrite clkey_spell. cbn [rbind].
          rewrite (GE Alias p q Hp Hq), (GC Alias p q Hp Hq). cbn [rbind]. unfold g. rewrite unpk_pk.
          destruct (dflt_lk d (p, q)); reflexivity. }
      apply G. exact Hk. }
    rewrite Esel. cbn [rbind]. clear Esel ff.
    rewrite (GC Alias A B IA IB), (GC Alias C D IC ID). cbn [rbind].
    (* the two selection dictionaries *)
    assert (FE : forall (h : list F * cube F -> list F) (ks : list (string * string)) acc,
      fold_left (fun w kv => dset spair_eqb w (fst kv) (h (snd kv))) (map (fun s => (s, g s)) ks) acc =
      fold_left (fun w kv => dset spair_eqb w (fst kv) (snd kv)) (map (fun s => (s, h (g s))) ks) acc).
    { intros h ks. induction ks as [|s ks IH]; intros acc; [reflexivity|]. cbn [map fold_left fst snd]. apply IH. }
    assert (FC : forall (h : list F * cube F -> cube F) (ks : list (string * string)) acc,
      fold_left (fun w kv => dset spair_eqb w (fst kv) (h (snd kv))) (map (fun s => (s, g s)) ks) acc =
      fold_left (fun w kv => dset spair_eqb w (fst kv) (snd kv)) (map (fun s => (s, h (g s))) ks) acc).
    { intros h ks. induction ks as [|s ks IH]; intros acc; [reflexivity|]. cbn [map fold_left fst snd]. apply IH. }
    rewrite (FE fst), (FC snd). clear FE FC.
    pose proof (fill_graph spair_eqb spair_spec (fun s => fst (g s)) (map pk keys) [] (fun kv H => match H with end)) as [E1 E2].
    pose proof (fill_graph spair_eqb spair_spec (fun s => snd (g s)) (map pk keys) [] (fun kv H => match H with end)) as [C1 C2].
    cbv zeta in E1, E2, C1, C2.
    set (se := fold_left (fun w kv => dset spair_eqb w (fst kv) (snd kv)) (map (fun s => (s, fst (g s))) (map pk keys)) []) in *.
    set (scl := fold_left (fun w kv => dset spair_eqb w (fst kv) (snd kv)) (map (fun s => (s, snd (g s))) (map pk keys)) []) in *.
    assert (Ge : forall a, In a keys -> dget spair_eqb se (pk a) = Some (fst (dflt_lk d a))).
    { intros a Ha. rewrite (E2 (pk a)) by (left; apply in_map; exact Ha). unfold g. rewrite unpk_pk. reflexivity. }
    assert (Gc : forall a, In a keys -> dget spair_eqb scl (pk a) = Some (snd (dflt_lk d a))).
    { intros a Ha. rewrite (C2 (pk a)) by (left; apply in_map; exact Ha). unfold g. rewrite unpk_pk. reflexivity. }
    assert (Hse : forall v, In v (map snd se) <-> exists a, In a keys /\ v = fst (dflt_lk d a)).
    { intros v. rewrite in_map_iff. split.
      - intros ([s w] & Ev & Hin). destruct (E1 _ Hin) as [Ew [Hs|[]]]. cbn [fst snd] in *. apply in_map_iff in Hs.
        destruct Hs as (a & Ea & Ha). exists a. split; [exact Ha|]. rewrite <- Ev, Ew, <- Ea. unfold g. rewrite unpk_pk. reflexivity.
      - intros (a & Ha & ->). exists (pk a, fst (dflt_lk d a)). split; [reflexivity|].
        apply (dget_In spair_eqb spair_spec). apply Ge. exact Ha. }
    assert (Hsc : forall s c, In (s, c) scl -> exists a, In a keys /\ s = pk a /\ c = snd (dflt_lk d a)).
    { intros s c Hin. destruct (C1 _ Hin) as [Ew [Hs|[]]]. cbn [fst snd] in *. apply in_map_iff in Hs.
      destruct Hs as (a & Ea & Ha). exists a. split; [exact Ha|]. split; [congruence|]. rewrite Ew, <- Ea. unfold g. rewrite unpk_pk. reflexivity. }
    destruct (mask_common_ok (map snd se) (sp_get se) scl) as ([ells masked] & Em).
    { intros E. assert (H : In (fst (dflt_lk d (A, C))) (map snd se)) by (apply Hse; exists (A, C); split; [left; reflexivity|reflexivity]).
      rewrite E in H. destruct H. }
    { intros s c Hin. destruct (Hsc s c Hin) as (a & Ha & -> & ->). exists (fst (dflt_lk d a)). unfold sp_get. rewrite (Ge a Ha).
      split; [reflexivity|]. destruct (Hk a Ha) as [Hp Hq]. destruct (WF _ _ Hp Hq) as (_ & _ & E & _). destruct a; exact E. }
    rewrite Em. cbn [rbind].
    destruct (mask_common_aligned _ _ _ _ _ Em) as (Si & Mi & F2).
    { intros v Hv. apply Hse in Hv. destruct Hv as (a & Ha & ->). destruct (Hk a Ha) as [Hp Hq]. destruct (WF _ _ Hp Hq) as (_ & _ & _ & S & _). destruct a; exact S. }
    { intros s c l Hin El. destruct (Hsc s c Hin) as (a & Ha & -> & ->). unfold sp_get in El. rewrite (Ge a Ha) in El. injection El as <-.
      apply Hse. eauto. }
    assert (Mk : forall a, In a keys -> exists c, dget spair_eqb masked (pk a) = Some c /\ aligned ells (fst (dflt_lk d a)) (snd (dflt_lk d a)) c).
    { intros a Ha.
      destruct (dget_Forall2 spair_eqb spair_spec (fun s c c' => exists l, sp_get se s = Ok l /\ aligned ells l c c') scl masked (pk a) (snd (dflt_lk d a)) F2 (Gc a Ha))
        as (c & Ec & l & El & Al).
      unfold sp_get in El. rewrite (Ge a Ha) in El. injection El as <-. eauto. }
    clear F2 Em.
    rewrite (proj1 (WF A B IA IB)), (proj1 (proj2 (WF A B IA IB))), (proj1 (WF C D IC ID)), (proj1 (proj2 (WF C D IC ID))).
    rewrite !pname_eqb, !enum_pairs. cbn [rbind].
    destruct (Mk (A, C)) as (mAC & EAC & aAC); [cbn; tauto|]. destruct (Mk (B, D)) as (mBD & EBD & aBD); [cbn; tauto|].
    destruct (Mk (A, D)) as (mAD & EAD & aAD); [cbn; tauto|]. destruct (Mk (B, C)) as (mBC & EBC & aBC); [cbn; tauto|].
    unfold sp_get. change (pname Alias A, pname Alias C) with (pk (A, C)). change (pname Alias B, pname Alias D) with (pk (B, D)).
    change (pname Alias A, pname Alias D) with (pk (A, D)). change (pname Alias B, pname Alias C) with (pk (B, C)).
    rewrite EAC, EBD, EAD, EBC. cbn [rbind].
    set (eAB := combine (bin_pairs nb A B) _). set (eCD := combine (bin_pairs nb C D) _).
    assert (Ain : forall p q m, In p [A; B; C; D] -> In q [A; B; C; D] -> aligned ells (fst (dflt_lk d (p, q))) (snd (dflt_lk d (p, q))) m ->
      cnr m = nb p /\ cnc m = nb q /\ length (crows m) = length ells /\
      forall t x, nth_error ells t = Some x -> In x (fst (dflt_lk d (p, q))) -> forall i j, cl_at d p q x i j = Some (nth t (crows m) (fun _ _ => 0) i j)).
    { intros p q m Hp Hq (a1 & a2 & a3 & a4). destruct (WF p q Hp Hq) as (w1 & w2 & w3 & w4 & w5 & w6). cbv zeta in *.
      repeat split; [congruence|congruence|exact a3|]. intros t x Ht Hx i j.
      apply In_nth_error in Hx. destruct Hx as (s & Hs).
      pose proof (a4 t s x Ht Hs) as E. symmetry in E.
      assert (Hlt : t < length (crows m)) by (rewrite a3; apply nth_error_Some; rewrite Ht; discriminate).
      rewrite (nth_error_nth' _ (fun _ _ => 0) Hlt) in E.
      exact (w6 s x _ i j Hs E). }
    destruct (Ain A C mAC IA IC aAC) as (p1 & p2 & p3 & p4). destruct (Ain B D mBD IB ID aBD) as (q1 & q2 & q3 & q4).
    destruct (Ain A D mAD IA ID aAD) as (r1 & r2 & r3 & r4). destruct (Ain B C mBC IB IC aBC) as (s1 & s2 & s3 & s4).
    match goal with |- context [if ?b then _ else _] => assert (Eb : b = true) end.
    { apply forallb_forall. intros [[[i j] row] [[kk m] col]] Hin. apply in_prod_iff in Hin. destruct Hin as [H1 H2].
      apply in_combine_l in H1, H2. apply bin_pairs_In in H1, H2. unfold in_shape. rewrite p1, p2, q1, q2, r1, r2, s1, s2.
      rewrite !(proj2 (Nat.ltb_lt _ _)) by tauto. reflexivity. }
    rewrite Eb. clear Eb.
    match goal with |- context [if ?b then _ else _] => assert (Eb : b = true) end.
    { destruct (list_prod eAB eCD); [reflexivity|]. cbn [forallb]. rewrite p3, q3, r3, s3, Nat.eqb_refl. reflexivity. }
    rewrite Eb. clear Eb.
    eexists _, _. split; [reflexivity|].
    assert (MM : forall x, In x ells <-> In x (ells_at d A C) /\ In x (ells_at d B D) /\ In x (ells_at d A D) /\ In x (ells_at d B C)).
    { intros x. rewrite Mi.
      destruct (WF A C IA IC) as (_ & _ & _ & _ & -> & _). destruct (WF B D IB ID) as (_ & _ & _ & _ & -> & _).
      destruct (WF A D IA ID) as (_ & _ & _ & _ & -> & _). destruct (WF B C IB IC) as (_ & _ & _ & _ & -> & _). cbv zeta. split.
      - intros H. repeat split; apply H; apply Hse; eexists; (split; [|reflexivity]); cbn; tauto.
      - intros (h1 & h2 & h3 & h4) a Ha. apply Hse in Ha. destruct Ha as (key & Hkey & ->). cbn in Hkey.
        destruct Hkey as [<-|[<-|[<-|[<-|[]]]]]; assumption. }
    split; [exact Si|]. split; [exact MM|].
    unfold laid, comps1. cbn [fst snd cnr cnc crows]. unfold eAB, eCD. rewrite !combine_seq_length, !map_length, seq_length.
    split; [reflexivity|]. split; [reflexivity|]. split; [reflexivity|].
    intros t x M r s u v Ht HM Hu Hv.
    assert (Hlt : t < length ells) by (apply nth_error_Some; rewrite Ht; discriminate).
    rewrite (nth_map_seq _ _ _ Hlt) in HM. injection HM as <-.
    rewrite !enum_inv_nth. rewrite nth_error_map in Hu, Hv.
    destruct (nth_error (bin_pairs nb A B) r) as [[i j]|]; [|discriminate]. destruct (nth_error (bin_pairs nb C D) s) as [[kk m]|]; [|discriminate].
    cbn in Hu, Hv. injection Hu as <-. injection Hv as <-.
    assert (Hx : In x ells) by (eapply nth_error_In; exact Ht).
    apply MM in Hx. destruct (WF A C IA IC) as (_ & _ & _ & _ & e1 & _). destruct (WF B D IB ID) as (_ & _ & _ & _ & e2 & _).
    destruct (WF A D IA ID) as (_ & _ & _ & _ & e3 & _). destruct (WF B C IB IC) as (_ & _ & _ & _ & e4 & _). cbv zeta in *.
    rewrite e1, e2, e3, e4 in Hx. destruct Hx as (h1 & h2 & h3 & h4).
    unfold gauss. rewrite (p4 t x Ht h1), (q4 t x Ht h2), (r4 t x Ht h3), (s4 t x Ht h4).
    rewrite (nth_error_nth _ _ 0 Ht). f_equal. unfold cov_cell, two.
    rewrite !(Field_theory.Fdiv_def fth). ring.
  Qed.
End Cov.
