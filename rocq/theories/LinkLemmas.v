(** Lemmas about LinkModel. *)
From Verif Require Import Base SortLib StrLib FrameModel FrameLemmas FsModel FileLemmas2 LinkModel.
Open Scope list_scope.

Definition good (x : string) : Prop := x <> ".."%string /\ x <> "."%string.
Definition names (l : list string) : Prop := Forall good l.

Lemma good_tests x : good x -> String.eqb x ".." = false /\ String.eqb x "." = false.
Proof. intros [A B]. split; apply String.eqb_neq; assumption. Qed.
Lemma names_app a b : names (a ++ b) <-> names a /\ names b.
Proof. apply Forall_app. Qed.
Lemma removelast_firstn' {A} (l : list A) : removelast l = firstn (length l - 1) l.
Proof. rewrite removelast_firstn_len. f_equal. lia. Qed.

Lemma normal_names_from l : names l -> forall acc, fold_left norm_step l acc = acc ++ l.
Proof.
  induction l as [|x l IH]; intros H acc; [symmetry; apply app_nil_r|]. inversion H as [|? ? Hx Hl]. subst.
  destruct (good_tests x Hx) as [E1 E2]. cbn [fold_left]. unfold norm_step at 2. rewrite E1, E2, IH by exact Hl. rewrite <- app_assoc. reflexivity.
Qed.
Lemma normal_names l : names l -> normal l = l.
Proof. intros H. unfold normal. rewrite (normal_names_from l H). reflexivity. Qed.

Lemma common_le a : forall b, common a b <= length a /\ common a b <= length b.
Proof.
  induction a as [|x a IH]; intros [|y b]; cbn [common length]; try lia. destruct (String.eqb x y); [|lia]. specialize (IH b). lia.
Qed.
Lemma common_firstn a : forall b, firstn (common a b) a = firstn (common a b) b.
Proof.
  induction a as [|x a IH]; intros [|y b]; cbn [common firstn]; try reflexivity. destruct (String.eqb x y) eqn:E; [|reflexivity].
  apply String.eqb_eq in E. subst y. cbn [firstn]. rewrite IH. reflexivity.
Qed.
Lemma common_app a l : common a (a ++ l) = length a.
Proof. induction a as [|x a IH]; cbn [common app length]; [destruct l; reflexivity|]. rewrite String.eqb_refl, IH. reflexivity. Qed.

(** The relative path of something below. *)
Lemma relpath_below cwd p l : names p -> names l -> l <> [] -> relpath cwd (mkG true (p ++ l)) (mkG true p) = mkG false l.
Proof.
  intros Hp Hl Hne. unfold relpath, abspath. cbn [g_abs g_parts app]. rewrite !normal_names by (rewrite ?names_app; tauto).
  rewrite common_app, Nat.sub_diag. cbn [repeat app]. rewrite skipn_app, skipn_all, Nat.sub_diag. cbn [app skipn]. destruct l; [congruence|reflexivity].
Qed.

Section Links.
  Context {C : Type}.
  Notation lfs := (lfs C).

  Lemma lookup_put_same (s : lfs) p n : p <> [] -> llookup (lput s p n) p = Some n.
  Proof. intros H. destruct p as [|x p]; [congruence|]. unfold llookup, lput. apply dget_dset_same. exact sl_eqb_spec. Qed.
  Lemma lookup_put_other (s : lfs) p q n : q <> p -> llookup (lput s p n) q = llookup s q.
  Proof. intros H. destruct q as [|x q]; [reflexivity|]. unfold llookup, lput. apply dget_dset_other; [exact sl_eqb_spec|congruence]. Qed.

  Lemma walk_cons (s : lfs) n cur x r : walk s n cur (x :: r) =
    if String.eqb x ".." then walk s n (removelast cur) r
    else if String.eqb x "." then walk s n cur r
    else match llookup s (cur ++ [x]) with
         | None => Err EFileNotFound
         | Some LDir => walk s n (cur ++ [x]) r
         | Some (LFile _) => match r with [] => Ok (cur ++ [x]) | _ => Err EOSError end
         | Some (LLink t) => match n with 0 => Err EOSError | S k => walk s k (if g_abs t then [] else cur) (g_parts t ++ r) end
         end.
  Proof. destruct n; reflexivity. Qed.
  Lemma walk_nil (s : lfs) n cur : walk s n cur [] = Ok cur.
  Proof. destruct n; reflexivity. Qed.

  (** Induction on walks. *)
  Lemma walk_ind (P : nat -> path -> list string -> Prop) :
    (forall n, (forall k, k < n -> forall cur todo, P k cur todo) -> forall todo, (forall r, length r < length todo -> forall cur, P n cur r) -> forall cur, P n cur todo) ->
    forall n cur todo, P n cur todo.
  Proof.
    intros H n. induction n as [n IHn] using lt_wf_ind. intros cur todo. revert cur.
    remember (length todo) as m eqn:Em. revert todo Em. induction m as [m IHm] using lt_wf_ind. intros todo -> cur.
    apply H; [intros k Hk cur' todo'; apply IHn; exact Hk|]. intros r Hr cur'. exact (IHm (length r) Hr r eq_refl cur').
  Qed.

  Lemma walk_links (s : lfs) n cur todo p m : walk s n cur todo = Ok p -> n <= m -> walk s m cur todo = Ok p.
  Proof.
    revert p m. revert n cur todo. apply (walk_ind (fun n cur todo => forall p m, walk s n cur todo = Ok p -> n <= m -> walk s m cur todo = Ok p)).
    intros n IHn todo IHr cur p m. destruct todo as [|x r]; [rewrite !walk_nil; auto|]. rewrite !walk_cons.
    assert (Hr : length r < length (x :: r)) by (cbn; lia).
    destruct (String.eqb x ".."); [apply (IHr r Hr)|]. destruct (String.eqb x "."); [apply (IHr r Hr)|].
    destruct (llookup s (cur ++ [x])) as [[|c|t]|]; try (intros; assumption).
    - apply (IHr r Hr).
    - intros H Hm. destruct n as [|k]; [discriminate|]. destruct m as [|m]; [lia|]. apply (IHn k); [lia|exact H|lia].
  Qed.

  (** A state that keeps every directory and link and has a file where there
      was one. *)
  Definition grows (s s' : lfs) : Prop := forall p, match llookup s p with
    | None => True | Some LDir => llookup s' p = Some LDir | Some (LLink t) => llookup s' p = Some (LLink t)
    | Some (LFile _) => exists c, llookup s' p = Some (LFile c) end.
  Lemma grows_refl s : grows s s.
  Proof. intros p. destruct (llookup s p) as [[|c|t]|]; eauto. Qed.
  Lemma grows_trans a b c : grows a b -> grows b c -> grows a c.
  Proof.
    intros H1 H2 p. specialize (H1 p). specialize (H2 p). destruct (llookup a p) as [[|x|t]|]; auto.
    - rewrite H1 in H2. exact H2.
    - destruct H1 as (y & E). rewrite E in H2. exact H2.
    - rewrite H1 in H2. exact H2.
  Qed.
  Lemma grows_put (s : lfs) p n : p <> [] -> (llookup s p = None \/ (exists c c', llookup s p = Some (LFile c) /\ n = LFile c')) -> grows s (lput s p n).
  Proof.
    intros Hp H q. destruct (sl_eqb_spec q p) as [->|N].
    - rewrite lookup_put_same by exact Hp. destruct H as [->|(c & c' & -> & ->)]; [exact I|eauto].
    - rewrite lookup_put_other by exact N. destruct (llookup s q) as [[|c|t]|]; eauto.
  Qed.
  Lemma walk_grows s s' n cur todo p : grows s s' -> walk s n cur todo = Ok p -> walk s' n cur todo = Ok p.
  Proof.
    intros G. revert p. revert n cur todo. apply (walk_ind (fun n cur todo => forall p, walk s n cur todo = Ok p -> walk s' n cur todo = Ok p)).
    intros n IHn todo IHr cur p. destruct todo as [|x r]; [rewrite !walk_nil; auto|]. rewrite !walk_cons.
    assert (Hr : length r < length (x :: r)) by (cbn; lia).
    destruct (String.eqb x ".."); [apply (IHr r Hr)|]. destruct (String.eqb x "."); [apply (IHr r Hr)|].
    specialize (G (cur ++ [x])). destruct (llookup s (cur ++ [x])) as [[|c|t]|].
    - rewrite G. apply (IHr r Hr).
    - destruct G as (c' & ->). auto.
    - rewrite G. destruct n as [|k]; [discriminate|]. apply IHn. lia.
    - discriminate.
  Qed.

  (** A state to which entries were only added. *)
  Definition keeps (s s' : lfs) : Prop := forall p n, llookup s p = Some n -> llookup s' p = Some n.
  Lemma keeps_refl s : keeps s s.
  Proof. intros p n H. exact H. Qed.
  Lemma keeps_trans a b c : keeps a b -> keeps b c -> keeps a c.
  Proof. intros H1 H2 p n H. apply H2, H1, H. Qed.
  Lemma keeps_put (s : lfs) p n : p <> [] -> llookup s p = None -> keeps s (lput s p n).
  Proof. intros Hp E q m H. rewrite lookup_put_other; [exact H|]. intros ->. congruence. Qed.
  Lemma keeps_grows s s' : keeps s s' -> grows s s'.
  Proof. intros H p. destruct (llookup s p) as [[|c|t]|] eqn:E; [apply H; exact E|exists c; apply H; exact E|apply H; exact E|exact I]. Qed.
  Lemma read_keeps L cwd s s' g c : keeps s s' -> lread L cwd s g = Ok c -> lread L cwd s' g = Ok c.
  Proof.
    intros K. unfold lread. destruct (locate L cwd s g) as [p|e] eqn:El; cbn [rbind]; [|discriminate].
    assert (E' : locate L cwd s' g = Ok p) by (unfold locate in *; eapply walk_grows; [apply keeps_grows; exact K|exact El]). rewrite E'. cbn [rbind].
    destruct (llookup s p) as [[|c0|t]|] eqn:E; try discriminate. intros X. injection X as ->. rewrite (K _ _ E). reflexivity.
  Qed.

  (** [p] and all that is above it are directories, no links. *)
  Definition real (s : lfs) (p : path) : Prop := forall n, llookup s (firstn n p) = Some LDir.
  Lemma real_nil s : real s [].
  Proof. intros n. rewrite firstn_nil. reflexivity. Qed.
  Lemma real_self s p : real s p -> llookup s p = Some LDir.
  Proof. intros H. specialize (H (length p)). rewrite firstn_all in H. exact H. Qed.
  Lemma real_firstn s p k : real s p -> real s (firstn k p).
  Proof. intros H n. rewrite firstn_firstn. apply H. Qed.
  Lemma real_app s p q : real s (p ++ q) -> real s p.
  Proof. intros H. rewrite <- (firstn_all2 (n := length p) p) by lia. replace (firstn (length p) p) with (firstn (length p) (p ++ q)).
    - apply real_firstn. exact H.
    - rewrite firstn_app, Nat.sub_diag. cbn. rewrite app_nil_r. reflexivity. Qed.
  Lemma real_snoc s p x : real s p -> llookup s (p ++ [x]) = Some LDir -> real s (p ++ [x]).
  Proof.
    intros H E n. destruct (le_lt_dec n (length p)) as [Hn|Hn].
    - rewrite firstn_app. replace (n - length p) with 0 by lia. cbn. rewrite app_nil_r. apply H.
    - rewrite firstn_all2 by (rewrite app_length; cbn; lia). exact E.
  Qed.
  Lemma real_grows s s' p : grows s s' -> real s p -> real s' p.
  Proof. intros G H n. specialize (G (firstn n p)). rewrite (H n) in G. exact G. Qed.

  Lemma walk_through (s : lfs) n p : forall cur r, names p -> real s (cur ++ p) -> walk s n cur (p ++ r) = walk s n (cur ++ p) r.
  Proof.
    induction p as [|x p IH]; intros cur r Hn Hr; [rewrite app_nil_r; reflexivity|]. inversion Hn as [|? ? Hx Hp]. subst.
    destruct (good_tests x Hx) as [E1 E2]. cbn [app]. rewrite walk_cons, E1, E2.
    replace (cur ++ x :: p) with ((cur ++ [x]) ++ p) in * by (rewrite <- app_assoc; reflexivity).
    rewrite (real_self _ _ (real_app _ _ _ Hr)). apply IH; assumption.
  Qed.
  Lemma walk_up (s : lfs) n k : forall cur r, walk s n cur (repeat ".."%string k ++ r) = walk s n (firstn (length cur - k) cur) r.
  Proof.
    induction k as [|k IH]; intros cur r.
    - cbn [repeat app]. rewrite Nat.sub_0_r, firstn_all. reflexivity.
    - cbn [repeat app]. rewrite walk_cons. cbn [String.eqb Ascii.eqb Bool.eqb]. rewrite IH. f_equal. rewrite removelast_firstn', firstn_firstn, firstn_length. f_equal. lia.
  Qed.

  (** A relative path made from the run directory leads where the absolute
      one leads. *)
  Lemma relpath_walk (s : lfs) n cwd g rd : names rd -> real s rd ->
    walk s n rd (g_parts (relpath cwd g (mkG true rd))) = walk s n [] (abspath cwd g).
  Proof.
    intros Hn Hr. unfold relpath. assert (Ea : abspath cwd (mkG true rd) = rd) by (unfold abspath; cbn [g_abs g_parts app]; apply normal_names; exact Hn).
    rewrite Ea. set (b := abspath cwd g). set (i := common rd b). cbn [g_parts].
    pose proof (common_le rd b) as [Hi1 Hi2]. fold i in Hi1, Hi2. pose proof (common_firstn rd b) as Hf. fold i in Hf.
    assert (Hw : walk s n rd (repeat ".."%string (length rd - i) ++ skipn i b) = walk s n [] b).
    { rewrite walk_up. replace (length rd - (length rd - i)) with i by lia.
      rewrite <- (firstn_skipn i b) at 2. rewrite <- Hf. rewrite walk_through; [reflexivity| |cbn [app]; apply real_firstn; exact Hr].
      unfold names in *. rewrite <- (firstn_skipn i rd) in Hn. apply Forall_app in Hn. apply Hn. }
    destruct (repeat ".."%string (length rd - i) ++ skipn i b) as [|y l] eqn:El; [|exact Hw].
    rewrite walk_cons. cbn [String.eqb Ascii.eqb Bool.eqb]. rewrite walk_nil. rewrite walk_nil in Hw. exact Hw.
  Qed.

  (** Where walks end: below real directories, on names. *)
  Lemma walk_end (s : lfs) n cur todo p : names cur -> real s cur -> walk s n cur todo = Ok p ->
    names p /\ (real s p \/ exists c, llookup s p = Some (LFile c)).
  Proof.
    revert p. revert n cur todo. apply (walk_ind (fun n cur todo => forall p, names cur -> real s cur -> walk s n cur todo = Ok p -> names p /\ (real s p \/ exists c, llookup s p = Some (LFile c)))).
    intros n IHn todo IHr cur p Hn Hr. destruct todo as [|x r].
    - rewrite walk_nil. intros E. injection E as <-. tauto.
    - rewrite walk_cons. assert (Hl : length r < length (x :: r)) by (cbn; lia).
      destruct (String.eqb x "..") eqn:E1.
      { apply (IHr r Hl).
        - rewrite removelast_firstn'. unfold names in *. rewrite <- (firstn_skipn (length cur - 1) cur) in Hn. apply Forall_app in Hn. apply Hn.
        - rewrite removelast_firstn'. apply real_firstn. exact Hr. }
      destruct (String.eqb x ".") eqn:E2; [apply (IHr r Hl); assumption|].
      assert (Hx : good x) by (split; apply String.eqb_neq; assumption).
      assert (Hc : names (cur ++ [x])) by (apply names_app; split; [exact Hn|constructor; [exact Hx|constructor]]).
      destruct (llookup s (cur ++ [x])) as [[|c|t]|] eqn:E; try discriminate.
      + apply (IHr r Hl); [exact Hc|apply real_snoc; assumption].
      + destruct r; [|discriminate]. intros X. injection X as <-. split; [exact Hc|right; exists c; exact E].
      + destruct n as [|k]; [discriminate|]. apply (IHn k); [lia| |]; destruct (g_abs t); try assumption; [constructor|apply real_nil].
  Qed.

  Context (L : nat) (cwd : path).
  Lemma entry_real (s : lfs) p x : names p -> real s p -> entry L cwd s (mkG true (p ++ [x])) = Ok (p ++ [x]).
  Proof.
    intros Hn Hr. unfold entry, locate, g_parent, g_name. cbn [g_abs g_parts]. rewrite removelast_last, last_last.
    destruct (p ++ [x]) eqn:E; [destruct p; discriminate|]. rewrite <- E. clear E.
    rewrite <- (app_nil_r p) at 1. rewrite walk_through; [|exact Hn|exact Hr]. cbn [app]. rewrite walk_nil. cbn [rbind]. rewrite (real_self _ _ Hr). reflexivity.
  Qed.
  Lemma locate_real (s : lfs) p x : names p -> good x -> real s p -> locate L cwd s (mkG true (p ++ [x])) =
    match llookup s (p ++ [x]) with
    | None => Err EFileNotFound | Some LDir | Some (LFile _) => Ok (p ++ [x])
    | Some (LLink t) => match L with 0 => Err EOSError | S k => walk s k (if g_abs t then [] else p) (g_parts t) end
    end.
  Proof.
    intros Hn Hx Hr. unfold locate. cbn [g_abs g_parts]. rewrite walk_through by (try exact Hn; exact Hr). cbn [app]. rewrite walk_cons.
    destruct (good_tests x Hx) as [-> ->]. rewrite walk_nil. destruct (llookup s (p ++ [x])) as [[|c|t]|]; try reflexivity. rewrite app_nil_r. reflexivity.
  Qed.
  Lemma read_real (s : lfs) p x c : names p -> good x -> real s p -> llookup s (p ++ [x]) = Some (LFile c) -> lread L cwd s (mkG true (p ++ [x])) = Ok c.
  Proof. intros Hn Hx Hr E. unfold lread. rewrite (locate_real s p x Hn Hx Hr), E. cbn [rbind]. rewrite E. reflexivity. Qed.
  Lemma write_real (s : lfs) p x c : names p -> real s p -> (llookup s (p ++ [x]) = None \/ exists c0, llookup s (p ++ [x]) = Some (LFile c0)) ->
    lwrite L cwd (mkG true (p ++ [x])) c s = (lput s (p ++ [x]) (LFile c), Ok tt).
  Proof. intros Hn Hr H. unfold lwrite. rewrite (entry_real s p x Hn Hr). destruct H as [->|(c0 & ->)]; reflexivity. Qed.
End Links.
