(** Property C57: settings files. *)
From Verif Require Import Base SortLib StrLib IniModel.
Open Scope list_scope.

Fixpoint no_break (s : string) : bool := match s with EmptyString => true | String a r => negb (is_break a) && no_break r end.
(** Texts that survive: nothing that ends a line, no blanks around; a key has a
    first character other than '#', a value no '='. *)
Definition clean_key (k : string) : Prop := no_break k = true /\ strip k = k /\ exists a r, k = String a r /\ a <> "#"%char.
Definition clean_value (v : string) : Prop := no_break v = true /\ strip v = v /\ has "=" v = false.
Definition clean (kv : string * string) : Prop := clean_key (fst kv) /\ clean_value (snd kv).

Lemma lstrip_len s : String.length (lstrip s) <= String.length s.
Proof. induction s as [|a s IH]; cbn; [lia|]. destruct (is_space a); cbn; lia. Qed.
Lemma rstrip_len s : String.length (rstrip s) <= String.length s.
Proof. induction s as [|a s IH]; cbn; [lia|]. destruct (rstrip s); [destruct (is_space a); cbn; lia|cbn in *; lia]. Qed.
Lemma strip_fixed s : strip s = s -> lstrip s = s /\ rstrip s = s.
Proof.
  unfold strip. intros E. assert (L : lstrip s = s).
  { destruct s as [|a s]; [reflexivity|]. cbn [lstrip] in *. destruct (is_space a) eqn:A; [|reflexivity].
    pose proof (rstrip_len (lstrip s)) as P. rewrite E in P. pose proof (lstrip_len s). cbn in P. lia. }
  rewrite L in E. auto.
Qed.
Lemma lstrip_first s : match lstrip s with EmptyString => True | String a _ => is_space a = false end.
Proof. induction s as [|a s IH]; cbn; [exact I|]. destruct (is_space a) eqn:A; [exact IH|exact A]. Qed.
Lemma lstrip_id a s : is_space a = false -> lstrip (String a s) = String a s.
Proof. intros H. cbn. rewrite H. reflexivity. Qed.
Lemma rstrip_cons a s : is_space a = false -> exists t, rstrip (String a s) = String a t.
Proof. intros H. cbn. rewrite H. destruct (rstrip s); eauto. Qed.
Lemma lstrip_idem s : lstrip (lstrip s) = lstrip s.
Proof. pose proof (lstrip_first s) as H. destruct (lstrip s) as [|a r]; [reflexivity|apply lstrip_id; exact H]. Qed.
Lemma rstrip_idem s : rstrip (rstrip s) = rstrip s.
Proof.
  induction s as [|a s IH]; [reflexivity|]. cbn [rstrip]. destruct (rstrip s) as [|b t] eqn:E.
  - destruct (is_space a) eqn:A; [reflexivity|]. cbn. rewrite A. reflexivity.
  - cbn [rstrip] in *. rewrite IH. reflexivity.
Qed.
Lemma strip_first s : match strip s with EmptyString => True | String a _ => is_space a = false end.
Proof.
  unfold strip. pose proof (lstrip_first s) as H. destruct (lstrip s) as [|a r]; [exact I|]. destruct (rstrip_cons a r H) as [t ->]. exact H.
Qed.
Lemma strip_idem s : strip (strip s) = strip s.
Proof.
  unfold strip at 1. assert (E : lstrip (strip s) = strip s).
  { pose proof (strip_first s) as H. destruct (strip s) as [|a r]; [reflexivity|apply lstrip_id; exact H]. }
  rewrite E. unfold strip. apply rstrip_idem.
Qed.
Lemma rstrip_app a b : rstrip (a ++ b)%string = match rstrip b with EmptyString => rstrip a | t => (a ++ t)%string end.
Proof.
  induction a as [|x a IH]; cbn [append rstrip]; [destruct (rstrip b); reflexivity|]. rewrite IH. destruct (rstrip b) as [|y t]; [reflexivity|].
  destruct (a ++ String y t)%string eqn:E; [destruct a; discriminate|reflexivity].
Qed.
Lemma no_break_app a b : no_break (a ++ b)%string = no_break a && no_break b.
Proof. induction a as [|x a IH]; cbn; [reflexivity|]. rewrite IH. apply andb_assoc. Qed.
Lemma no_break_lstrip s : no_break s = true -> no_break (lstrip s) = true.
Proof. induction s as [|a s IH]; cbn; [auto|]. intros H. apply andb_true_iff in H. destruct (is_space a); [apply IH; tauto|cbn; rewrite andb_true_iff; exact H]. Qed.
Lemma no_break_rstrip s : no_break s = true -> no_break (rstrip s) = true.
Proof.
  induction s as [|a s IH]; cbn; [auto|]. intros H. apply andb_true_iff in H. destruct H as [A B]. specialize (IH B).
  destruct (rstrip s) as [|b t]; [destruct (is_space a); cbn; rewrite ?A; reflexivity|]. cbn [no_break] in *. rewrite A. exact IH.
Qed.
Lemma no_break_strip s : no_break s = true -> no_break (strip s) = true.
Proof. intros H. apply no_break_rstrip, no_break_lstrip, H. Qed.
Lemma has_lstrip c s : has c s = false -> has c (lstrip s) = false.
Proof. induction s as [|a s IH]; cbn; [auto|]. intros H. destruct (is_space a); [apply IH; apply orb_false_iff in H; tauto|exact H]. Qed.
Lemma has_rstrip c s : has c s = false -> has c (rstrip s) = false.
Proof.
  induction s as [|a s IH]; cbn; [auto|]. intros H. apply orb_false_iff in H. destruct H as [A B]. specialize (IH B).
  destruct (rstrip s) as [|b t]; [destruct (is_space a); cbn; rewrite ?A; reflexivity|]. cbn [has] in *. rewrite A. exact IH.
Qed.
Lemma last_eq_none s : has "=" s = false -> last_eq s = None.
Proof. induction s as [|a s IH]; cbn; [reflexivity|]. intros H. apply orb_false_iff in H. destruct H as [A B]. rewrite (IH B), A. reflexivity. Qed.
Lemma last_eq_app x v : has "=" v = false -> last_eq (x ++ String "=" v) = Some (x, v).
Proof. intros H. induction x as [|a x IH]; cbn; [rewrite (last_eq_none v H); reflexivity|]. rewrite IH. reflexivity. Qed.
Lemma last_eq_spec s x v : last_eq s = Some (x, v) -> s = (x ++ String "=" v)%string /\ has "=" v = false.
Proof.
  revert x v. induction s as [|a s IH]; intros x v; cbn; [discriminate|]. destruct (last_eq s) as [[x' v']|] eqn:E.
  - intros H. injection H as <- <-. destruct (IH _ _ eq_refl) as [-> N]. split; [reflexivity|exact N].
  - destruct (Ascii.eqb_spec a "=") as [->|N]; [|discriminate]. intros H. injection H as <- <-. split; [reflexivity|].
    destruct (has "=" s) eqn:Hs; [|reflexivity]. exfalso. clear - E Hs. induction s as [|b s IH]; cbn in *; [discriminate|].
    destruct (last_eq s) as [[? ?]|]; [discriminate|]. destruct (Ascii.eqb b "="); [discriminate|]. apply IH; [reflexivity|exact Hs].
Qed.

(** ** Reading one line *)
Definition line_of (kv : string * string) : string := (fst kv ++ " = " ++ snd kv)%string.
Lemma sp_space : is_space " " = true. Proof. reflexivity. Qed.
Lemma clean_first k : clean_key k -> exists a r, k = String a r /\ a <> "#"%char /\ is_space a = false.
Proof.
  intros (_ & S & a & r & -> & N). exists a, r. repeat split; try assumption. pose proof (strip_first (String a r)) as H. rewrite S in H. exact H.
Qed.
Lemma strip_trailing k : clean_key k -> strip (k ++ " ") = k.
Proof.
  intros C. destruct (clean_first k C) as (a & r & E & _ & A). destruct C as (_ & S & _). destruct (strip_fixed k S) as [_ Rk].
  unfold strip. assert (L : lstrip (k ++ " ") = (k ++ " ")%string) by (rewrite E; apply (lstrip_id a (r ++ " ")); exact A). rewrite L, rstrip_app. cbn. exact Rk.
Qed.
Lemma read_line kv : clean kv -> exists n v, match_line (strip (line_of kv)) = Some (n, v) /\ strip n = fst kv /\ strip v = snd kv.
Proof.
  destruct kv as [k v]. intros [Ck Cv]. cbn [fst snd] in *. unfold line_of. cbn [fst snd].
  pose proof (strip_trailing k Ck) as Tk. destruct (clean_first k Ck) as (a & r & E & Na & A). destruct Cv as (_ & Sv & Ev). destruct (strip_fixed v Sv) as [Lv Rv].
  assert (W : exists w, strip (k ++ " = " ++ v) = (k ++ " =" ++ w)%string /\ strip w = v /\ has "=" w = false).
  { assert (L : lstrip (k ++ " = " ++ v) = (k ++ " = " ++ v)%string) by (rewrite E; apply (lstrip_id a (r ++ " = " ++ v)); exact A).
    unfold strip at 1. rewrite L. change (" = " ++ v)%string with (" =" ++ (" " ++ v))%string. rewrite rstrip_app, rstrip_app.
    destruct v as [|b v'].
    - exists ""%string. repeat split; reflexivity.
    - exists (" " ++ String b v')%string. assert (X : rstrip (" " ++ String b v') = (" " ++ String b v')%string) by (rewrite rstrip_app, Rv; reflexivity).
      rewrite X. split; [reflexivity|]. split.
      + unfold strip. change (lstrip (" " ++ String b v')) with (lstrip (String b v')). rewrite Lv. exact Rv.
      + exact Ev. }
  destruct W as (w & -> & Sw & Ew). exists (k ++ " ")%string, w. split; [|split; assumption].
  rewrite E. cbn [append match_line]. destruct (Ascii.eqb_spec a "#") as [e|_]; [contradiction|].
  change (r ++ String " " (String "=" w))%string with (r ++ (" " ++ String "=" w))%string. rewrite <- sapp_assoc, last_eq_app by exact Ew. reflexivity.
Qed.

(** ** Whole files *)
Lemma splitlines_line l t : no_break l = true -> splitlines (l ++ nl ++ t) = l :: splitlines t.
Proof.
  induction l as [|a l IH]; intros H; [reflexivity|]. cbn [no_break] in H. apply andb_true_iff in H. destruct H as [A B].
  cbn [append splitlines]. apply negb_true_iff in A. rewrite A. rewrite IH by exact B. reflexivity.
Qed.
Lemma splitlines_clean s l : In l (splitlines s) -> no_break l = true.
Proof.
  revert l. induction s as [|a s IH]; intros l; [intros []|]. cbn [splitlines]. destruct (is_break a) eqn:A; [intros [<-|H]; [reflexivity|apply IH; exact H]|].
  destruct (splitlines s) as [|m ms]; [intros [<-|[]]; cbn; rewrite A; reflexivity|]. intros [<-|H]; [cbn; rewrite A; apply IH; left; reflexivity|apply IH; right; exact H].
Qed.
Definition put (d : dict string string) (line : string) : dict string string :=
  match match_line (strip line) with Some (n, v) => dset String.eqb d (strip n) (strip v) | None => d end.
Lemma read_put text : read_ini text = fold_left put (splitlines text) [].
Proof. reflexivity. Qed.
Lemma read_write_from d : Forall clean d -> forall acc, fold_left put (splitlines (write_ini d)) acc = dupdate String.eqb acc d.
Proof.
  induction d as [|kv d IH]; intros C acc; [reflexivity|]. inversion C as [|? ? Ckv Cd]; subst. cbn [write_ini fold_right].
  fold (write_ini d). replace (fst kv ++ " = " ++ snd kv ++ nl ++ write_ini d)%string with (line_of kv ++ nl ++ write_ini d)%string by (unfold line_of; rewrite !sapp_assoc; reflexivity).
  rewrite splitlines_line.
  - cbn [fold_left]. destruct (read_line kv Ckv) as (n & v & E & En & Ev). unfold put at 2. rewrite E, En, Ev. rewrite IH by exact Cd. reflexivity.
  - destruct Ckv as [(N & _) (N' & _)]. unfold line_of. rewrite !no_break_app, N, N'. reflexivity.
Qed.
Lemma dset_new (d : dict string string) k v : ~ In k (dkeys d) -> dset String.eqb d k v = d ++ [(k, v)].
Proof.
  induction d as [|[k' v'] d IH]; intros N; [reflexivity|]. cbn in *. destruct (String.eqb_spec k' k) as [->|Ne]; [exfalso; apply N; left; reflexivity|]. rewrite IH by tauto. reflexivity.
Qed.
Lemma dupdate_fresh (d : dict string string) : forall acc, NoDup (dkeys acc ++ dkeys d) -> dupdate String.eqb acc d = acc ++ d.
Proof.
  induction d as [|[k v] d IH]; intros acc N; cbn; [rewrite app_nil_r; reflexivity|].
  cbn in N. assert (Nk : ~ In k (dkeys acc)) by (apply NoDup_remove_2 in N; intros H; apply N; apply in_or_app; left; exact H).
  fold (dupdate String.eqb (dset String.eqb acc k v) d). rewrite dset_new by exact Nk. rewrite IH.
  - rewrite <- app_assoc. reflexivity.
  - unfold dkeys in *. rewrite map_app, <- app_assoc. exact N.
Qed.
(** What is read is always clean, with distinct keys. *)
Lemma put_clean d line : no_break line = true -> NoDup (dkeys d) -> Forall clean d -> NoDup (dkeys (put d line)) /\ Forall clean (put d line).
Proof.
  intros B N C. unfold put. destruct (match_line (strip line)) as [[n v]|] eqn:E; [|auto]. split; [apply NoDup_dset; [apply String.eqb_spec|exact N]|].
  assert (Bs : no_break (strip line) = true) by (apply no_break_strip; exact B). pose proof (strip_first line) as First.
  destruct (strip line) as [|a r] eqn:Es; [discriminate|]. cbn [match_line] in E. destruct (Ascii.eqb_spec a "#") as [_|Na]; [discriminate|].
  destruct (last_eq r) as [[x w]|] eqn:El; [|discriminate]. injection E as <- <-. apply last_eq_spec in El. destruct El as [-> Hw].
  cbn [no_break] in Bs. rewrite no_break_app in Bs. cbn [no_break] in Bs. apply andb_true_iff in Bs. destruct Bs as [Ba Bs]. apply andb_true_iff in Bs. destruct Bs as [Bx Bw]. apply andb_true_iff in Bw. destruct Bw as [_ Bw].
  assert (Cnew : clean (strip (String a x), strip w)).
  { split; cbn [fst snd].
    - split; [apply no_break_strip; cbn; rewrite Ba, Bx; reflexivity|]. split; [apply strip_idem|].
      unfold strip. rewrite (lstrip_id a x First). destruct (rstrip_cons a x First) as [t ->]. eauto.
    - split; [apply no_break_strip; exact Bw|]. split; [apply strip_idem|]. apply has_rstrip, has_lstrip, Hw. }
  clear - C Cnew. revert Cnew. generalize (strip (String a x)) (strip w). intros k v Cn. induction d as [|[k' v'] d IH]; cbn; [repeat constructor; apply Cn|].
  inversion C as [|? ? C1 C2]; subst. destruct (String.eqb_spec k' k) as [->|Ne]; constructor; auto.
Qed.
Lemma read_clean text : NoDup (dkeys (read_ini text)) /\ Forall clean (read_ini text).
Proof.
  rewrite read_put. assert (G : forall ls d, (forall l, In l ls -> no_break l = true) -> NoDup (dkeys d) -> Forall clean d -> NoDup (dkeys (fold_left put ls d)) /\ Forall clean (fold_left put ls d)).
  { induction ls as [|l ls IH]; intros d H N C; [auto|]. cbn [fold_left]. destruct (put_clean d l (H l (or_introl eq_refl)) N C). apply IH; auto. intros l' Hl. apply H. right. exact Hl. }
  apply G; [apply splitlines_clean|constructor|constructor].
Qed.

(** A dictionary is read back unchanged exactly when its texts are clean. *)
Theorem C57_roundtrip (d : dict string string) : NoDup (dkeys d) ->
  (read_ini (write_ini d) = d <-> forall k v, In (k, v) d -> clean_key k /\ clean_value v).
Proof.
  intros N. split.
  - intros E k v H. destruct (read_clean (write_ini d)) as [_ C]. rewrite E in C. rewrite Forall_forall in C. exact (C (k, v) H).
  - intros H. rewrite read_put, read_write_from by (apply Forall_forall; intros [k v] Hin; exact (H k v Hin)). rewrite dupdate_fresh by exact N. reflexivity.
Qed.
(** Whatever was read from a file is written and read back unchanged. *)
Theorem C57_reread text : read_ini (write_ini (read_ini text)) = read_ini text.
Proof.
  destruct (read_clean text) as [N C]. apply C57_roundtrip; [exact N|]. intros k v H. rewrite Forall_forall in C. exact (C (k, v) H).
Qed.
(** The updated file holds the reference settings with the new values in place. *)
Theorem C57_updated ref basis : (forall k v, In (k, v) basis -> clean_key k /\ clean_value v) ->
  read_ini (updated_ini ref basis) = dupdate String.eqb (read_ini ref) basis.
Proof.
  intros H. unfold updated_ini. destruct (read_clean ref) as [N C]. apply C57_roundtrip.
  - clear C. revert N. generalize (read_ini ref) as d. clear H. induction basis as [|[k v] b IH]; intros d N; [exact N|]. cbn. apply IH. apply NoDup_dset; [apply String.eqb_spec|exact N].
  - assert (G : forall d, Forall clean d -> Forall clean (dupdate String.eqb d basis)).
    { clear - H. induction basis as [|[k v] b IH]; intros d C; [exact C|]. cbn. apply IH; [intros k' v' Hin; apply (H k' v'); right; exact Hin|].
      assert (Cn : clean (k, v)) by (exact (H k v (or_introl eq_refl))). clear - C Cn. induction d as [|[k' v'] d IH]; cbn; [repeat constructor; apply Cn|].
      inversion C as [|? ? C1 C2]; subst. destruct (String.eqb_spec k' k) as [->|Ne]; constructor; auto. }
    intros k v Hin. specialize (G _ C). rewrite Forall_forall in G. exact (G (k, v) Hin).
Qed.
(** A value with '=' is cut at its last '='. *)
Theorem C57_equals_refuted : exists d, NoDup (dkeys d) /\ read_ini (write_ini d) <> d /\ read_ini (write_ini d) = [("key = a", "b")]%string.
Proof. exists [("key", "a=b")]%string. split; [repeat constructor; intros []|]. split; [vm_compute; discriminate|vm_compute; reflexivity]. Qed.
Example C57_instance : clean_key "scalar_amp(1)" /\ clean_value "2.1e-9" /\ read_ini (write_ini [("scalar_amp(1)", "2.1e-9"); ("output_root", "")]%string) = [("scalar_amp(1)", "2.1e-9"); ("output_root", "")]%string /\
  read_ini ("# comment = 1" ++ nl ++ "  a = 2 " ++ nl ++ "junk" ++ nl)%string = [("a", "2")]%string.
Proof. split; [repeat split; try reflexivity; do 2 eexists; split; [reflexivity|discriminate]|]. repeat split; reflexivity. Qed.

Print Assumptions C57_roundtrip.
Print Assumptions C57_reread.
Print Assumptions C57_updated.
Print Assumptions C57_equals_refuted.
