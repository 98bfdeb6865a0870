(** Python [str] operations the models use, on ASCII strings.  No SEYFERT code. *)
From Verif Require Import Base.

Open Scope string_scope.

(** [c in s]. *)
Fixpoint has (c : ascii) (s : string) : bool :=
  match s with EmptyString => false | String a r => Ascii.eqb a c || has c r end.
(** s.replace(c, "") for a single character. *)
Fixpoint remove_char (c : ascii) (s : string) : string :=
  match s with
  | EmptyString => ""
  | String a r => if Ascii.eqb a c then remove_char c r else String a (remove_char c r)
  end.
(** s.split(c) for a single character: always at least one part. *)
Fixpoint split_char (c : ascii) (s : string) : list string :=
  match s with
  | EmptyString => [""]
  | String a r =>
      if Ascii.eqb a c then "" :: split_char c r
      else match split_char c r with
           | [] => [String a ""]
           | p :: ps => String a p :: ps
           end
  end.
(** sep.join(l). *)
Definition join (sep : string) (l : list string) : string := String.concat sep l.
(** p is a prefix of s; the rest of s after it. *)
Fixpoint strip_prefix (p s : string) : option string :=
  match p, s with
  | EmptyString, _ => Some s
  | String a p', String b s' => if Ascii.eqb a b then strip_prefix p' s' else None
  | String _ _, EmptyString => None
  end.
Definition starts (p s : string) : bool := match strip_prefix p s with Some _ => true | None => false end.
Definition is_lower (a : ascii) : bool := (97 <=? nat_of_ascii a)%nat && (nat_of_ascii a <=? 122)%nat.
Definition is_digit (a : ascii) : bool := (48 <=? nat_of_ascii a)%nat && (nat_of_ascii a <=? 57)%nat.

Lemma sapp_assoc a b c : ((a ++ b) ++ c = a ++ (b ++ c))%string.
Proof. induction a as [|x a IH]; cbn; [reflexivity|rewrite IH; reflexivity]. Qed.
Lemma sapp_nil_r a : (a ++ "" = a)%string.
Proof. induction a as [|x a IH]; cbn; [reflexivity|rewrite IH; reflexivity]. Qed.
Lemma slen_app a b : String.length (a ++ b) = (String.length a + String.length b)%nat.
Proof. induction a as [|x a IH]; cbn; [reflexivity|rewrite IH; reflexivity]. Qed.
Lemma sapp_inj_l a b c : (a ++ b = a ++ c)%string -> b = c.
Proof. induction a as [|x a IH]; cbn; [auto|]. intros H. injection H as H. auto. Qed.

Lemma has_app c a b : has c (a ++ b) = has c a || has c b.
Proof. induction a as [|x a IH]; cbn; [reflexivity|rewrite IH, orb_assoc; reflexivity]. Qed.
Lemma remove_app c a b : remove_char c (a ++ b) = (remove_char c a ++ remove_char c b)%string.
Proof. induction a as [|x a IH]; cbn; [reflexivity|]. destruct (Ascii.eqb x c); cbn; rewrite IH; reflexivity. Qed.
Lemma remove_none c a : has c a = false -> remove_char c a = a.
Proof.
  induction a as [|x a IH]; cbn; [reflexivity|]. intros H. apply orb_false_iff in H. destruct H as [E H].
  rewrite E, IH by exact H. reflexivity.
Qed.
Lemma has_remove c a : has c (remove_char c a) = false.
Proof. induction a as [|x a IH]; cbn; [reflexivity|]. destruct (Ascii.eqb x c) eqn:E; cbn; rewrite ?E; exact IH. Qed.
Lemma has_remove_other c d a : has d a = false -> has d (remove_char c a) = false.
Proof.
  induction a as [|x a IH]; cbn; [reflexivity|]. intros H. apply orb_false_iff in H. destruct H as [E H].
  destruct (Ascii.eqb x c); cbn; rewrite ?E; auto.
Qed.

Lemma split_none c a : has c a = false -> split_char c a = [a].
Proof.
  induction a as [|x a IH]; cbn; [reflexivity|]. intros H. apply orb_false_iff in H. destruct H as [E H].
  rewrite E, IH by exact H. reflexivity.
Qed.
Lemma split_nonempty c a : split_char c a <> [].
Proof. destruct a as [|x a]; cbn; [discriminate|]. destruct (Ascii.eqb x c); [discriminate|]. destruct (split_char c a); discriminate. Qed.
Lemma split_app c a r : has c a = false -> split_char c (a ++ String c r) = a :: split_char c r.
Proof.
  induction a as [|x a IH]; cbn.
  - rewrite Ascii.eqb_refl. reflexivity.
  - intros H. apply orb_false_iff in H. destruct H as [E H]. rewrite E, IH by exact H. reflexivity.
Qed.
Lemma split_parts c a p : In p (split_char c a) -> has c p = false.
Proof.
  revert p. induction a as [|x a IH]; cbn; intros p H.
  - destruct H as [<-|[]]. reflexivity.
  - destruct (Ascii.eqb x c) eqn:E.
    + destruct H as [<-|H]; [reflexivity|apply IH; exact H].
    + destruct (split_char c a) as [|q qs] eqn:Es; [exfalso; exact (split_nonempty c a Es)|].
      destruct H as [<-|H]; [cbn; rewrite E; apply IH; left; reflexivity|apply IH; right; exact H].
Qed.

Definition cstr (c : ascii) : string := String c "".
(** Splitting what was joined gives the parts back. *)
Lemma split_join c l : l <> [] -> (forall x, In x l -> has c x = false) -> split_char c (join (cstr c) l) = l.
Proof.
  unfold join. induction l as [|x l IH]; intros Hn H; [congruence|]. destruct l as [|y l].
  - cbn. apply split_none. apply H; left; reflexivity.
  - change (String.concat (cstr c) (x :: y :: l)) with (x ++ (cstr c ++ String.concat (cstr c) (y :: l))).
    cbn [cstr append]. rewrite split_app by (apply H; left; reflexivity). f_equal.
    apply IH; [discriminate|]. intros z Hz; apply H; right; exact Hz.
Qed.
Lemma join_split c s : join (cstr c) (split_char c s) = s.
Proof.
  unfold join. induction s as [|a s IH]; cbn [split_char]; [reflexivity|].
  destruct (Ascii.eqb a c) eqn:E.
  - apply Ascii.eqb_eq in E. subst a. destruct (split_char c s) as [|p ps] eqn:Es; [exfalso; exact (split_nonempty c s Es)|].
    change (String.concat (cstr c) ("" :: p :: ps)) with ("" ++ (cstr c ++ String.concat (cstr c) (p :: ps))).
    rewrite IH. reflexivity.
  - destruct (split_char c s) as [|p ps] eqn:Es; [exfalso; exact (split_nonempty c s Es)|].
    rewrite <- IH. destruct ps as [|q ps]; reflexivity.
Qed.
Lemma has_join c d l : c <> d -> (forall x, In x l -> has c x = false) -> has c (join (cstr d) l) = false.
Proof.
  unfold join. intros Hne. induction l as [|x l IH]; intros H; [reflexivity|]. destruct l as [|y l].
  - cbn. apply H; left; reflexivity.
  - change (String.concat (cstr d) (x :: y :: l)) with (x ++ (cstr d ++ String.concat (cstr d) (y :: l))).
    rewrite !has_app, (H x) by (left; reflexivity). cbn [cstr has].
    destruct (Ascii.eqb d c) eqn:E; [apply Ascii.eqb_eq in E; congruence|]. cbn [orb].
    apply IH. intros z Hz; apply H; right; exact Hz.
Qed.
Lemma strip_prefix_app p s : strip_prefix p (p ++ s) = Some s.
Proof. induction p as [|a p IH]; cbn; [reflexivity|]. rewrite Ascii.eqb_refl. exact IH. Qed.
Lemma strip_prefix_some p s r : strip_prefix p s = Some r -> s = (p ++ r)%string.
Proof.
  revert s. induction p as [|a p IH]; intros [|b s]; cbn; try congruence.
  destruct (Ascii.eqb a b) eqn:E; [|discriminate]. apply Ascii.eqb_eq in E. subst b. intros H.
  rewrite (IH s H). reflexivity.
Qed.
Lemma starts_iff p s : starts p s = true <-> exists r, s = (p ++ r)%string.
Proof.
  unfold starts. split.
  - destruct (strip_prefix p s) as [r|] eqn:E; [|discriminate]. intros _. exists r. apply strip_prefix_some; exact E.
  - intros (r & ->). rewrite strip_prefix_app. reflexivity.
Qed.
