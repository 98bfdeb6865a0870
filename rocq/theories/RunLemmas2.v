(** Lemmas on the program run_seyfert: the words of a submission. *)
From Verif Require Import Base SortLib StrLib NameModel NameLemmas FsModel IniModel BatchModel BatchProps BatchProps2 RunModel RunLemmas.
Open Scope list_scope.
Open Scope string_scope.

(** A text the shell keeps as one word. *)
Definition clean (w : string) : Prop := w <> "" /\ has " " w = false /\ has """" w = false.
Lemma shell_more w : has " " w = false -> has """" w = false -> forall u r, shell false (Some u) (w ++ " " ++ r) = (u ++ w) :: shell false None r.
Proof.
  induction w as [|a w IH]; intros S Q u r.
  - cbn [append shell]. rewrite sapp_nil_r. reflexivity.
  - cbn [has] in S, Q. apply orb_false_iff in S as [S1 S2]. apply orb_false_iff in Q as [Q1 Q2]. cbn [append shell].
    rewrite Q1.
    rewrite S1. cbn [negb andb].
    change (w ++ String " " r) with (w ++ " " ++ r). rewrite IH by assumption. rewrite sapp_assoc. reflexivity.
Qed.
Lemma shell_last w : has " " w = false -> has """" w = false -> forall u, shell false (Some u) w = [u ++ w].
Proof.
  induction w as [|a w IH]; intros S Q u.
  - cbn. rewrite sapp_nil_r. reflexivity.
  - cbn [has] in S, Q. apply orb_false_iff in S as [S1 S2]. apply orb_false_iff in Q as [Q1 Q2]. cbn [shell].
    rewrite Q1.
    rewrite S1. cbn [negb andb].
    rewrite IH by assumption. rewrite sapp_assoc. reflexivity.
Qed.
Lemma shell_first a w : has " " (String a w) = false -> has """" (String a w) = false -> forall r, shell false None (String a r) = shell false (Some (cstr a)) r.
Proof.
  intros S Q r. cbn [has] in S, Q. apply orb_false_iff in S as [S1 S2]. apply orb_false_iff in Q as [Q1 Q2]. cbn [shell].
  rewrite Q1.
  rewrite S1. reflexivity.
Qed.
Lemma shell_word w r : clean w -> shell false None (w ++ " " ++ r) = w :: shell false None r.
Proof.
  intros (N & S & Q). destruct w as [|a w]; [congruence|]. cbn [append]. rewrite (shell_first a w S Q). change (w ++ String " " r) with (w ++ " " ++ r).
  cbn [has] in S, Q. apply orb_false_iff in S as [S1 S2]. apply orb_false_iff in Q as [Q1 Q2]. rewrite shell_more by assumption. reflexivity.
Qed.
Lemma shell_only w : clean w -> shell false None w = [w].
Proof.
  intros (N & S & Q). destruct w as [|a w]; [congruence|]. rewrite (shell_first a w S Q).
  cbn [has] in S, Q. apply orb_false_iff in S as [S1 S2]. apply orb_false_iff in Q as [Q1 Q2]. rewrite shell_last by assumption. reflexivity.
Qed.
Lemma shell_list l r : l <> [] -> Forall clean l -> shell false None (join " " l ++ " " ++ r) = (l ++ shell false None r)%list.
Proof.
  induction l as [|a l IH]; intros N F; [congruence|]. inversion F as [|? ? Fa Fl]; subst. destruct l as [|b l].
  - cbn [join String.concat]. rewrite shell_word by exact Fa. reflexivity.
  - change (join " " (a :: b :: l)) with (a ++ " " ++ join " " (b :: l)). rewrite sapp_assoc. change ((" " ++ join " " (b :: l)) ++ " " ++ r) with (" " ++ (join " " (b :: l) ++ " " ++ r)).
    rewrite shell_word by exact Fa. rewrite IH by (discriminate || exact Fl). reflexivity.
Qed.
Lemma shell_whole l : Forall clean l -> shell false None (join " " l) = l.
Proof.
  induction l as [|a l IH]; intros F; [reflexivity|]. inversion F as [|? ? Fa Fl]; subst. destruct l as [|b l]; [apply shell_only; exact Fa|].
  change (join " " (a :: b :: l)) with (a ++ " " ++ join " " (b :: l)). rewrite shell_word by exact Fa. rewrite IH by exact Fl. reflexivity.
Qed.
Lemma shell_in_quotes q : has """" q = false -> forall u r, shell true (Some u) (q ++ dq ++ " " ++ r) = (u ++ q) :: shell false None r.
Proof.
  induction q as [|a q IH]; intros Q u r.
  - cbn. rewrite sapp_nil_r. reflexivity.
  - cbn [has] in Q. apply orb_false_iff in Q as [Q1 Q2]. cbn [append shell].
    rewrite Q1. cbn [negb andb].
    change (dq ++ String " " r) with (dq ++ " " ++ r). rewrite IH by exact Q2. rewrite sapp_assoc. reflexivity.
Qed.
Lemma shell_option q r : has """" q = false -> shell false None ("-R" ++ dq ++ q ++ dq ++ " " ++ r) = ("-R" ++ q) :: shell false None r.
Proof. intros Q. exact (shell_in_quotes q Q "-R" r). Qed.

Lemma join_pairs {A} (f : A -> string * string) (l : list A) : join " " (map (fun x => fst (f x) ++ " " ++ snd (f x)) l) = join " " (flat_map (fun x => [fst (f x); snd (f x)]) l).
Proof.
  induction l as [|x l IH]; [reflexivity|]. cbn [map flat_map app]. destruct l as [|y l]; [reflexivity|].
  change (join " " ((fst (f x) ++ " " ++ snd (f x)) :: map (fun x => fst (f x) ++ " " ++ snd (f x)) (y :: l))) with ((fst (f x) ++ " " ++ snd (f x)) ++ " " ++ join " " (map (fun x => fst (f x) ++ " " ++ snd (f x)) (y :: l))).
  rewrite IH. rewrite !sapp_assoc. reflexivity.
Qed.

Lemma clean_ztext n : clean (ztext n).
Proof.
  assert (D : forall k, has " " (dec k) = false /\ has """" (dec k) = false /\ dec k <> "").
  { intros k. destruct (dec_digits k) as [A N]. split; [|split; [|exact N]]; clear N; induction (dec k) as [|a s IH]; try reflexivity; cbn [all_chars] in A; apply andb_true_iff in A as [A1 A2]; cbn [has]; rewrite (IH A2), orb_false_r;
      match goal with |- Ascii.eqb ?x ?y = false => destruct (Ascii.eqb_spec x y) as [E|]; [|reflexivity]; try (subst; discriminate A1) end. }
  unfold ztext. destruct (D (Z.abs_nat n)) as (A & B & C). destruct (Z.ltb n 0); split; try discriminate; cbn [append has]; auto.
Qed.
