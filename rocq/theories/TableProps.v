(** Table files (C70). *)
From Verif Require Import Base SortLib StrLib FrameModel FsModel FileLemmas2 TableModel.
Open Scope list_scope.

(** A name has format [ext] if it is a non-empty stem followed by it. *)
Definition format (name ext : string) : Prop := exists stem, stem <> ""%string /\ name = (stem ++ ext)%string.

Lemma rfind_app c s t i l : rfind_from c (s ++ t) i l = rfind_from c t (i + String.length s) (rfind_from c s i l).
Proof. revert i l. induction s as [|a s IH]; intros i l; cbn; [f_equal; lia|]. rewrite IH. f_equal. lia. Qed.
Lemma rfind_none c s i l : has c s = false -> rfind_from c s i l = l.
Proof. revert i l. induction s as [|a s IH]; intros i l; cbn; [reflexivity|]. intros H. apply orb_false_iff in H as [H1 H2]. rewrite IH by exact H2. rewrite H1. reflexivity. Qed.
Lemma drop_app s t : drop (String.length s) (s ++ t) = t.
Proof. induction s as [|a s IH]; cbn; [destruct t; reflexivity|exact IH]. Qed.
Lemma drop_split n s : exists p, s = (p ++ drop n s)%string /\ (n <= String.length s -> String.length p = n).
Proof.
  revert s. induction n as [|n IH]; intros s; [exists ""%string; destruct s; auto|]. destruct s as [|a s]; [exists ""%string; cbn; split; [reflexivity|lia]|].
  destruct (IH s) as (p & E & L). exists (String a p). cbn. rewrite <- E. split; [reflexivity|]. intros H. rewrite L by lia. reflexivity.
Qed.
Lemma suffix_ext stem e : stem <> ""%string -> e <> ""%string -> has "."%char e = false -> suffix (stem ++ String "."%char e) = String "."%char e.
Proof.
  intros N E H. unfold suffix. rewrite rfind_app. cbn [rfind_from]. rewrite Ascii.eqb_refl. rewrite rfind_none by exact H.
  rewrite slen_app. cbn [Nat.add String.length]. rewrite drop_app. destruct stem as [|a s]; [congruence|]. cbn [String.length].
  destruct e as [|b e]; [congruence|]. cbn [String.length].
  destruct (Nat.ltb_spec 0 (S (String.length s))); [|lia].
  destruct (Nat.ltb_spec (S (String.length s)) (S (String.length s) + S (S (String.length e)) - 1)); [reflexivity|lia].
Qed.
Lemma suffix_inv name ext : ext <> ""%string -> suffix name = ext -> format name ext.
Proof.
  intros N H. unfold suffix in H. destruct (rfind_from _ name 0 None) as [i|]; [|congruence].
  destruct (Nat.ltb_spec 0 i); [|cbn [andb] in H; congruence]. cbn [andb] in H. destruct (Nat.ltb_spec i (String.length name - 1)); [|congruence].
  destruct (drop_split i name) as (p & E & L). exists p. rewrite H in E. split; [|exact E]. intros ->. cbn in L. lia.
Qed.
Lemma suffix_csv name : suffix name = ".csv"%string <-> format name ".csv".
Proof. split; [apply suffix_inv; discriminate|]. intros (st & N & ->). apply (suffix_ext st "csv"); [exact N|discriminate|reflexivity]. Qed.
Lemma suffix_xlsx name : suffix name = ".xlsx"%string <-> format name ".xlsx".
Proof. split; [apply suffix_inv; discriminate|]. intros (st & N & ->). apply (suffix_ext st "xlsx"); [exact N|discriminate|reflexivity]. Qed.

Section Props.
  Context {C D : Type} (csv xlsx : D -> C).
  Implicit Types (df : D) (p : path) (s : fs C).

  (** Whatever happens, no other path changes. *)
  Theorem C70_nothing_else df p ov s s' r : write_table csv xlsx df p ov s = (s', r) -> forall q, q <> p -> lookup s' q = lookup s q.
  Proof.
    unfold write_table. intros H q N.
    assert (W : forall c, p_write p c s = (s', r) -> lookup s' q = lookup s q).
    { intros c. unfold p_write. destruct (negb (p_isdir s (removelast p))); [intros X; injection X as <- _; reflexivity|].
      destruct p as [|a p]; [intros X; injection X as <- _; reflexivity|].
      destruct (lookup s (a :: p)) as [[|]|]; intros X; injection X as <- _; try reflexivity; apply lookup_set_other; congruence. }
    destruct (_ || _); [|injection H as <- _; reflexivity].
    destruct (String.eqb _ ".csv"); [eauto|]. destruct (String.eqb _ ".xlsx"); [eauto|]. injection H as <- _. reflexivity.
  Qed.
  (** Absent, or a file with [overwrite] set: created or replaced. *)
  Theorem C70_written df p ov s : p <> [] -> p_isdir s (removelast p) = true -> p_isdir s p = false -> lookup s p = None \/ ov = true ->
    (format (last p ""%string) ".csv" -> exists s', write_table csv xlsx df p ov s = (s', Ok tt) /\ lookup s' p = Some (NFile (csv df))) /\
    (format (last p ""%string) ".xlsx" -> exists s', write_table csv xlsx df p ov s = (s', Ok tt) /\ lookup s' p = Some (NFile (xlsx df))).
  Proof.
    intros N P D0 A. unfold write_table. rewrite D0. cbn [orb].
    assert (G : (negb (p_exists s p) || (p_exists s p && ov)) = true).
    { unfold p_exists. destruct A as [-> | ->]; [reflexivity|]. destruct (lookup s p); reflexivity. }
    rewrite G.
    assert (W : forall c, exists s', p_write p c s = (s', Ok tt) /\ lookup s' p = Some (NFile c)).
    { intros c. unfold p_write. rewrite P. cbn [negb]. exists (dset sl_eqb s p (NFile c)). split; [|apply lookup_set_same].
      destruct p as [|a p]; [congruence|]. unfold p_isdir in D0. destruct (lookup s (a :: p)) as [[|]|]; [discriminate|reflexivity|reflexivity]. }
    split; intros F.
    - apply suffix_csv in F. rewrite F. cbn. apply W.
    - apply suffix_xlsx in F. rewrite F. cbn. apply W.
  Qed.
  (** Present and [overwrite] not set: nothing changes. *)
  Theorem C70_kept df p s : p_exists s p = true -> write_table csv xlsx df p false s = (s, Ok tt).
  Proof. intros E. unfold write_table. rewrite E, orb_true_r. reflexivity. Qed.
  (** Other formats are rejected exactly when something would be written. *)
  Theorem C70_formats df p ov s : p <> [] -> ~ format (last p ""%string) ".csv" -> ~ format (last p ""%string) ".xlsx" ->
    write_table csv xlsx df p ov s = (s, if negb (p_exists s p) || ov then Err EException else Ok tt).
  Proof.
    intros N NC NX. rewrite <- suffix_csv in NC. rewrite <- suffix_xlsx in NX. unfold write_table.
    destruct (String.eqb_spec (suffix (last p ""%string)) ".csv"); [contradiction|].
    destruct (String.eqb_spec (suffix (last p ""%string)) ".xlsx"); [contradiction|].
    assert (E : p_isdir s p || p_exists s p = p_exists s p).
    { unfold p_isdir, p_exists. destruct p as [|a p]; [congruence|]. destruct (lookup s (a :: p)) as [[|]|]; reflexivity. }
    rewrite E. destruct (p_exists s p), ov; reflexivity.
  Qed.
End Props.
(** An unknown format is accepted in silence when the file exists. *)
Theorem C70_unknown_format_refuted : exists (s : fs string) p, ~ format (last p ""%string) ".csv" /\ ~ format (last p ""%string) ".xlsx" /\
  write_table (fun x : string => x) (fun x => x) "table"%string p false s = (s, Ok tt).
Proof.
  exists [(["results.txt"]%string, NFile "old"%string)], ["results.txt"%string]. rewrite <- suffix_csv, <- suffix_xlsx. split; [discriminate|]. split; [discriminate|]. reflexivity.
Qed.
(** A hidden file has no format. *)
Example C70_hidden : suffix ".csv" = ""%string /\ suffix "a.b.csv" = ".csv"%string /\ suffix "a." = ""%string.
Proof. repeat split. Qed.
Example C70_instance : let s := [(["out"]%string, NDir); (["out"; "errors.csv"]%string, NFile "old"%string)] in
  p_isdir s ["out"%string] = true /\ format "errors.csv" ".csv" /\
  write_table (fun x : string => x) (fun x => x) "new"%string ["out"; "errors.csv"]%string true s = ([(["out"]%string, NDir); (["out"; "errors.csv"]%string, NFile "new"%string)], Ok tt).
Proof. split; [reflexivity|]. split; [exists "errors"%string; split; [discriminate|reflexivity]|reflexivity]. Qed.
Print Assumptions C70_nothing_else. Print Assumptions C70_written. Print Assumptions C70_kept. Print Assumptions C70_formats. Print Assumptions C70_unknown_format_refuted.
