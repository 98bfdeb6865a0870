(** Property C60, further: starting the Fisher stage afresh, and the data
    vectors read from the file of selected ones. *)
From Coq Require Import QArith Qcanon.
Close Scope Qc_scope. Close Scope Q_scope.
From Verif Require Import Base SortLib StrLib FrameModel FrameLemmas FisherModel FsModel FisherFileModel FileLemmas2 KeyModel PipeModel PipeLemmas PipeLemmas2.
Open Scope list_scope.

Section Overwrite.
  Context {F : Type} {K : Fld F} {SO : SetOrder}.
  Variable rd : path.
  Variable auto_calc : dvec -> res (dval F * res (fisher F)).
  Variable cross_calc : dvec -> dict string (dval F) -> res (fisher F).
  Notation step := (pstep (F := F) rd).

  (** [q] is the directory of matrices, below it, or the file of the stored
      tables. *)
  Definition output (q : path) : Prop := (exists r, q = base_dir rd ++ r) \/ q = store_file rd.
  Lemma under_spec p q : under p q = true <-> exists r, q = p ++ r.
  Proof.
    revert q. induction p as [|x p IH]; intros q; cbn.
    - split; [intros _; exists q; reflexivity|reflexivity].
    - destruct q as [|y q]; [split; [discriminate|intros (r & E); discriminate E]|]. rewrite Bool.andb_true_iff, IH. split.
      + intros [E (r & ->)]. apply String.eqb_eq in E. subst y. exists r. reflexivity.
      + intros (r & E). injection E as -> ->. split; [apply String.eqb_refl|exists r; reflexivity].
  Qed.
  Lemma lookup_filter {C} (f : path -> bool) (s : fs C) q : lookup (filter (fun e => f (fst e)) s) q = if f q then lookup s q else None.
  Proof.
    unfold lookup. induction s as [|[p n] s IH]; cbn [filter dget fst]; [destruct (f q); reflexivity|].
    destruct (f p) eqn:Fp; cbn [dget]; destruct (sl_eqb_spec p q) as [->|N]; rewrite ?Fp; try exact IH; [reflexivity|]. rewrite IH, Fp. reflexivity.
  Qed.
  (** Overwriting: whatever earlier or interrupted runs left is removed and the
      stage runs as on a directory without outputs; other files are kept. *)
  Theorem C60_overwrite auto cross (s : fs (h5 F)) :
    lookup s (store_file rd) <> Some NDir -> (forall d, lookup s (base_dir rd) <> Some (NFile d)) ->
    (forall r, lookup s (base_dir rd) = None -> lookup s (base_dir rd ++ r) = None) ->
    exists c, (forall q, output q -> lookup c q = None) /\ (forall q, ~ output q -> lookup c q = lookup s q) /\
      exec step (batch_stage rd auto_calc cross_calc true auto cross) s = exec step (batch_stage rd auto_calc cross_calc false auto cross) c.
  Proof.
    intros Ns Nb Nr. set (c1 := if p_isdir s (base_dir rd) then filter (fun e => negb (under (base_dir rd) (fst e))) s else s).
    assert (Bne : base_dir rd <> []) by (unfold base_dir; destruct rd; discriminate).
    assert (Id : p_isdir s (base_dir rd) = true <-> lookup s (base_dir rd) = Some NDir).
    { unfold p_isdir. revert Bne. generalize (base_dir rd). intros [|x p] Bne; [congruence|]. destruct (lookup s (x :: p)) as [[|d]|]; split; congruence. }
    assert (L1 : forall q, lookup c1 q = if under (base_dir rd) q then None else lookup s q).
    { intros q. unfold c1. destruct (p_isdir s (base_dir rd)) eqn:Ed.
      - rewrite (lookup_filter (fun p => negb (under (base_dir rd) p))). destruct (under (base_dir rd) q); reflexivity.
      - destruct (under (base_dir rd) q) eqn:U; [|reflexivity]. apply under_spec in U. destruct U as (r & ->). apply Nr.
        destruct (lookup s (base_dir rd)) as [[|d]|] eqn:Lb; [destruct Id as [_ Id]; specialize (Id eq_refl); discriminate Id|elim (Nb d); reflexivity|reflexivity]. }
    assert (Us : under (base_dir rd) (store_file rd) = false).
    { destruct (under (base_dir rd) (store_file rd)) eqn:U; [|reflexivity]. apply under_spec in U. destruct U as (r & E). unfold store_file, base_dir in E. rewrite <- app_assoc in E.
      apply app_inv_head in E. discriminate E. }
    assert (Ls : lookup c1 (store_file rd) = lookup s (store_file rd)) by (rewrite L1, Us; reflexivity).
    set (c := if p_exists s (store_file rd) then remove_path c1 (store_file rd) else c1).
    assert (Lc : forall q, lookup c q = if sl_eqb q (store_file rd) then None else lookup c1 q).
    { intros q. unfold c. unfold p_exists. destruct (lookup s (store_file rd)) eqn:E.
      - unfold remove_path. rewrite (lookup_filter (fun p => negb (sl_eqb p (store_file rd)))). destruct (sl_eqb q (store_file rd)); reflexivity.
      - destruct (sl_eqb_spec q (store_file rd)) as [->|]; [exact Ls|reflexivity]. }
    exists c. split; [|split].
    - intros q [(r & ->)| ->]; rewrite Lc, L1.
      + assert (U : under (base_dir rd) (base_dir rd ++ r) = true) by (apply under_spec; exists r; reflexivity). rewrite U. destruct (sl_eqb _ _); reflexivity.
      + destruct (sl_eqb_spec (store_file rd) (store_file rd)); [reflexivity|congruence].
    - intros q Nq. rewrite Lc, L1. destruct (sl_eqb_spec q (store_file rd)) as [->|_]; [elim Nq; right; reflexivity|].
      destruct (under (base_dir rd) q) eqn:U; [|reflexivity]. elim Nq. left. apply under_spec. exact U.
    - unfold batch_stage. rewrite !exec_andthen. cbn [clear_output exec].
      assert (X : exec step (clear_output rd true) s = (c, Ok tt)).
      { unfold clear_output. cbn [exec]. rewrite exec_andthen.
        assert (Y : exec step (if p_isdir s (base_dir rd) then Do (PRmtree (base_dir rd)) (Done (Ok tt)) else Done (Ok tt)) s = (c1, Ok tt)).
        { unfold c1. destruct (p_isdir s (base_dir rd)); reflexivity. }
        rewrite Y. unfold c. unfold p_exists. destruct (lookup s (store_file rd)) as [[|d]|] eqn:E; [congruence| |reflexivity].
        cbn [exec pstep]. unfold p_unlink. rewrite Ls. reflexivity. }
      unfold clear_output in X. cbn [exec] in X. rewrite X. reflexivity.
  Qed.
End Overwrite.

(** ** The file of selected data vectors *)
Definition nl : ascii := ascii_of_nat 10.
(** The text of a line without the spaces around it. *)
Fixpoint spaces (n : nat) : string := match n with 0 => "" | S n => String " " (spaces n) end.
Definition core (line y : string) : Prop :=
  (exists n m, line = (spaces n ++ y ++ spaces m)%string) /\ (forall r, y <> (" " ++ r)%string) /\ (forall r, y <> (r ++ " ")%string).
Lemma lstrip_spec s : exists n, s = (spaces n ++ lstrip " " s)%string /\ forall r, lstrip " " s <> (" " ++ r)%string.
Proof.
  induction s as [|a s IH]; [exists 0; split; [reflexivity|discriminate]|]. cbn [lstrip]. destruct (Ascii.eqb_spec a " ") as [->|Na].
  - destruct IH as (n & E & H). exists (S n). cbn [spaces append]. rewrite <- E. auto.
  - exists 0. split; [reflexivity|]. cbn [append]. intros r X. injection X as X _. contradiction.
Qed.
Lemma snoc_ne a s : (s ++ String a "")%string <> ""%string.
Proof. destruct s; discriminate. Qed.
Lemma rstrip_spec s : exists m, s = (rstrip " " s ++ spaces m)%string /\ forall r, rstrip " " s <> (r ++ " ")%string.
Proof.
  induction s as [|a s IH]; [exists 0; split; [reflexivity|intros r X; symmetry in X; exact (snoc_ne _ _ X)]|]. cbn [rstrip]. destruct IH as (m & E & H). destruct (rstrip " " s) as [|b t] eqn:R.
  - destruct (Ascii.eqb_spec a " ") as [->|Na].
    + exists (S m). cbn [append spaces] in *. rewrite <- E. split; [reflexivity|]. intros r X. symmetry in X. exact (snoc_ne _ _ X).
    + exists m. cbn [append] in *. rewrite <- E. split; [reflexivity|]. intros [|c r] X; cbn [append] in X; [injection X; intros; contradiction|]. injection X as _ X. symmetry in X. exact (snoc_ne _ _ X).
  - exists m. change ((String a (String b t) ++ spaces m)%string) with (String a (String b t ++ spaces m)). rewrite <- E. split; [reflexivity|]. intros [|c r] X; cbn [append] in X; [discriminate|]. injection X as _ X. exact (H r X).
Qed.
Lemma rstrip_spaces u m : rstrip " " (u ++ spaces m) = rstrip " " u.
Proof.
  induction u as [|a u IH]; cbn [append rstrip]; [|rewrite IH; reflexivity]. induction m as [|m IH]; [reflexivity|]. cbn [spaces rstrip] in *. rewrite IH. reflexivity.
Qed.
Lemma rstrip_fixed u : (forall r, u <> (r ++ " ")%string) -> rstrip " " u = u.
Proof.
  induction u as [|a u IH]; intros H; [reflexivity|]. cbn [rstrip]. rewrite IH by (intros r X; apply (H (String a r)); cbn [append]; rewrite X; reflexivity). destruct u as [|b u]; [|reflexivity].
  destruct (Ascii.eqb_spec a " ") as [->|]; [|reflexivity]. exfalso. exact (H ""%string eq_refl).
Qed.
Lemma lstrip_spaces n u : lstrip " " (spaces n ++ u) = lstrip " " u.
Proof. induction n as [|n IH]; [reflexivity|]. cbn [spaces append lstrip]. exact IH. Qed.
Lemma trim_core line y : trim line = y <-> core line y.
Proof.
  unfold trim. split.
  - intros <-. destruct (rstrip_spec line) as (m & E & H). destruct (lstrip_spec (rstrip " " line)) as (n & E' & H'). split; [|split; [exact H'|]].
    + exists n, m. rewrite <- sapp_assoc, <- E'. exact E.
    + intros r X. rewrite X in E'. apply (H (spaces n ++ r)%string). rewrite E', sapp_assoc. reflexivity.
  - intros ((n & m & ->) & H & H'). rewrite <- sapp_assoc, rstrip_spaces. destruct y as [|a y].
    + rewrite sapp_nil_r. rewrite <- (sapp_nil_r (spaces n)). change (spaces n ++ "")%string with ("" ++ spaces n ++ "")%string. rewrite sapp_nil_r, rstrip_spaces. reflexivity.
    + rewrite rstrip_fixed.
      * rewrite lstrip_spaces. cbn [lstrip]. destruct (Ascii.eqb_spec a " ") as [->|]; [|reflexivity]. exfalso. exact (H y eq_refl).
      * intros r X. clear H. revert r X. induction n as [|n IH]; intros r X; [exact (H' r X)|]. destruct r as [|c r]; [|cbn in X; injection X as _ X; exact (IH r X)]. cbn in X. injection X as X. destruct n; discriminate X.
Qed.
(** Lines that name no data vector, and what the others name. *)
Definition ignored (line : string) : Prop := core line ""%string \/ exists r, core line ("#" ++ r)%string.
Inductive selects : list string -> list string -> Prop :=
| sel_nil : selects [] []
| sel_skip line lines bs : ignored line -> selects lines bs -> selects (line :: lines) bs
| sel_take line lines y dv b bs : ~ ignored line -> core line y -> dv_from_string y = Ok dv -> dv_brief dv = Ok b ->
    selects lines bs -> selects (line :: lines) (b :: bs).
Lemma keep_spec l : keep_line l = true <-> ~ (l = ""%string \/ exists r, l = ("#" ++ r)%string).
Proof.
  unfold keep_line. rewrite Bool.andb_true_iff, !Bool.negb_true_iff. unfold starts. cbn [strip_prefix]. split.
  - intros [A B] [->|(r & ->)]; [discriminate B|]. cbn in A. discriminate A.
  - intros N. destruct l as [|a l]; [elim N; left; reflexivity|]. split; [|reflexivity].
    destruct (Ascii.eqb_spec "#" a) as [E|E]; [|reflexivity]. elim N. right. exists l. subst a. reflexivity.
Qed.
Theorem C60_selected lines bs : lines <> [] -> (forall l, In l lines -> has nl l = false) ->
  (selected_briefs (join (cstr nl) lines) = Ok bs <-> selects lines bs).
Proof.
  intros Ne Hn. unfold selected_briefs. fold nl. rewrite split_join by assumption. clear Ne Hn. revert bs.
  assert (Ign : forall x, ignored x <-> (trim x = ""%string \/ exists r, trim x = ("#" ++ r)%string)) by (intros x; unfold ignored; rewrite trim_core; split; (intros [H|(r & H)]; [left; exact H|right; exists r; apply trim_core; exact H])).
  induction lines as [|x lines IH]; intros bs; cbn [map filter].
  - cbn. split; [intros E; injection E as <-; constructor|intros H; inversion H; reflexivity].
  - destruct (keep_line (trim x)) eqn:Kp.
    + apply keep_spec in Kp. rewrite <- Ign in Kp. cbn [rmapM]. split.
      * intros E. destruct (dv_from_string (trim x)) as [dv|] eqn:Ed; [|discriminate E]. cbn [rbind] in E. destruct (rmapM dv_from_string _) as [dvs|] eqn:Em; [|discriminate E]. cbn [rbind rmapM] in E.
        destruct (dv_brief dv) as [b|] eqn:Eb; [|discriminate E]. cbn [rbind] in E. destruct (rmapM dv_brief dvs) as [bs'|] eqn:Er; [|discriminate E]. cbn in E. injection E as <-.
        apply (sel_take x lines (trim x) dv b bs' Kp (proj1 (trim_core x _) eq_refl) Ed Eb). apply IH. cbn [rbind]. exact Er.
      * intros H. inversion H as [|? ? ? Ig _|? ? y dv b bs' _ Ey Ed Eb Hs]; subst; [contradiction|]. apply IH in Hs. apply trim_core in Ey. rewrite Ey, Ed. cbn [rbind].
        destruct (rmapM dv_from_string _) as [dvs|]; [|discriminate Hs]. cbn [rbind rmapM] in *. rewrite Eb. cbn [rbind]. rewrite Hs. reflexivity.
    + assert (Ig : ignored x).
      { unfold keep_line in Kp. apply Bool.andb_false_iff in Kp. apply Ign. destruct (trim x) as [|a r]; [left; reflexivity|]. right. destruct Kp as [Kp|Kp]; [|discriminate Kp].
        unfold starts in Kp. cbn [strip_prefix] in Kp. destruct (Ascii.eqb_spec "#" a) as [E|E]; [|discriminate Kp]. exists r. subst a. reflexivity. }
      rewrite IH. split; [apply sel_skip; exact Ig|]. intros H. inversion H as [|? ? ? _ Hs|? ? y dv b bs' Ni _ _ _ _]; subst; [exact Hs|contradiction].
Qed.

(** ** Concrete cases *)
Example C60_selected_ex : let lines := ["# auto-correlations"; " [GCph]: ['phph'] "; ""; "[WL+GCph]: ['wlwl', 'phph']"; "  # [WL]: ['wlwl']"]%string in
  lines <> [] /\ (forall l, In l lines -> has nl l = false) /\
  match selected_briefs (join (cstr nl) lines) with Ok bs => length bs | Err _ => 0 end = 2.
Proof. cbn zeta. split; [discriminate|]. split; [|vm_compute; reflexivity]. intros l H. cbn in H. repeat destruct H as [<-|H]; try destruct H; reflexivity. Qed.
(** Outputs of an interrupted run, with a file that is not an output. *)
Example C60_overwrite_ex : let rd := ["run"]%string in
  let s : fs (h5 Qc) := [(rd, NDir); (base_dir rd, NDir); (fisher_file rd "phph", NFile []); (store_file rd, NFile []); (rd ++ ["main_config.json"%string], NFile [])] in
  lookup s (store_file rd) <> Some NDir /\ (forall d, lookup s (base_dir rd) <> Some (NFile d)) /\
  (forall r, lookup s (base_dir rd) = None -> lookup s (base_dir rd ++ r) = None) /\
  output rd (fisher_file rd "phph") /\ output rd (store_file rd) /\ ~ output rd (rd ++ ["main_config.json"%string]).
Proof.
  cbn zeta. split; [discriminate|]. split; [intros d; discriminate|]. split; [intros r H; discriminate H|]. split; [left; eexists; reflexivity|]. split; [right; reflexivity|].
  intros [(r & E)|E]; discriminate E.
Qed.
Print Assumptions C60_overwrite.
Print Assumptions C60_selected.
