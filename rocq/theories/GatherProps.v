(** Properties of the tables of errors of several runs (C110). *)
From Verif Require Import Base SortLib StrLib FrameModel FisherModel NameModel WsModel WsLemmas HeapModel ResultsModel ConfigModel TexProps GatherModel.
Open Scope string_scope.
Open Scope list_scope.

(** A file name fits the pattern prefix*.csv. *)
Definition named (prefix n : string) : Prop := exists m, n = (prefix ++ m ++ ".csv")%string.
Lemma is_table_iff prefix n : is_table prefix n = true <-> named prefix n.
Proof.
  unfold is_table, named. split.
  - destruct (strip_prefix prefix n) as [r|] eqn:E; [|discriminate]. apply strip_prefix_some in E. intros H. apply ends_iff in H. destruct H as (m & ->). eauto.
  - intros (m & ->). rewrite strip_prefix_app. apply ends_iff. eauto.
Qed.

Section Props.
  Context {F : Type} {K : Fld F} {O : OFld (F := F)} {S : SqrtFld F} {SO : SetOrder}.

  (** The only file of that kind. *)
  Definition only_table (prefix : string) (files : list (string * sheet F)) (t : sheet F) : Prop :=
    exists l1 n l2, files = l1 ++ (n, t) :: l2 /\ named prefix n /\ forall f, In f (l1 ++ l2) -> ~ named prefix (fst f).
  Lemma filter_none {A} (f : A -> bool) l : (forall x, In x l -> f x = false) -> filter f l = [].
  Proof. induction l as [|x l IH]; intros H; [reflexivity|]. cbn. rewrite (H x) by (left; reflexivity). apply IH. intros y Hy; apply H; right; exact Hy. Qed.
  Lemma filter_one {A} (f : A -> bool) l x : filter f l = [x] -> exists l1 l2, l = l1 ++ x :: l2 /\ f x = true /\ forall y, In y (l1 ++ l2) -> f y = false.
  Proof.
    induction l as [|y l IH]; cbn; [discriminate|]. destruct (f y) eqn:E.
    - intros H. injection H as -> H. exists [], l. split; [reflexivity|]. split; [exact E|]. cbn. intros z Hz. destruct (f z) eqn:Ez; [|reflexivity].
      assert (In z (filter f l)) by (apply filter_In; auto). rewrite H in H0. destruct H0.
    - intros H. destruct (IH H) as (l1 & l2 & -> & Ex & Ho). exists (y :: l1), l2. split; [reflexivity|]. split; [exact Ex|]. cbn. intros z [<-|Hz]; auto.
  Qed.
  Lemma the_table_iff prefix files t : the_table prefix files = Ok t <-> only_table prefix files t.
  Proof.
    unfold the_table, only_table. split.
    - destruct (filter (fun f => is_table prefix (fst f)) files) as [|[n t'] [|y l]] eqn:E; try discriminate. intros H. injection H as <-.
      apply filter_one in E. destruct E as (l1 & l2 & -> & Ex & Ho). exists l1, n, l2. split; [reflexivity|]. split; [apply is_table_iff; exact Ex|].
      intros f Hf C. apply is_table_iff in C. rewrite (Ho f Hf) in C. discriminate.
    - intros (l1 & n & l2 & -> & N & Ho). rewrite filter_app. cbn [filter fst]. rewrite (proj2 (is_table_iff prefix n) N).
      rewrite (filter_none _ l1), (filter_none _ l2); [reflexivity| |]; intros y Hy; destruct (is_table prefix (fst y)) eqn:E; try reflexivity; apply is_table_iff in E; exfalso; apply (Ho y); auto; apply in_or_app; auto.
  Qed.
  Lemma the_table_err prefix (files : list (string * sheet F)) e : the_table prefix files = Err e -> e = EException.
  Proof. unfold the_table. destruct (filter _ files) as [|x [|y l]]; congruence. Qed.

  (** ** The rows *)
  Definition set_cells (o : @opts F) (d : cells (F := F)) : cells (F := F) := fold_left (fun d kv => dset String.eqb d (fst kv) (COpt (snd kv))) o d.
  Lemma set_cells_get (o : @opts F) : forall d c, NoDup (dkeys o) ->
    dget String.eqb (set_cells o d) c = match dget String.eqb o c with Some v => Some (COpt v) | None => dget String.eqb d c end.
  Proof.
    unfold set_cells. induction o as [|[k v] o IH]; intros d c N; [reflexivity|]. inversion N as [|x l Hx Hl]; subst. cbn [fold_left fst snd]. rewrite IH by exact Hl. cbn [dget].
    destruct (String.eqb_spec k c) as [->|Ne].
    - rewrite (proj2 (dget_None _ String.eqb_spec o c) Hx). apply (dget_dset_same _ String.eqb_spec).
    - destruct (dget String.eqb o c); [reflexivity|]. apply (dget_dset_other _ String.eqb_spec). exact Ne.
  Qed.
  Lemma set_cols (o : @opts F) : forall t, fold_left set_col o t =
    mkSheet (sh_index t) (fold_left add_name (dkeys o) (sh_cols t)) (map (fun r => (fst r, set_cells o (snd r))) (sh_rows t)).
  Proof.
    induction o as [|[k v] o IH]; intros t.
    - destruct t as [i c r]. cbn. f_equal. rewrite <- (map_id r) at 1. apply map_ext. intros [a b]. reflexivity.
    - cbn [fold_left dkeys map fst]. rewrite IH. unfold set_col. cbn [sh_index sh_cols sh_rows fst snd]. f_equal. rewrite map_map. reflexivity.
  Qed.
  (** The rows of one run: those of its file, in the same order, each with the
      options of the run. *)
  Definition rows_of_run (o : @opts F) (t : sheet F) (b : list (string * cells (F := F))) : Prop :=
    Forall2 (fun r r' => fst r' = fst r /\ forall c, dget String.eqb (snd r') c = match dget String.eqb o c with Some v => Some (COpt v) | None => dget String.eqb (snd r) c end) (sh_rows t) b.
  Lemma run_sheet_inv prefix c s (r : run F) t : run_sheet prefix c s r = Ok t ->
    exists t0, only_table prefix (run_files r c s) t0 /\ t = mkSheet (Some (match sh_index t0 with None => "fisher" | Some n => n end)) (fold_left add_name (dkeys (run_opts r)) (sh_cols t0)) (map (fun x => (fst x, set_cells (run_opts r) (snd x))) (sh_rows t0)).
  Proof.
    unfold run_sheet. destruct (the_table prefix (run_files r c s)) as [t0|e] eqn:E; [|discriminate]. cbn [rbind]. intros H. injection H as <-. exists t0. split; [apply the_table_iff; exact E|].
    rewrite set_cols. reflexivity.
  Qed.
  Theorem C110_rows prefix c s (runs : list (run F)) b : build_errors prefix c s runs = Ok b -> (forall r, In r runs -> NoDup (dkeys (run_opts r))) ->
    exists blocks, bk_rows b = concat blocks /\ Forall2 (fun r blk => exists t, only_table prefix (run_files r c s) t /\ rows_of_run (run_opts r) t blk) runs blocks.
  Proof.
    unfold build_errors. intros E N. destruct (rmapM (run_sheet prefix c s) runs) as [ts|e] eqn:Er; [|discriminate]. cbn [rbind] in E.
    assert (R : bk_rows b = flat_map sh_rows ts).
    { unfold gather in E. destruct ts as [|t ts]; [discriminate|]. cbv zeta in E. match type of E with (if ?x then _ else _) = _ => destruct x end; [discriminate|]. injection E as <-. reflexivity. }
    exists (map sh_rows ts). split; [rewrite R; apply flat_map_concat_map|]. apply rmapM_Forall in Er. clear E R. induction Er as [|r t runs ts Hr _ IH]; [constructor|]. cbn [map]. constructor.
    - apply run_sheet_inv in Hr. destruct Hr as (t0 & Ho & ->). exists t0. split; [exact Ho|]. unfold rows_of_run. cbn [sh_rows]. specialize (N r (or_introl eq_refl)). clear - N.
      induction (sh_rows t0) as [|x l IH]; cbn [map]; constructor; [|exact IH]. cbn [fst snd]. split; [reflexivity|]. intros c. apply set_cells_get. exact N.
    - apply IH. intros r' Hr'. apply N. right; exact Hr'.
  Qed.

  (** ** The columns and the label *)
  Lemma add_names (l : list string) : forall acc c, In c (fold_left add_name l acc) <-> In c acc \/ In c l.
  Proof.
    induction l as [|x l IH]; intros acc c; cbn [fold_left In]; [tauto|]. rewrite IH. unfold add_name. destruct (smem x acc) eqn:E.
    - apply smem_In in E. split; [tauto|]. intros [H|[<-|H]]; auto.
    - rewrite in_app_iff. cbn. tauto.
  Qed.
  Definition a_column (prefix c s : string) (runs : list (run F)) (x : string) : Prop :=
    exists r, In r runs /\ (In x (dkeys (run_opts r)) \/ exists t, only_table prefix (run_files r c s) t /\ In x (sh_cols t)).
  Lemma columns prefix c s runs ts x : rmapM (run_sheet prefix c s) runs = Ok ts -> In x (fold_left add_name (flat_map sh_cols ts) []) <-> a_column prefix c s runs x.
  Proof.
    intros Er. rewrite add_names, in_flat_map. apply rmapM_Forall in Er. unfold a_column. split.
    - intros [[]|(t & Ht & Hx)]. induction Er as [|r u runs ts Hr Er IH]; [destruct Ht|]. destruct Ht as [->|Ht].
      + exists r. split; [left; reflexivity|]. apply run_sheet_inv in Hr. destruct Hr as (t0 & Ho & ->). cbn [sh_cols] in Hx. apply add_names in Hx. destruct Hx; eauto.
      + destruct (IH Ht) as (r' & Hr' & X). exists r'. split; [right; exact Hr'|exact X].
    - intros (r & Hr & X). right. induction Er as [|r' u runs ts Hr' Er IH]; [destruct Hr|]. destruct Hr as [->|Hr].
      + exists u. split; [left; reflexivity|]. apply run_sheet_inv in Hr'. destruct Hr' as (t0 & Ho & ->). cbn [sh_cols]. apply add_names. destruct X as [X|(t & Ht & X)]; [auto|].
        left. apply the_table_iff in Ht, Ho. congruence.
      + destruct (IH Hr) as (t & Ht & Hx). exists t. split; [right; exact Ht|exact Hx].
  Qed.
  Theorem C110_columns prefix c s (runs : list (run F)) b : build_errors prefix c s runs = Ok b -> forall x, In x (bk_cols b) <-> a_column prefix c s runs x.
  Proof.
    unfold build_errors. intros E. destruct (rmapM (run_sheet prefix c s) runs) as [ts|e] eqn:Er; [|discriminate]. cbn [rbind] in E. intros x.
    rewrite <- (columns _ _ _ _ _ _ Er). unfold gather in E. destruct ts as [|t ts]; [discriminate|]. cbv zeta in E. match type of E with (if ?x then _ else _) = _ => destruct x end; [discriminate|]. injection E as <-. reflexivity.
  Qed.
  (** When it works, for files whose index is unnamed or named "fisher" (the
      name given by evaluateMarginalizedErrors). *)
  Theorem C110_success prefix c s (runs : list (run F)) : (forall r t, In r runs -> only_table prefix (run_files r c s) t -> sh_index t = None \/ sh_index t = Some "fisher") ->
    (exists b, build_errors prefix c s runs = Ok b /\ bk_label b = "fisher") <->
    runs <> [] /\ (forall r, In r runs -> exists t, only_table prefix (run_files r c s) t) /\ ~ a_column prefix c s runs "fisher".
  Proof.
    intros Hi. unfold build_errors. split.
    - intros (b & E & L). destruct (rmapM (run_sheet prefix c s) runs) as [ts|e] eqn:Er; [|discriminate]. cbn [rbind] in E.
      pose proof (rmapM_Forall _ _ _ Er) as Ef. split; [intros ->; cbn in Er; injection Er as <-; discriminate|]. split.
      + intros r Hr. clear - Ef Hr. induction Ef as [|r' t runs ts H _ IH]; [destruct Hr|]. destruct Hr as [->|Hr]; [|apply IH; exact Hr]. apply run_sheet_inv in H. destruct H as (t0 & H & _). eauto.
      + rewrite <- (columns _ _ _ _ _ _ Er). unfold gather in E. destruct ts as [|t ts]; [discriminate|]. cbv zeta in E.
        match type of E with (if smem ?l ?c then _ else _) = _ => remember l as lab eqn:El; destruct (smem lab c) eqn:Ex end; [discriminate|]. injection E as <-. cbn [bk_label] in L. clear El. subst lab. apply smem_false. exact Ex.
    - intros (Hn & Ho & Hc).
      assert (X : exists ts, rmapM (run_sheet prefix c s) runs = Ok ts /\ forall t, In t ts -> sh_index t = Some "fisher").
      { clear Hn Hc. induction runs as [|r runs IH]; [exists []; split; [reflexivity|intros t []]|].
        destruct IH as (ts & E & Ht); [intros r' t' Hr' Ht'; apply (Hi r' t' (or_intror Hr') Ht')|intros r' Hr'; apply Ho; right; exact Hr'|].
        destruct (Ho r (or_introl eq_refl)) as (t0 & H0). cbn [rmapM]. unfold run_sheet at 1. rewrite (proj2 (the_table_iff _ _ _) H0). cbn [rbind]. rewrite E. cbn [rbind].
        eexists. split; [reflexivity|]. intros t [<-|H]; [|apply Ht; exact H]. rewrite set_cols. cbn [sh_index]. destruct (Hi r t0 (or_introl eq_refl) H0) as [-> | ->]; reflexivity. }
      destruct X as (ts & Er & Hf). rewrite Er. cbn [rbind]. unfold gather. destruct ts as [|t ts].
      { destruct runs; [congruence|]. apply rmapM_Forall in Er. inversion Er. }
      cbv zeta. rewrite (Hf t (or_introl eq_refl)).
      assert (A : forallb (fun u => opt_same (sh_index u) (Some "fisher")) (t :: ts) = true) by (apply forallb_forall; intros u Hu; rewrite (Hf u Hu); reflexivity).
      rewrite A. destruct (smem "fisher" (fold_left add_name (flat_map sh_cols (t :: ts)) [])) eqn:Es.
      { exfalso. apply Hc. rewrite <- (columns _ _ _ _ _ _ Er). apply smem_In. exact Es. }
      eexists. split; reflexivity.
  Qed.
  (** Tables of absolute and of relative errors are told apart. *)
  Theorem C110_apart n : named "marginalized_errors" n -> ~ named "relative_marginalized_errors" n.
  Proof. intros (m & ->) (m' & E). cbn in E. discriminate. Qed.
  (** Each of the two tables is made of the files of its kind. *)
  Theorem C110_kinds (rel : bool) c s (runs : list (run F)) b : (if rel then build_relative c s runs else build_absolute c s runs) = Ok b -> (forall r, In r runs -> NoDup (dkeys (run_opts r))) ->
    exists blocks, bk_rows b = concat blocks /\ Forall2 (fun r blk => exists t, only_table (if rel then "relative_marginalized_errors" else "marginalized_errors") (run_files r c s) t /\ rows_of_run (run_opts r) t blk) runs blocks.
  Proof. destruct rel; apply C110_rows. Qed.
  (** A run with no results, or with two tables, spoils the whole table. *)
  Theorem C110_failure prefix c s (runs : list (run F)) r : In r runs -> (forall t, ~ only_table prefix (run_files r c s) t) -> build_errors prefix c s runs = Err EException.
  Proof.
    intros Hr H. unfold build_errors. assert (E : rmapM (run_sheet prefix c s) runs = Err EException); [|rewrite E; reflexivity].
    induction runs as [|r' runs IH]; [destruct Hr|]. cbn [rmapM]. unfold run_sheet at 1. destruct (the_table prefix (run_files r' c s)) as [t|e] eqn:E.
    - cbn [rbind]. destruct Hr as [->|Hr]; [exfalso; apply (H t); apply the_table_iff; exact E|]. rewrite (IH Hr). reflexivity.
    - apply the_table_err in E. subst e. reflexivity.
  Qed.
End Props.

From Coq Require Import QArith Qcanon.
Close Scope Qc_scope. Close Scope Q_scope.
Definition ex_run (n : string) (z : Z) (extra : bool) : run Qc :=
  mkRun (fun c s => if String.eqb c "LCDM" then [] else
     [("fisher_WL.hdf5", mkSheet None [] []);
      ("marginalized_errors_" ++ n ++ ".csv", mkSheet (Some "fisher") ["Omm"; "h"] [("WL", [("Omm", CNum (qz z)); ("h", CNum (qz 2))]); ("GCph", [("Omm", CNum (qz 3))])]);
      ("marginalized_errors_" ++ n ++ ".xlsx", mkSheet None [] []);
      ("relative_marginalized_errors_" ++ n ++ ".csv", mkSheet None [] [])]%string)
    (("n_sp_bins", SInt z) :: if extra then [("new", SBool true)] else []) (fun _ _ => Err EException).
Example C110_instance : let runs := [ex_run "test_analysis" 4 false; ex_run "b" 12 true] in
  build_absolute "w0_wa_CDM" "marg_before" runs = Ok (mkBook "fisher" ["Omm"; "h"; "n_sp_bins"; "new"]
    [("WL", [("Omm", CNum (qz 4)); ("h", CNum (qz 2)); ("n_sp_bins", COpt (SInt 4))]); ("GCph", [("Omm", CNum (qz 3)); ("n_sp_bins", COpt (SInt 4))]);
     ("WL", [("Omm", CNum (qz 12)); ("h", CNum (qz 2)); ("n_sp_bins", COpt (SInt 12)); ("new", COpt (SBool true))]);
     ("GCph", [("Omm", CNum (qz 3)); ("n_sp_bins", COpt (SInt 12)); ("new", COpt (SBool true))])]) /\
  build_absolute "LCDM" "marg_before" runs = Err EException.
Proof. split; reflexivity. Qed.

Print Assumptions C110_rows.
Print Assumptions C110_columns.
Print Assumptions C110_success.
Print Assumptions C110_apart.
Print Assumptions C110_failure.
Print Assumptions C110_kinds.
