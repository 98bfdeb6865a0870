(** Property C104: Fisher matrices in the files of the IST code comparison. *)
From Verif Require Import Base SortLib StrLib NameModel NameLemmas BatchModel BatchProps ParamModel FrameModel FrameLemmas FisherModel FisherSpec FisherLemmas FisherLemmas5 FsModel FisherFileModel FileLemmas2 FileProps IstModel.
From Verif Require OutModel.
From Coq Require Import Permutation Qcanon.
Close Scope Qc_scope. Open Scope list_scope.

(** What a column of the file is called in SEYFERT: the densities have other
    names, the galaxy biases are numbered from 0 and not from 1, and everything
    else keeps its name. *)
Definition bias_col (c : string) (i : nat) : Prop :=
  exists d r, c = ("b" ++ d ++ r)%string /\ d <> ""%string /\ all_chars is_digit d = true /\
    match r with EmptyString => True | String a _ => is_digit a = false end /\ i = num (chars d).
Definition ist_label (c c' : string) : Prop :=
  (c = "Omegam" /\ c' = "Omm") \/ (c = "Omegab" /\ c' = "Omb") \/ (c = "Omegade" /\ c' = "OmDE") \/
  (exists n, bias_col c (S n) /\ c' = ("bgph" ++ dec n)%string) \/ (bias_col c 0 /\ c' = "bgph-1") \/
  (c' = c /\ c <> "Omegam" /\ c <> "Omegab" /\ c <> "Omegade" /\ forall i, ~ bias_col c i).
Definition new_label (c : string) : string :=
  bias_label c (if String.eqb c "Omegade" then "OmDE" else if String.eqb c "Omegab" then "Omb" else if String.eqb c "Omegam" then "Omm" else c)%string.

Lemma dget_map_vals {V W} (g : string -> V -> W) (d : dict string V) k :
  dget String.eqb (map (fun kv => (fst kv, g (fst kv) (snd kv))) d) k = option_map (g k) (dget String.eqb d k).
Proof.
  induction d as [|[k' v] d IH]; [reflexivity|]. cbn [map dget fst snd]. destruct (String.eqb_spec k' k) as [->|N]; [reflexivity|exact IH].
Qed.
Lemma fold_ident cols : forall (d : dict string string) c, (In c cols \/ dget String.eqb d c = Some c) ->
  dget String.eqb (fold_left (fun d c => dset String.eqb d c c) cols d) c = Some c.
Proof.
  induction cols as [|x cols IH]; intros d c H; cbn [fold_left]; [destruct H as [[]|H]; exact H|].
  apply IH. destruct (String.eqb_spec x c) as [->|N].
  - right. apply (dget_dset_same _ String.eqb_spec).
  - destruct H as [[E|H]|H]; [congruence|left; exact H|right]. rewrite (dget_dset_other _ String.eqb_spec) by exact N. exact H.
Qed.
Lemma rename_eq cols : rename_cols cols = map new_label cols.
Proof.
  apply map_ext_in. intros c Hc. unfold name_dict.
  pose proof (fold_ident cols [] c (or_introl Hc)) as E0. match type of E0 with dget _ ?x _ = _ => set (d0 := x) in * end.
  rewrite dget_map_vals. set (d2 := dset _ (dset _ d0 _ _) _ _).
  assert (E2 : dget String.eqb d2 c = Some (if String.eqb c "Omegab" then "Omb" else if String.eqb c "Omegam" then "Omm" else c)%string).
  { unfold d2. destruct (String.eqb_spec c "Omegab") as [->|N]; [apply (dget_dset_same _ String.eqb_spec)|].
    rewrite (dget_dset_other _ String.eqb_spec) by congruence.
    destruct (String.eqb_spec c "Omegam") as [->|N']; [apply (dget_dset_same _ String.eqb_spec)|].
    rewrite (dget_dset_other _ String.eqb_spec) by congruence. exact E0. }
  unfold new_label. destruct (String.eqb_spec c "Omegade") as [->|N].
  - unfold dmem. rewrite E2, (dget_dset_same _ String.eqb_spec). reflexivity.
  - destruct (dmem String.eqb d2 "Omegade"); [rewrite (dget_dset_other _ String.eqb_spec) by congruence|]; rewrite E2; reflexivity.
Qed.
Lemma span_digits r : let (d, r') := span is_digit r in r = (d ++ r')%string /\ all_chars is_digit d = true /\ match r' with EmptyString => True | String a _ => is_digit a = false end.
Proof.
  induction r as [|a r IH]; [cbn; auto|]. cbn [span]. destruct (is_digit a) eqn:E; [|cbn; auto].
  destruct (span is_digit r) as [d r']. destruct IH as (-> & A & B). cbn. rewrite E. auto.
Qed.
Lemma bias_span c i : bias_col c i <-> exists r, c = String "b" r /\ nonempty (fst (span is_digit r)) = true /\ i = num (chars (fst (span is_digit r))).
Proof.
  split.
  - intros (d & r & -> & N & A & B & ->). exists (d ++ r)%string. split; [reflexivity|]. rewrite (span_app is_digit d r A B). cbn [fst].
    split; [destruct d; [congruence|reflexivity]|reflexivity].
  - intros (r & -> & N & ->). pose proof (span_digits r) as H. destruct (span is_digit r) as [d r']. destruct H as (-> & A & B). cbn [fst] in *.
    exists d, r'. split; [reflexivity|]. split; [intros ->; discriminate N|auto].
Qed.
Lemma bias_cases c : (exists i, bias_col c i /\ forall old, bias_label c old = match i with 0 => "bgph-1" | S n => "bgph" ++ dec n end%string) \/
  ((forall i, ~ bias_col c i) /\ forall old, bias_label c old = old).
Proof.
  destruct c as [|a r]; [right; split; [intros i C; apply bias_span in C; destruct C as (r & C & _); discriminate C|reflexivity]|].
  destruct (ascii_dec a "b") as [->|N].
  - destruct (nonempty (fst (span is_digit r))) eqn:E.
    + left. exists (num (chars (fst (span is_digit r)))). split; [apply bias_span; exists r; auto|]. intros old. cbn. destruct (span is_digit r) as [d r']. cbn [fst] in *. rewrite E. reflexivity.
    + right. split; [intros i C; apply bias_span in C; destruct C as (r' & Ec & C & _); injection Ec as <-; congruence|].
      intros old. cbn. destruct (span is_digit r) as [d r']. cbn [fst] in E. rewrite E. reflexivity.
  - right. split; [intros i C; apply bias_span in C; destruct C as (r' & Ec & _); injection Ec as Ea _; congruence|].
    intros old. unfold bias_label. destruct a as [[] [] [] [] [] [] [] []]; try reflexivity; congruence.
Qed.
Lemma new_label_spec c : ist_label c (new_label c).
Proof.
  unfold ist_label, new_label. destruct (bias_cases c) as [(i & B & L)|(B & L)]; rewrite L.
  - do 3 right. destruct i as [|n]; [right; left; auto|left; exists n; auto].
  - destruct (String.eqb_spec c "Omegade") as [->|N1]; [auto|]. destruct (String.eqb_spec c "Omegab") as [->|N2]; [auto|].
    destruct (String.eqb_spec c "Omegam") as [->|N3]; [auto|]. do 5 right. auto.
Qed.
Lemma ist_label_unique c c' : ist_label c c' -> c' = new_label c.
Proof.
  intros [(-> & ->)|[(-> & ->)|[(-> & ->)|[(n & B & ->)|[(B & ->)|(-> & N1 & N2 & N3 & B)]]]]]; try reflexivity; unfold new_label.
  - destruct (bias_cases c) as [(i & B' & L)|(B' & _)]; [|elim (B' _ B)]. rewrite L.
    apply bias_span in B, B'. destruct B as (r & -> & _ & E), B' as (r' & Er & _ & E'). injection Er as <-. rewrite <- E' in E. subst i. reflexivity.
  - destruct (bias_cases c) as [(i & B' & L)|(B' & _)]; [|elim (B' _ B)]. rewrite L.
    apply bias_span in B, B'. destruct B as (r & -> & _ & E), B' as (r' & Er & _ & E'). injection Er as <-. rewrite <- E' in E. subst i. reflexivity.
  - destruct (bias_cases c) as [(i & B' & L)|(B' & L)]; [elim (B _ B')|]. rewrite L.
    destruct (String.eqb_spec c "Omegade"); [congruence|]. destruct (String.eqb_spec c "Omegab"); [congruence|]. destruct (String.eqb_spec c "Omegam"); [congruence|reflexivity].
Qed.

(** ** The matrix *)
Section Matrix.
  Context {F : Type} {K : Fld F} {SO : SetOrder}.
  Implicit Types rows : list (list (option F)).

  Definition square (n : nat) rows : Prop := length rows = n /\ forall r, In r rows -> length r = n.
  Lemma labels_names cols names : Forall2 ist_label cols names -> names = rename_cols cols.
  Proof. rewrite rename_eq. induction 1 as [|c c' cs ns H _ IH]; [reflexivity|]. cbn. rewrite (ist_label_unique _ _ H), IH. reflexivity. Qed.
  Lemma names_exist cols : Forall2 ist_label cols (rename_cols cols).
  Proof. rewrite rename_eq. induction cols as [|c cs IH]; constructor; [apply new_label_spec|exact IH]. Qed.
  Lemma matrix_square labels rows : square (length labels) rows ->
    matrix_of labels rows = Ok (mkF labels labels (fun a b => nth (pos b labels) (nth (pos a labels) rows []) None)).
  Proof.
    intros (L & R). unfold matrix_of. rewrite L, Nat.eqb_refl. cbn [andb].
    replace (forallb _ rows) with true; [reflexivity|]. symmetry. apply forallb_forall. intros r Hr. apply Nat.eqb_eq. exact (R r Hr).
  Qed.

  (** Row i and column j of the file become the entry of the i-th and j-th
      parameter, whatever the order of the columns, and the parameters are
      sorted. *)
  Theorem C104_entries filename nm cols names rows :
    Forall2 ist_label cols names -> NoDup names -> square (length cols) rows -> ist_name filename = Ok nm ->
    exists m, read_ist_fisher filename cols rows = Ok (nm, m) /\ ix m = ssort names /\ cx m = ssort names /\
      forall i j, i < length cols -> j < length cols -> f_get m (nth i names ""%string) (nth j names ""%string) = nth j (nth i rows []) None.
  Proof.
    intros L N Sq E. assert (Len : length cols = length names) by (clear -L; induction L; cbn; congruence). apply labels_names in L. subst names. unfold read_ist_fisher. rewrite E. cbn [rbind].
    rewrite matrix_square by (rewrite <- Len; exact Sq). cbn [rbind]. eexists. split; [reflexivity|]. unfold f_get, f_sort1, f_sort0. cbn [ix cx ce]. split; [reflexivity|]. split; [reflexivity|].
    intros i j Hi Hj. rewrite Len in Hi, Hj.
    rewrite !(proj2 (smem_In _ _)) by (apply ssort_In, nth_In; assumption). cbn [andb]. rewrite !pos_nth by assumption. reflexivity.
  Qed.
  (** Other numbers of rows are refused. *)
  Theorem C104_not_square filename nm cols rows : length rows <> length cols -> ist_name filename = Ok nm -> read_ist_fisher filename cols rows = Err EValueError.
  Proof.
    intros N E. unfold read_ist_fisher, matrix_of. rewrite E. cbn [rbind].
    assert (L : length (rename_cols cols) = length cols) by apply map_length. rewrite L.
    destruct (Nat.eqb_spec (length rows) (length cols)) as [C|_]; [elim N; exact C|reflexivity].
  Qed.

  (** The columns the comparison uses: seven cosmological parameters and the
      numbered biases.  They keep apart and get the names of SEYFERT. *)
  Definition std_col (c : string) : Prop :=
    In c ["Omegam"; "Omegab"; "Omegade"; "w0"; "wa"; "h"; "ns"; "sigma8"]%string \/ exists n, c = ("b" ++ dec (S n))%string.
  Definition seyfert_name (c : string) : Prop :=
    In c ["Omm"; "Omb"; "OmDE"; "w0"; "wa"; "h"; "ns"; "sigma8"]%string \/ exists n, c = ("bgph" ++ dec n)%string.
  Lemma dec_col n : bias_col ("b" ++ dec n) n.
  Proof.
    destruct (dec_digits n) as [A N]. exists (dec n), ""%string. rewrite sapp_nil_r, num_dec. auto.
  Qed.
  Lemma new_dec n : new_label ("b" ++ dec (S n)) = ("bgph" ++ dec n)%string.
  Proof. symmetry. apply ist_label_unique. do 3 right. left. exists n. split; [apply dec_col|reflexivity]. Qed.
  Lemma dec_inj n m : dec n = dec m -> n = m.
  Proof. intros E. rewrite <- (num_dec n), E. apply num_dec. Qed.
  Lemma std_new c : std_col c -> seyfert_name (new_label c) /\
    ((exists n, c = ("b" ++ dec (S n))%string /\ new_label c = ("bgph" ++ dec n)%string) \/
     In (c, new_label c) [("Omegam", "Omm"); ("Omegab", "Omb"); ("Omegade", "OmDE"); ("w0", "w0"); ("wa", "wa"); ("h", "h"); ("ns", "ns"); ("sigma8", "sigma8")]%string).
  Proof.
    intros [H|(n & ->)].
    - cbn [In] in H. decompose [or] H; subst; try contradiction; (split; [left; vm_compute; tauto|right; vm_compute; tauto]).
    - rewrite new_dec. split; [right; exists n; reflexivity|left; exists n; auto].
  Qed.
  Theorem C104_standard cols : (forall c, In c cols -> std_col c) -> NoDup cols ->
    exists names, Forall2 ist_label cols names /\ NoDup names /\ forall x, In x names -> seyfert_name x.
  Proof.
    intros H N. exists (rename_cols cols). split; [apply names_exist|]. rewrite rename_eq. split.
    - clear -H N. induction N as [|c l Hc Hl IH]; [constructor|]. cbn. constructor; [|apply IH; intros; apply H; right; assumption].
      rewrite in_map_iff. intros (c' & E & Hc'). apply Hc. replace c with c'; [exact Hc'|].
      destruct (std_new c' (H _ (or_intror Hc'))) as (_ & A), (std_new c (H _ (or_introl eq_refl))) as (_ & B).
      rewrite E in A. destruct A as [(n & -> & A)|A], B as [(m & -> & B)|B].
      + rewrite A in B. cbn [append] in B. injection B as B. apply dec_inj in B. subst; reflexivity.
      + rewrite A in B. destruct (dec_first n) as (d & r & _ & Ed). rewrite Ed in B. cbn [In append] in B. decompose [or] B; try contradiction; match goal with X : _ = _ |- _ => solve [apply (f_equal snd) in X; discriminate X] end.
      + rewrite B in A. destruct (dec_first m) as (d & r & _ & Ed). rewrite Ed in A. cbn [In append] in A. decompose [or] A; try contradiction; match goal with X : _ = _ |- _ => solve [apply (f_equal snd) in X; discriminate X] end.
      + clear E. revert A B. generalize (new_label c). intros v A B. cbn [In] in A, B. decompose [or] A; decompose [or] B; try contradiction;
          repeat match goal with X : (_, _) = (_, _) |- _ => injection X; clear X; intros end; subst; first [reflexivity|discriminate].
    - intros x Hx. apply in_map_iff in Hx. destruct Hx as (c & <- & Hc). apply std_new, H, Hc.
  Qed.
  (** A header that uses both spellings would not keep them apart. *)
  Theorem C104_spellings_refuted : exists cols names, NoDup cols /\ Forall2 ist_label cols names /\ ~ NoDup names.
  Proof.
    exists ["Omegam"; "Omm"]%string, ["Omm"; "Omm"]%string. split; [|split].
    - constructor; [intros [C|[]]; discriminate C|constructor; [intros []|constructor]].
    - exact (names_exist ["Omegam"; "Omm"]%string).
    - intros N. inversion N as [|? ? C _]. apply C. left; reflexivity.
  Qed.
End Matrix.

(** ** The name *)
Lemma search_ist_spec s : match search_ist s with
  | Some u => exists pre post, s = (pre ++ "EuclidISTF_" ++ u ++ post)%string /\ u <> ""%string /\ all_chars name_char u = true
  | None => forall pre a post, s = (pre ++ "EuclidISTF_" ++ String a post)%string -> name_char a = false
  end.
Proof.
  assert (SP : forall f r, let (d, r') := span f r in r = (d ++ r')%string /\ all_chars f d = true).
  { intros f r. induction r as [|a r IH]; [split; reflexivity|]. cbn [span]. destruct (f a) eqn:E; [|split; reflexivity].
    destruct (span f r) as [d r']. destruct IH as (-> & A). cbn. rewrite E. auto. }
  induction s as [|c s IH].
  - cbn [search_ist strip_prefix]. intros pre a post E. destruct pre; cbn in E; discriminate E.
  - cbn [search_ist]. destruct (strip_prefix "EuclidISTF_" (String c s)) as [r|] eqn:P.
    + pose proof (SP name_char r) as H. pose proof P as P'. apply strip_prefix_some in P. destruct (span name_char r) as [u v] eqn:Sp. destruct H as (-> & A).
      destruct (nonempty u) eqn:N.
      * exists ""%string, v. split; [exact P|]. split; [intros ->; discriminate N|exact A].
      * destruct u; [|discriminate N]. destruct (search_ist s) as [u|].
        -- destruct IH as (pre & post & -> & R). exists (String c pre), post. auto.
        -- intros pre a post E. destruct pre as [|c' pre].
           ++ rewrite E in P. change ("" ++ "EuclidISTF_" ++ String a post)%string with ("EuclidISTF_" ++ String a post)%string in P. apply sapp_inj_l in P. cbn in P. subst v.
              cbn [append span] in Sp. revert Sp. destruct (name_char a); [|reflexivity]. destruct (span name_char post). intros C. discriminate C.
           ++ cbn in E. injection E as -> E. exact (IH pre a post E).
    + destruct (search_ist s) as [u|].
      * destruct IH as (pre & post & -> & R). exists (String c pre), post. auto.
      * intros pre a post E. destruct pre as [|c' pre].
        -- rewrite E in P. change ("" ++ "EuclidISTF_" ++ String a post)%string with ("EuclidISTF_" ++ String a post)%string in P. rewrite strip_prefix_app in P. discriminate P.
        -- cbn in E. injection E as -> E. exact (IH pre a post E).
Qed.
Lemma search_ist_unfold s : search_ist s =
  match (match strip_prefix "EuclidISTF_" s with Some r => let (u, _) := span name_char r in if nonempty u then Some u else None | None => None end) with
  | Some u => Some u
  | None => match s with EmptyString => None | String _ r => search_ist r end
  end.
Proof. destruct s; reflexivity. Qed.
(** The names of the comparison, followed by an underscore and the rest of the
    file name. *)
Definition ist_names : list (string * string) :=
  [("WL", "[WL]"); ("GCph", "[GCph]"); ("GCsp", "[GCsp(Pk)]"); ("GCph_WL_XC", "[WL+GCph+XC(WL,GCph)]");
   ("GCsp_GCph_WL_XC", "[WL+GCph+XC(WL,GCph)] + [GCsp(Pk)]")]%string.
Theorem C104_name k v a rest : In (k, v) ist_names -> ~ In a ["W"; "L"; "G"; "C"; "p"; "h"; "s"; "X"; "_"]%char ->
  ist_name ("EuclidISTF_" ++ k ++ "_" ++ String a rest) = Ok (Some v) /\ ist_name ("EuclidISTF_" ++ k ++ String a rest) = Ok (Some v).
Proof.
  intros H Na. assert (Nc : name_char a = false).
  { unfold name_char. apply Bool.not_true_iff_false. intros C. apply existsb_exists in C. destruct C as (x & Hx & E). apply Ascii.eqb_eq in E. subst x. exact (Na Hx). }
  assert (Q : forall u, nonempty u = true -> all_chars name_char u = true -> search_ist ("EuclidISTF_" ++ u ++ String a rest) = Some u).
  { intros u N A. rewrite search_ist_unfold, strip_prefix_app.
    rewrite (span_app name_char u (String a rest) A Nc). rewrite N. reflexivity. }
  unfold ist_name. split.
  - assert (E : ("EuclidISTF_" ++ k ++ "_" ++ String a rest = "EuclidISTF_" ++ (k ++ "_") ++ String a rest)%string) by (rewrite sapp_assoc; reflexivity). rewrite E.
    cbn [In ist_names] in H. decompose [or] H; try contradiction; match goal with X : (_, _) = (_, _) |- _ => injection X; intros; subst end; rewrite Q by reflexivity; reflexivity.
  - cbn [In ist_names] in H. decompose [or] H; try contradiction; match goal with X : (_, _) = (_, _) |- _ => injection X; intros; subst end; rewrite Q by reflexivity; reflexivity.
Qed.
(** No name is found exactly when "EuclidISTF_" nowhere stands before one of
    the letters of the names. *)
Theorem C104_unnamed s : ist_name s = Ok None <-> forall pre a post, s = (pre ++ "EuclidISTF_" ++ String a post)%string -> ~ In a ["W"; "L"; "G"; "C"; "p"; "h"; "s"; "X"; "_"]%char.
Proof.
  assert (Nc : forall a, name_char a = true <-> In a ["W"; "L"; "G"; "C"; "p"; "h"; "s"; "X"; "_"]%char).
  { intros a. unfold name_char. rewrite existsb_exists. split; [intros (x & Hx & E); apply Ascii.eqb_eq in E; subst x; exact Hx|intros H; exists a; split; [exact H|apply Ascii.eqb_refl]]. }
  unfold ist_name. pose proof (search_ist_spec s) as H. destruct (search_ist s) as [u|].
  - split.
    + destruct (dget String.eqb ist_fisher_names (rstrip "_" (lstrip "_" u))); discriminate.
    + intros C. exfalso. destruct H as (pre & post & -> & N & A). destruct u as [|a u]; [congruence|]. apply (C pre a (u ++ post)%string eq_refl). apply Nc. cbn in A. apply andb_true_iff in A. apply A.
  - split; [|reflexivity]. intros _ pre a post E Ha. apply Nc in Ha. rewrite (H pre a post E) in Ha. discriminate Ha.
Qed.
(** When the rest goes on with one of those letters the name is not
    recognised. *)
Theorem C104_name_refuted : exists rest, ist_name ("EuclidISTF_GCsp_" ++ rest) = Err EKeyError.
Proof. exists "LCDM_flat_optimistic.txt"%string. vm_compute. reflexivity. Qed.

(** ** The matrix of the run *)
Section Run.
  Context {F : Type} {K : Fld F} {SO : SetOrder}.
  Implicit Types rows : list (list (option F)).
  Implicit Types f g : fisher F.

  Definition complete (n : nat) rows : Prop := forall i j, i < n -> j < n -> nth j (nth i rows []) None <> None.
  Theorem C104_run scenario cols names rows : Forall2 ist_label cols names -> NoDup names -> square (length cols) rows -> complete (length cols) rows ->
    exists o f, from_ist None None None (gcsp_file scenario) cols rows = Ok o /\ as_fisher o = Some f /\ wf f /\
      fname f = "[GCsp(Pk)]"%string /\ labels f = ssort names /\ (forall x, In x (fcosmo f) <-> In x names) /\ fnuis f = [] /\ finverse f = None /\
      forall i j, i < length cols -> j < length cols -> ce (fmat f) (nth i names ""%string) (nth j names ""%string) = nth j (nth i rows []) None.
  Proof.
    intros L N Sq Co. assert (Nm : ist_name (gcsp_file scenario) = Ok (Some "[GCsp(Pk)]"%string)).
    { unfold gcsp_file. apply (C104_name "GCsp" "[GCsp(Pk)]" "w" ("0wa_flat_" ++ scenario ++ ".txt")); [vm_compute; tauto|]. vm_compute. intuition discriminate. }
    pose proof (C104_entries _ _ _ _ _ L N Sq Nm) as (m & E & Ix & Cx & V).
    assert (Len : length cols = length names) by (clear -L; induction L; cbn; congruence).
    assert (V' : forall i j, i < length cols -> j < length cols -> ce m (nth i names ""%string) (nth j names ""%string) = nth j (nth i rows []) None).
    { intros i j Hi Hj. specialize (V i j Hi Hj). unfold f_get in V. rewrite Ix, Cx in V. rewrite !(proj2 (smem_In _ _)) in V by (apply ssort_In, nth_In; lia). exact V. }
    unfold from_ist. rewrite E. cbn [rbind fst snd]. eexists. exists (mkFisher m "[GCsp(Pk)]" (set_of (ix m)) (set_of []) None None true). split; [reflexivity|]. split; [reflexivity|].
    assert (E0 : set_of (SO := SO) [] = []). { pose proof (set_of_In (SO := SO) []) as Q. destruct (set_of []) as [|x l]; [reflexivity|]. destruct (proj1 (Q x) (or_introl eq_refl)). }
    split; [|split; [reflexivity|split; [exact Ix|split; [|split; [exact E0|split; [reflexivity|exact V']]]]]].
    - unfold wf, labels. cbn [fmat fcosmo fnuis]. rewrite E0. split; [|split; [apply set_of_NoDup|split; [constructor|]]].
      + split; [rewrite Ix; apply ssort_NoDup; exact N|]. split; [congruence|]. intros a b Ha Hb. rewrite Ix in Ha, Hb. apply (proj1 (ssort_In _ _)) in Ha, Hb.
        destruct (In_nth _ _ ""%string Ha) as (i & Hi & <-), (In_nth _ _ ""%string Hb) as (j & Hj & <-). rewrite (V' i j) by lia. apply Co; lia.
      + intros x. rewrite set_of_In. cbn. tauto.
    - intros x. cbn [fcosmo]. rewrite set_of_In, Ix. apply ssort_In.
  Qed.

  (** compute_fishers leaves the matrix among the base matrices, where loading
      gives it back; nothing else changes. *)
  Theorem C104_saved scenario cols names rows d (s : fs (h5 F)) : let p := d ++ ["fisher_IST_gcsp_pk.hdf5"%string] in
    Forall2 ist_label cols names -> NoDup names -> square (length cols) rows -> complete (length cols) rows ->
    p_isdir s d = true -> lookup s p = None ->
    exists s' g, add_gcsp scenario cols rows d s = (s', Ok tt) /\ fisher_load H2 p s' = Ok g /\ wf g /\
      fname g = "[GCsp(Pk)]"%string /\ labels g = ssort names /\ (forall x, In x (fcosmo g) <-> In x names) /\ fnuis g = [] /\
      (forall i j, i < length cols -> j < length cols -> ce (fmat g) (nth i names ""%string) (nth j names ""%string) = nth j (nth i rows []) None) /\
      forall q, q <> p -> lookup s' q = lookup s q.
  Proof.
    intros p L N Sq Co D Fr. destruct (C104_run scenario _ _ _ L N Sq Co) as (o & f & E & Ef & W & Nf & Lf & Cf & Uf & _ & V).
    assert (T : target None (Some p) f p) by (left; reflexivity).
    assert (Wr : writable s p). { split; [unfold p; destruct d; discriminate|]. split; [unfold p; rewrite removelast_last; exact D|rewrite Fr; discriminate]. }
    destruct (C25_round_trip None (Some p) false false f s p W T Wr (or_introl Fr)) as (s' & g & Ew & El & Gn & Gl & _ & Gv & Gw & Gs & _).
    exists s', g. assert (Ea : add_gcsp scenario cols rows d s = (s', Ok tt)). { unfold add_gcsp. rewrite E, Ef. exact Ew. }
    assert (Len : length cols = length names) by (clear -L; induction L; cbn; congruence).
    split; [exact Ea|]. split; [exact El|]. split; [exact Gw|]. split; [congruence|]. split; [congruence|].
    destruct Gs as (_ & _ & Sc & Sn). split; [intros x; rewrite Sc; apply Cf|].
    split; [destruct (fnuis g) as [|x l] eqn:Eu; [reflexivity|]; exfalso; rewrite Uf in Sn; destruct (proj1 (Sn x) (or_introl eq_refl))|].
    split; [|intros q Nq; destruct (C25_other_paths_unchanged None (Some p) false false f s p q T Nq) as (Q & _); rewrite Ew in Q; exact Q].
    intros i j Hi Hj. rewrite Gv by (rewrite Lf; apply ssort_In, nth_In; lia). apply V; assumption.
  Qed.
End Run.

(** The header of the files that come with SEYFERT. *)
#[local] Existing Instance id_order.
Definition gcsp_cols : list string := ["Omegam"; "Omegab"; "w0"; "wa"; "h"; "ns"; "sigma8"]%string.
Definition gcsp_rows : list (list (option Qc)) := map (fun i => map (fun j => Some (Q2Qc (QArith_base.Qmake (Z.of_nat (10 * i + j)) 1))) (seq 0 7)) (seq 0 7).
Example C104_instance : exists s g, add_gcsp "optimistic" gcsp_cols gcsp_rows ["run"%string] [(["run"%string], NDir)] = (s, Ok tt) /\
  fisher_load H2 ["run"; "fisher_IST_gcsp_pk.hdf5"]%string s = Ok g /\ fname g = "[GCsp(Pk)]"%string /\
  labels g = ["Omb"; "Omm"; "h"; "ns"; "sigma8"; "w0"; "wa"]%string /\ ce (fmat g) "Omb"%string "sigma8"%string = Some (Q2Qc (QArith_base.Qmake 16 1)).
Proof.
  assert (L : forall c, In c gcsp_cols -> std_col c) by (intros c Hc; left; cbn in *; tauto).
  assert (N : NoDup gcsp_cols) by (repeat constructor; cbn; intuition discriminate).
  destruct (C104_standard gcsp_cols L N) as (names & FN & Nn & _). pose proof (labels_names _ _ FN) as En.
  assert (Sq : square (length gcsp_cols) gcsp_rows). { split; [reflexivity|]. intros r Hr. apply in_map_iff in Hr. destruct Hr as (i & <- & _). reflexivity. }
  assert (Co : complete (length gcsp_cols) gcsp_rows).
  { intros i j Hi Hj. change (length gcsp_cols) with 7 in *.
    do 7 (destruct i as [|i]; [do 7 (destruct j as [|j]; [discriminate|]); lia|]); lia. }
  destruct (C104_saved "optimistic" gcsp_cols names gcsp_rows ["run"%string] [(["run"%string], NDir)] FN Nn Sq Co eq_refl eq_refl) as (s & g & E & Lg & _ & Gn & Gl & _ & _ & V & _).
  exists s, g. split; [exact E|]. split; [exact Lg|]. split; [exact Gn|]. split; [rewrite Gl, En; vm_compute; reflexivity|].
  specialize (V 1 6). rewrite En in V. rewrite rename_eq in V. cbn [map nth gcsp_cols] in V. exact (V ltac:(cbn; lia) ltac:(cbn; lia)).
Qed.
#[local] Remove Hints id_order : typeclass_instances.
Example C104_is_base : OutModel.is_fisher_file "fisher_IST_gcsp_pk.hdf5" = true.
Proof. reflexivity. Qed.

Print Assumptions C104_entries.
Print Assumptions C104_not_square.
Print Assumptions C104_standard.
Print Assumptions C104_spellings_refuted.
Print Assumptions C104_name.
Print Assumptions C104_unnamed.
Print Assumptions C104_name_refuted.
Print Assumptions C104_run.
Print Assumptions C104_saved.
