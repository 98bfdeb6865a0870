(** The book-keeping attributes of a file (C69). *)
From Verif Require Import Base SortLib StrLib FrameModel FrameLemmas FsModel ParamModel ParamFileModel KeyModel H5Model H5Lemmas H5Lemmas2 H5Lemmas3 H5Props H5Props2 H5Props3.
Open Scope list_scope.

Section Props.
  Context {F : Type} {K : Fld F}.
  Implicit Types (o : obj F) (h : hfile F) (r : path) (st : option (hfile F)).

  Definition kept_names : list string := ["CreationDate"; "LastUpdate"; "Description"; "Author"; "CodeVersion"]%string.
  (** What the classes of the package write. *)
  Inductive class_ops : (path -> list (op F)) -> Prop :=
  | c_density o : class_ops (density_ops o) | c_bias o : class_ops (bias_ops o) | c_kernel o : class_ops (kernel_ops o)
  | c_power o : class_ops (power_ops o) | c_weight w : class_ops (weight_ops w) | c_delta o : class_ops (delta_ops o)
  | c_deltas c : class_ops (deltas_ops c).
  Definition foreign (x : op F) : Prop := match x with OAttr _ n _ => ~ In n kept_names | _ => True end.

  Lemma foreign_app l m : Forall foreign l -> Forall foreign m -> Forall foreign (l ++ m).
  Proof. intros A B. apply Forall_app. auto. Qed.
  Lemma foreign_data p v : Forall foreign (data_if p v).
  Proof. unfold data_if. destruct (is_none v); repeat constructor. Qed.
  Lemma foreign_nums p v : Forall foreign (nums_ops p v).
  Proof. unfold nums_ops. destruct v; try (repeat constructor). apply Forall_forall. intros x I. apply in_map_iff in I as (kv & <- & _). constructor. Qed.
  Lemma foreign_attr p n v : ~ In n kept_names -> Forall foreign [OAttr p n v].
  Proof. intros N. constructor; [exact N|constructor]. Qed.
  Lemma foreign_attr_if p n v : ~ In n kept_names -> Forall foreign (attr_if p n v).
  Proof. intros N. unfold attr_if. destruct (is_none v); [constructor|]. apply foreign_attr, N. Qed.
  Ltac strange := repeat first [ exact I | apply foreign_app | apply foreign_data | apply foreign_nums | (apply foreign_attr_if; cbn; intuition discriminate)
                               | (cbn; intuition discriminate) | constructor ].
  Lemma foreign_density o r : Forall foreign (density_ops o r).
  Proof. unfold density_ops. cbv zeta. destruct (truthy _); strange. Qed.
  Lemma foreign_bias o r : Forall foreign (bias_ops o r).
  Proof. unfold bias_ops. cbv zeta. strange. Qed.
  Lemma foreign_delta o r : Forall foreign (delta_ops o r).
  Proof. unfold delta_ops. cbv zeta. cbn [map flat_map]. strange. Qed.
  Lemma foreign_nested r f oo : (forall o r, Forall foreign (f o r)) -> Forall foreign (nested r f oo).
  Proof. intros W. destruct oo as [o|]; [|constructor]. constructor; [exact I|apply W]. Qed.
  Lemma foreign_members {A} r (f : A -> path -> list (op F)) d : (forall a r, Forall foreign (f a r)) -> Forall foreign (members_ops r f d).
  Proof.
    intros W. apply Forall_forall. intros x I. apply in_flat_map in I as (kv & _ & [<-|I]); [exact Logic.I|].
    exact (proj1 (Forall_forall _ _) (W _ _) _ I).
  Qed.
  Lemma foreign_class ops r : class_ops ops -> Forall foreign (ops r).
  Proof.
    destruct 1.
    - apply foreign_density.
    - apply foreign_bias.
    - unfold kernel_ops. cbv zeta. strange.
    - unfold power_ops. cbv zeta. cbn [map]. strange.
    - unfold weight_ops. repeat apply foreign_app; try apply foreign_data.
      + strange.
      + apply foreign_nested, foreign_density.
      + destruct (with_bias _); [apply foreign_nested, foreign_bias|constructor].
    - apply foreign_delta.
    - unfold deltas_ops. apply foreign_app; apply foreign_members, foreign_delta.
  Qed.

  Lemma run_foreign l h h' x p n : Forall foreign l -> In n kept_names -> run_ops l h = (h', x) -> att h' p n = att h p n.
  Proof.
    intros W N. revert h. induction W as [|o l A W IH]; intros h H; [injection H as <- _; reflexivity|].
    destruct (run_ops_cons _ _ _ _ _ H) as [(h1 & E & H1)|(e & E & _)].
    - rewrite (IH _ H1). destruct (run_op_spec _ _ _ _ E) as (_ & _ & _ & C). destruct (C p n) as [C1|(_ & v & a & -> & _)]; [exact C1|]. elim (A N).
    - destruct (run_op_spec _ _ _ _ E) as (_ & _ & _ & C). destruct (C p n) as [C1|(_ & v & a & -> & _)]; [exact C1|]. elim (A N).
  Qed.
  Lemma att_set h p n a q m : att (set_attr h p n a) q m = (if (sl_eqb p q && grp h p && String.eqb n m)%bool then Some a else att h q m).
  Proof.
    unfold set_attr, att, grp. destruct (hget h p) as [[d|d]|] eqn:E; [|destruct (sl_eqb p q); reflexivity|destruct (sl_eqb p q); reflexivity].
    rewrite hget_set. destruct (sl_eqb_spec p q) as [<-|N]; [|reflexivity]. cbn [andb]. rewrite E. destruct (String.eqb_spec n m) as [<-|N].
    - apply (dget_dset_same _ String.eqb_spec).
    - apply (dget_dset_other _ String.eqb_spec). exact N.
  Qed.
  Lemma grp_set h p n a q : grp (set_attr h p n a) q = grp h q.
  Proof.
    unfold set_attr, grp. destruct (hget h p) as [[d|d]|] eqn:E; try reflexivity. rewrite hget_set. destruct (sl_eqb_spec p q) as [<-|N]; [rewrite E|]; reflexivity.
  Qed.
  (** Attributes in a row, the last one of a name holds. *)
  Lemma run_attrs l : forall h, grp h [] = true ->
    exists h', run_ops (map (fun kv => OAttr [] (fst kv) (VStr (snd kv))) l) h = (h', Ok tt) /\
      forall n, att h' [] n = match find (fun kv => String.eqb n (fst kv)) (rev l) with Some kv => Some (AStr (snd kv)) | None => att h [] n end.
  Proof.
    induction l as [|kv l IH]; intros h G; [exists h; split; [reflexivity|intros n; reflexivity]|].
    cbn [map run_ops run_op]. pose proof G as G0. unfold grp in G0. destruct (hget h []) as [[d|d]|] eqn:E; try discriminate G0. cbn [to_attr].
    destruct (IH (set_attr h [] (fst kv) (AStr (snd kv)))) as (h' & R & A); [rewrite grp_set; exact G|]. exists h'. split; [exact R|]. intros n. rewrite A, att_set, G.
    cbn [rev]. assert (FA : forall f l1 l2, find f (l1 ++ l2 : list (string * string)) = match find f l1 with Some x => Some x | None => find f l2 end).
    { intros f l1 l2. induction l1 as [|x l1 IH1]; cbn; [reflexivity|]. destruct (f x); [reflexivity|exact IH1]. }
    rewrite FA. destruct (find _ (rev l)); [reflexivity|]. cbn [find]. rewrite (String.eqb_sym (fst kv) n). cbn. destruct (String.eqb n (fst kv)); reflexivity.
  Qed.
  Lemma rd_att h p n : rd_attr h p n = match att h p n with Some a => Ok (of_attr a) | None => Err EKeyError end.
  Proof. unfold rd_attr, att. destruct (hget h p) as [[d|d]|]; reflexivity. Qed.

  (** Saving to a place where there is no file says who wrote it and when; the
      five attributes are those of the root group.  Whether or not the object
      could be written to its end, the attributes are there. *)
  Theorem C69_new_file_says_when meta ops h x : class_ops ops -> save meta ops [] None = (Some h, x) ->
    rd_attr h [] "CreationDate" = Ok (VStr (fst meta)) /\ rd_attr h [] "LastUpdate" = Ok (VStr (fst meta)) /\ rd_attr h [] "Author" = Ok (VStr (snd meta)) /\
    rd_attr h [] "Description" = Ok (VStr "") /\ rd_attr h [] "CodeVersion" = Ok (VStr "1.3.8").
  Proof.
    intros C H. unfold save in H. destruct (run_ops _ _) as [h' y] eqn:R in H. injection H as -> ->.
    unfold open_ops in R. cbn [is_root app] in R. cbn [run_ops run_op ensure] in R. rewrite run_app in R.
    destruct (run_attrs (metadata meta true) empty_file eq_refl) as (h1 & R1 & A1). rewrite R1 in R. rewrite !rd_att.
    assert (Z : forall n, In n kept_names -> att h [] n = att h1 [] n) by (intros n I; exact (run_foreign _ _ _ _ _ _ (foreign_class _ _ C) I R)).
    rewrite !Z by (cbn; tauto). rewrite !A1. repeat split.
  Qed.
  (** Saving the whole file again changes the date of the last update and none
      of the others. *)
  Theorem C69_update_says_when meta ops h0 h x : class_ops ops -> (exists d, hget h0 [] = Some (EG d)) -> save meta ops [] (Some h0) = (Some h, x) ->
    rd_attr h [] "LastUpdate" = Ok (VStr (fst meta)) /\
    forall n, In n ["CreationDate"; "Description"; "Author"; "CodeVersion"]%string -> rd_attr h [] n = rd_attr h0 [] n.
  Proof.
    intros C (d & Hd) H. unfold save in H. destruct (run_ops _ _) as [h' y] eqn:R in H. injection H as -> ->.
    unfold open_ops in R. cbn [is_root app] in R. cbn [run_ops run_op ensure] in R. rewrite run_app in R.
    assert (G : grp h0 [] = true) by (unfold grp; rewrite Hd; reflexivity).
    destruct (run_attrs (metadata meta false) h0 G) as (h1 & R1 & A1). rewrite R1 in R.
    assert (Z : forall n, In n kept_names -> att h [] n = att h1 [] n) by (intros n I; exact (run_foreign _ _ _ _ _ _ (foreign_class _ _ C) I R)).
    split.
    - rewrite rd_att, Z by (cbn; tauto). rewrite A1. reflexivity.
    - intros n I. rewrite !rd_att, Z by (cbn in *; tauto). rewrite A1. cbn in I. destruct I as [<-|[<-|[<-|[<-|[]]]]]; reflexivity.
  Qed.
  (** Saving inside a file leaves all of them, in every group, as they were: a
      file that is written only that way says neither when nor by whom. *)
  Theorem C69_member_says_nothing meta ops r st h x : class_ops ops -> r <> [] -> save meta ops r st = (Some h, x) ->
    forall p n, In n kept_names -> rd_attr h p n = match st with Some h0 => rd_attr h0 p n | None => Err EKeyError end.
  Proof.
    intros C N H p n I. unfold save in H. destruct (run_ops _ _) as [h' y] eqn:R in H. injection H as -> ->.
    assert (Z : att h p n = att (match st with Some h => h | None => empty_file end) p n).
    { refine (run_foreign _ _ _ _ _ _ _ I R). destruct r as [|a r]; [congruence|]. unfold open_ops. cbn [is_root]. constructor; [exact Logic.I|]. apply foreign_class, C. }
    rewrite rd_att, Z. destruct st as [h0|]; [symmetry; apply rd_att|]. unfold att, empty_file, hget. destruct p as [|a p]; reflexivity.
  Qed.
End Props.

Section Ex.
  Context {F : Type} {K : Fld F}.
  Definition kern : obj F := setattr (setattr (setattr (setattr new_kernel "probe1" (VStr "Lensing")) "probe2" (VStr "Void")) "z_grid" (VArr (mkArr [1] [Some fo])))
    "k_ijz" (VArr (mkArr [1; 1; 1] [Some fz])).
  Example C69_ex_new : exists h, save ("Mon", "eve")%string (kernel_ops kern) [] None = (Some h, Ok tt) /\ rd_attr h [] "CreationDate" = Ok (VStr "Mon").
  Proof. eexists. split; reflexivity. Qed.
  Example C69_ex_member : exists h h', save ("Mon", "eve")%string (kernel_ops kern) ["a"%string] None = (Some h, Ok tt) /\ rd_attr h [] "CreationDate" = Err EKeyError /\
    save ("Tue", "bob")%string (kernel_ops kern) [] (Some h) = (Some h', Ok tt) /\ rd_attr h' [] "LastUpdate" = Ok (VStr "Tue") /\ rd_attr h' [] "Author" = Err EKeyError.
  Proof. do 2 eexists. repeat split; reflexivity. Qed.
End Ex.

Print Assumptions C69_new_file_says_when.
Print Assumptions C69_update_says_when.
Print Assumptions C69_member_says_nothing.
