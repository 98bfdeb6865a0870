(** Property C50: the piecewise bias. *)
From Verif Require Import Base SortLib StrLib NameModel NameLemmas ParamModel EvalModel EvalSpec EllLemmas OrdLib NumModel NumLemmas NumLemmas2 BiasModel StemLemmas3.
From Coq Require Import Field Permutation Sorted.
Open Scope list_scope.

Lemma nkey_total {A} (x y : nat * A) : nkey_leb x y = true \/ nkey_leb y x = true.
Proof. unfold nkey_leb. rewrite !Nat.leb_le. lia. Qed.
Lemma nkey_trans {A} (x y z : nat * A) : nkey_leb x y = true -> nkey_leb y z = true -> nkey_leb x z = true.
Proof. unfold nkey_leb. rewrite !Nat.leb_le. lia. Qed.
(** Two sorted lists with distinct keys and the same entries are equal. *)
Lemma nkey_unique {A} (l m : list (nat * A)) : NoDup (map fst l) -> Permutation l m ->
  StronglySorted (SortLib.le nkey_leb) l -> StronglySorted (SortLib.le nkey_leb) m -> l = m.
Proof.
  revert m. induction l as [|a l IH]; intros m N P S T; [apply Permutation_nil in P; congruence|].
  destruct m as [|b m]; [apply Permutation_sym, Permutation_nil in P; discriminate|].
  inversion S as [|? ? S1 S2]; subst. inversion T as [|? ? T1 T2]; subst. cbn [map] in N. inversion N as [|? ? N1 N2]; subst.
  assert (E : a = b).
  { assert (A1 : In a (b :: m)) by (eapply Permutation_in; [exact P|left; reflexivity]).
    assert (B1 : In b (a :: l)) by (eapply Permutation_in; [apply Permutation_sym, P|left; reflexivity]).
    destruct A1 as [A1|A1]; [congruence|]. destruct B1 as [B1|B1]; [exact B1|].
    rewrite Forall_forall in S2, T2. specialize (S2 b B1). specialize (T2 a A1). unfold SortLib.le, nkey_leb in S2, T2. apply Nat.leb_le in S2. apply Nat.leb_le in T2.
    exfalso. apply N1. replace (fst a) with (fst b) by lia. apply in_map, B1. }
  subst b. f_equal. apply IH; try assumption. eapply Permutation_cons_inv, P.
Qed.
Lemma map_fst_isort {A} (l : list (nat * A)) : Permutation (map fst (isort nkey_leb l)) (map fst l).
Proof. apply Permutation_map, isort_perm. Qed.

Section P.
  Context {F : Type} {K : Fld F} {O : OFld (F := F)}.
  Add Field FldBP : (fth (F := F)).
  Open Scope fld_scope.

  Lemma piecewise_app (l m : list ((F -> bool) * F)) z :
    fold_left (fun acc (cv : (F -> bool) * F) => if fst cv z then snd cv else acc) (l ++ m) 0 = fold_left (fun acc (cv : (F -> bool) * F) => if fst cv z then snd cv else acc) m (piecewise l z).
  Proof. rewrite fold_left_app. reflexivity. Qed.
  Lemma fold_none (m : list ((F -> bool) * F)) z a : (forall cv, In cv m -> fst cv z = false) -> fold_left (fun acc (cv : (F -> bool) * F) => if fst cv z then snd cv else acc) m a = a.
  Proof. revert a. induction m as [|c m IH]; intros a H; cbn; [reflexivity|]. rewrite (H c) by (left; reflexivity). apply IH. intros cv Hc. apply H. right. exact Hc. Qed.
  Lemma piecewise_last l (c : F -> bool) v m z : c z = true -> (forall cv, In cv m -> fst cv z = false) -> piecewise (l ++ (c, v) :: m) z = v.
  Proof. intros H N. unfold piecewise. rewrite fold_left_app. cbn. rewrite H. apply fold_none, N. Qed.
  Lemma piecewise_some (l : list ((F -> bool) * F)) z : (exists cv, In cv l /\ fst cv z = true) -> exists cv, In cv l /\ fst cv z = true /\ piecewise l z = snd cv.
  Proof.
    unfold piecewise. generalize (0 : F). induction l as [|c l IH]; intros a [cv [Hi Hz]]; [destruct Hi|]. cbn [fold_left].
    destruct (existsb (fun cv => fst cv z) l) eqn:E.
    - apply existsb_exists in E. destruct (IH (if fst c z then snd c else a) E) as [cv' [A [B C]]]. exists cv'. split; [right; exact A|]. split; assumption.
    - assert (N : forall cv, In cv l -> fst cv z = false).
      { intros cv0 H0. destruct (fst cv0 z) eqn:Z; [|reflexivity]. rewrite <- E. symmetry. apply existsb_exists. exists cv0. split; assumption. }
      destruct Hi as [->|Hi]; [|rewrite (N cv Hi) in Hz; discriminate]. exists cv. split; [left; reflexivity|]. split; [exact Hz|].
      rewrite Hz. apply fold_none, N.
  Qed.

  (** Every redshift falls in one of the conditions, whatever the edges. *)
  Lemma covered b edges z : length edges = Datatypes.S (length b) -> (0 < length b)%nat -> exists cv, In cv (pw_conds b edges) /\ fst cv z = true.
  Proof.
    intros L P.
    destruct (existsb (fun cv => fst cv z) (pw_conds b edges)) eqn:E; [apply existsb_exists in E; exact E|exfalso].
    assert (N : forall cv, In cv (pw_conds b edges) -> fst cv z = false).
    { intros cv H. destruct (fst cv z) eqn:Z; [|reflexivity]. rewrite <- E. symmetry. apply existsb_exists. exists cv. split; assumption. }
    assert (S : forall i, (i < length b)%nat -> fle (at_ edges i) z -> flt (at_ edges (Datatypes.S i)) z).
    { intros i Hi Le. assert (H : (fleb' (at_ edges i) z && fleb' z (at_ edges (i + 1))) = false).
      { apply (N ((fun z => fleb' (at_ edges i) z && fleb' z (at_ edges (i + 1))), at_ b i)). unfold pw_conds. right. apply in_or_app. left. apply in_map_iff. exists i. split; [reflexivity|]. apply in_seq. lia. }
      rewrite (proj2 (fleb'_iff _ _) Le) in H. cbn in H. apply fleb'_false in H. replace (i + 1)%nat with (Datatypes.S i) in H by lia. exact H. }
    assert (A : forall i, (i <= length b)%nat -> fle (at_ edges i) z).
    { induction i as [|i IH]; intros Hi.
      - pose proof (N _ (or_introl eq_refl)) as H. cbn in H. apply fltb_false in H. exact H.
      - apply flt_le, S; [lia|]. apply IH. lia. }
    assert (H : fltb (at_ edges (length edges - 1)) z = false) by (apply (N ((fun z => fltb (at_ edges (length edges - 1)) z), at_ b (length b - 1)%nat)); unfold pw_conds; right; apply in_or_app; right; left; reflexivity).
    apply fltb_false in H. rewrite L in H. replace (Datatypes.S (length b) - 1)%nat with (Datatypes.S (length b - 1)) in H by lia.
    exact (flt_not_le _ _ (S (length b - 1)%nat ltac:(lia) (A (length b - 1)%nat ltac:(lia))) H).
  Qed.
  Lemma cond_value b edges cv : (0 < length b)%nat -> In cv (pw_conds b edges) -> In (snd cv) b.
  Proof.
    intros P H. assert (Q : forall i, (i < length b)%nat -> In (at_ b i) b) by (intros i Hi; apply nth_In; exact Hi).
    unfold pw_conds in H. destruct H as [<-|H]; [apply Q, P|]. apply in_app_or in H. destruct H as [H|[<-|[]]].
    - apply in_map_iff in H. destruct H as [i [<- Hi]]. apply in_seq in Hi. apply Q. lia.
    - apply Q. cbn. lia.
  Qed.

  (** What a successful evaluation is made of. *)
  Definition indexed (d : dict string F) (l : list (nat * F)) : Prop :=
    Forall2 (fun kv nv => first_run (fst kv) = Some (fst nv) /\ snd kv = snd nv) d l.
  Lemma sorted_bias_inv (d : dict string F) b : sorted_bias d = Ok b -> exists l, indexed d l /\ b = map snd (isort nkey_leb l).
  Proof.
    unfold sorted_bias. destruct (rmapM _ d) as [l|e] eqn:E; [|discriminate]. cbn [rbind]. intros H. injection H as <-. exists l. split; [|reflexivity].
    revert l E. induction d as [|kv d IH]; intros l E; cbn [rmapM] in E.
    - injection E as <-. constructor.
    - unfold bias_idx in E at 1. destruct (first_run (fst kv)) as [n|] eqn:R; [|discriminate]. cbn [rbind] in E.
      destruct (rmapM _ d) as [l'|] eqn:E'; [|discriminate]. cbn [rbind] in E. injection E as <-. constructor; [split; [exact R|reflexivity]|]. apply IH. reflexivity.
  Qed.
  Lemma sorted_bias_of (d : dict string F) l : indexed d l -> sorted_bias d = Ok (map snd (isort nkey_leb l)).
  Proof.
    intros H. unfold sorted_bias. assert (E : rmapM (fun kv => i <- bias_idx (fst kv) ;; Ok (i, snd kv)) d = Ok l); [|rewrite E; reflexivity].
    induction H as [|kv nv d l [A B] H IH]; [reflexivity|]. cbn [rmapM]. unfold bias_idx at 1. rewrite A. cbn [rbind]. rewrite IH. cbn [rbind]. rewrite B. destruct nv; reflexivity.
  Qed.
  Lemma conditions_inv (d : dict string F) edges conds : conditions d edges = Ok conds ->
    exists b, sorted_bias d = Ok b /\ conds = pw_conds b edges /\ length edges = Datatypes.S (length b) /\ (0 < length b)%nat.
  Proof.
    unfold conditions. destruct (sorted_bias d) as [b|e]; [|discriminate]. cbn [rbind]. unfold n_bins.
    destruct (Z.eqb_spec (Z.of_nat (length b)) (Z.of_nat (length edges) - 1)); [|discriminate]. cbn [negb].
    destruct (Nat.eqb_spec (length b) 0); [discriminate|]. intros H. injection H as <-. exists b. repeat split; lia.
  Qed.

  (** The bias exists at every redshift, and is one of the bin values. *)
  Theorem C50_defined (d : dict string F) edges zs rows : piecewise_bias d edges zs = Ok rows ->
    exists b, sorted_bias d = Ok b /\ length rows = length b /\ length edges = (length b + 1)%nat /\
      Forall (fun row => length row = length zs /\ Forall (fun v => In v b) row) rows.
  Proof.
    unfold piecewise_bias. destruct (conditions d edges) as [conds|e] eqn:E; [|discriminate]. cbn [rbind]. intros H. injection H as <-.
    destruct (conditions_inv _ _ _ E) as [b [A [-> [L P]]]]. exists b. split; [exact A|]. unfold n_bins. rewrite repeat_length. split; [lia|]. split; [lia|].
    apply Forall_forall. intros row Hr. apply repeat_spec in Hr. subst row. split; [apply map_length|]. apply Forall_forall. intros v Hv.
    apply in_map_iff in Hv. destruct Hv as [z [<- _]]. destruct (piecewise_some _ z (covered b edges z L P)) as [cv [Hc [_ ->]]]. eapply cond_value; eassumption.
  Qed.
  (** For increasing edges: the first value below the first edge, the value of
      bin i from its left edge (included) to its right edge (excluded), the last
      value from the last edge on. *)
  Theorem C50_value (d : dict string F) edges zs rows b row k : StronglySorted fle edges ->
    piecewise_bias d edges zs = Ok rows -> sorted_bias d = Ok b -> In row rows -> (k < length zs)%nat ->
    let z := at_ zs k in let n := length b in
    (flt z (at_ edges 0) -> at_ row k = at_ b 0) /\
    (forall i, (i < n)%nat -> fle (at_ edges i) z -> flt z (at_ edges (i + 1)) -> at_ row k = at_ b i) /\
    (fle (at_ edges n) z -> at_ row k = at_ b (n - 1)).
  Proof.
    intros So H Sb Hr Hk. cbn zeta. unfold piecewise_bias in H. destruct (conditions d edges) as [conds|e] eqn:E; [|discriminate]. cbn [rbind] in H. injection H as <-.
    destruct (conditions_inv _ _ _ E) as [b' [A [-> [L P]]]]. rewrite Sb in A. injection A as <-. apply repeat_spec in Hr. subst row.
    assert (V : at_ (map (piecewise (pw_conds b edges)) zs) k = piecewise (pw_conds b edges) (at_ zs k)).
    { unfold at_. rewrite (nth_indep _ 0 (piecewise (pw_conds b edges) 0)) by (rewrite map_length; exact Hk). apply map_nth. }
    rewrite V. clear V. set (z := at_ zs k).
    assert (Mono : forall i j, (i <= j)%nat -> (j <= length b)%nat -> fle (at_ edges i) (at_ edges j)).
    { intros i j. revert i j So L. clear. generalize (length b). intros n i j So L Hij Hj. unfold at_.
      assert (Hn : (j < length edges)%nat) by lia. clear L Hj. revert i j Hij Hn. induction So as [|a l So IH Fo]; intros i j Hij Hn; [cbn in Hn; lia|].
      destruct j as [|j]; [replace i with 0%nat by lia; apply fle_refl|]. destruct i as [|i]; cbn [nth].
      - rewrite Forall_forall in Fo. apply Fo, nth_In. cbn in Hn. lia.
      - apply IH; cbn in Hn; lia. }
    set (tail := [((fun z => fltb (at_ edges (length edges - 1)) z), at_ b (length b - 1)%nat)]).
    assert (Split : forall i, (i < length b)%nat -> exists l m, pw_conds b edges = l ++ ((fun z => fleb' (at_ edges i) z && fleb' z (at_ edges (i + 1))), at_ b i) :: m ++ tail /\
       forall cv, In cv m -> exists j, (i < j < length b)%nat /\ fst cv = fun z => fleb' (at_ edges j) z && fleb' z (at_ edges (j + 1))).
    { intros i Hi. assert (Q : seq 0 (length b) = seq 0 i ++ i :: seq (Datatypes.S i) (length b - 1 - i)).
      { replace (length b) with (i + (Datatypes.S (length b - 1 - i)))%nat at 1 by lia. rewrite seq_app. reflexivity. }
      unfold pw_conds. rewrite Q, map_app. cbn [map]. fold tail.
      eexists (_ :: _), (map _ _). split; [cbn [app]; rewrite <- app_assoc; cbn [app]; reflexivity|]. intros cv Hc. apply in_map_iff in Hc. destruct Hc as [j [<- Hj]]. apply in_seq in Hj. exists j. split; [lia|reflexivity]. }
    split; [|split].
    - intros Hz. change (pw_conds b edges) with ([] ++ pw_conds b edges). unfold pw_conds. apply piecewise_last; [apply fltb_iff, Hz|].
      intros cv Hc. apply in_app_or in Hc. destruct Hc as [Hc|[<-|[]]].
      + apply in_map_iff in Hc. destruct Hc as [j [<- Hj]]. apply in_seq in Hj. cbn [fst].
        assert (G : fleb' (at_ edges j) z = false) by (apply fleb'_false; eapply flt_le_trans; [exact Hz|apply Mono; lia]). rewrite G. reflexivity.
      + cbn [fst]. apply fltb_false. apply flt_le. eapply flt_le_trans; [exact Hz|]. apply Mono; lia.
    - intros i Hi Lo Up. destruct (Split i Hi) as [l [m [-> Hm]]]. apply piecewise_last.
      + rewrite (proj2 (fleb'_iff _ _) Lo), (proj2 (fleb'_iff _ _) (flt_le _ _ Up)). reflexivity.
      + intros cv Hc. apply in_app_or in Hc. destruct Hc as [Hc|[<-|[]]].
        * destruct (Hm cv Hc) as [j [Hj ->]]. assert (G : fleb' (at_ edges j) z = false) by (apply fleb'_false; eapply flt_le_trans; [exact Up|apply Mono; lia]). rewrite G. reflexivity.
        * cbn [fst]. apply fltb_false. apply flt_le. eapply flt_le_trans; [exact Up|]. apply Mono; lia.
    - intros Hz. destruct (fle_lt_dec z (at_ edges (length b))) as [Le|Gt].
      + assert (Eq : z = at_ edges (length b)) by (apply fle_antisym; assumption).
        destruct (Split (length b - 1)%nat ltac:(lia)) as [l [m [-> Hm]]]. apply piecewise_last.
        * rewrite Eq. apply Bool.andb_true_iff. split; apply fleb'_iff; [apply Mono; lia|]. replace (length b - 1 + 1)%nat with (length b) by lia. apply fle_refl.
        * intros cv Hc. apply in_app_or in Hc. destruct Hc as [Hc|[<-|[]]]; [destruct (Hm cv Hc) as [j [Hj _]]; lia|].
          cbn [fst]. apply fltb_false. rewrite L, Eq. replace (Datatypes.S (length b) - 1)%nat with (length b) by lia. apply fle_refl.
      + unfold pw_conds. rewrite app_comm_cons. apply piecewise_last; [|intros cv []].
        apply fltb_iff. rewrite L. replace (Datatypes.S (length b) - 1)%nat with (length b) by lia. exact Gt.
  Qed.
  (** The bin values are those of the parameters, by increasing number in the
      name. *)
  Theorem C50_order (d : dict string F) b : sorted_bias d = Ok b ->
    exists l, Permutation l (map (fun kv => (first_run (fst kv), snd kv)) d) /\ b = map snd l /\
      StronglySorted (fun x y => match fst x, fst y with Some i, Some j => (i <= j)%nat | _, _ => False end) l.
  Proof.
    intros H. destruct (sorted_bias_inv _ _ H) as [l [I ->]]. exists (map (fun nv => (Some (fst nv), snd nv)) (isort nkey_leb l)). split; [|split].
    - rewrite (Permutation_map _ (isort_perm nkey_leb l)). clear H. induction I as [|kv nv d l [A B] I IH]; [apply perm_nil|]. cbn [map]. rewrite A, B. apply perm_skip, IH.
    - rewrite map_map. cbn. reflexivity.
    - pose proof (isort_ssorted nkey_leb nkey_total nkey_trans l) as S. clear H. induction S as [|a r S IH Fo]; cbn [map]; constructor; try exact IH.
      apply Forall_forall. intros x Hx. apply in_map_iff in Hx. destruct Hx as [y [<- Hy]]. cbn [fst]. rewrite Forall_forall in Fo. apply Nat.leb_le. exact (Fo y Hy).
  Qed.
  (** With distinct numbers the order of the dictionary does not matter. *)
  Theorem C50_order_independent (d d' : dict string F) b : Permutation d d' -> NoDup (map (fun kv => first_run (fst kv)) d) ->
    sorted_bias d = Ok b -> sorted_bias d' = Ok b.
  Proof.
    intros P N H. destruct (sorted_bias_inv _ _ H) as [l [I ->]].
    assert (E : exists l', indexed d' l' /\ Permutation l l').
    { clear N H. revert l I. induction P as [|x d d' P IH|x y d|d1 d2 d3 P1 IH1 P2 IH2]; intros l I.
      - inversion I; subst. exists []. split; [constructor|apply perm_nil].
      - inversion I as [|? nv ? l0 A I0]; subst. destruct (IH l0 I0) as [l' [A' B']]. exists (nv :: l'). split; [constructor; assumption|apply perm_skip, B'].
      - inversion I as [|? n1 ? l0 A I0]; subst. inversion I0 as [|? n2 ? l1 B I1]; subst. exists (n2 :: n1 :: l1). split; [repeat constructor; assumption || apply A || apply B|apply perm_swap].
      - destruct (IH1 l I) as [l2 [A B]]. destruct (IH2 l2 A) as [l3 [C D]]. exists l3. split; [exact C|]. eapply perm_trans; eassumption. }
    destruct E as [l' [I' P']]. rewrite (sorted_bias_of d' l' I'). f_equal. f_equal. symmetry.
    apply nkey_unique.
    - assert (Q : map (fun kv => first_run (fst kv)) d = map Some (map fst l)) by (clear -I; induction I as [|kv nv d l [A B] I IH]; cbn [map]; [reflexivity|rewrite A, IH; reflexivity]).
      rewrite Q in N. apply NoDup_map_inv in N. eapply Permutation_NoDup; [apply Permutation_sym, map_fst_isort|exact N].
    - rewrite (isort_perm nkey_leb l), (isort_perm nkey_leb l'). exact P'.
    - apply isort_ssorted; [apply nkey_total|apply nkey_trans].
    - apply isort_ssorted; [apply nkey_total|apply nkey_trans].
  Qed.
  (** It is refused exactly when a name has no digit, the number of values is not
      that of the bins, or there is no bin. *)
  Theorem C50_accepts (d : dict string F) edges zs : (exists rows, piecewise_bias d edges zs = Ok rows) <->
    Forall (fun kv => first_run (fst kv) <> None) d /\ length edges = (length d + 1)%nat /\ d <> [].
  Proof.
    assert (Len : forall b, sorted_bias d = Ok b -> length b = length d).
    { intros b H. destruct (sorted_bias_inv _ _ H) as [l [I ->]]. rewrite map_length, isort_length. clear -I. induction I; cbn; congruence. }
    split.
    - intros [rows H]. unfold piecewise_bias in H. destruct (conditions d edges) as [conds|e] eqn:E; [|discriminate].
      destruct (conditions_inv _ _ _ E) as [b [A [_ [L P]]]]. rewrite (Len b A) in *. split; [|split; [lia|intros ->; cbn in P; lia]].
      destruct (sorted_bias_inv _ _ A) as [l [I _]]. clear -I. induction I as [|kv nv d l [X Y] I IH]; constructor; [congruence|exact IH].
    - intros [Fo [L N]]. assert (I : exists l, indexed d l).
      { clear -Fo. induction Fo as [|kv d H Fo IH]; [exists []; constructor|]. destruct IH as [l I]. destruct (first_run (fst kv)) as [n|] eqn:R; [|contradiction].
        exists ((n, snd kv) :: l). constructor; [split; [exact R|reflexivity]|exact I]. }
      destruct I as [l I]. unfold piecewise_bias, conditions. rewrite (sorted_bias_of d l I). cbn [rbind].
      rewrite (Len _ (sorted_bias_of d l I)). unfold n_bins. destruct (Z.eqb_spec (Z.of_nat (length d)) (Z.of_nat (length edges) - 1)); [|lia]. cbn [negb].
      destruct (Nat.eqb_spec (length d) 0) as [e0|]; [destruct d; [contradiction|discriminate]|]. eexists. reflexivity.
  Qed.
End P.

(** The constant bias does not sort: the ten values read back from a file, whose
    groups come in alphabetical order, are assigned to other bins. *)
From Coq Require Import QArith Qcanon.
Close Scope Qc_scope. Close Scope Q_scope.
Definition two_bins : dict string Qc := [("bgph10", qz 10); ("bgph2", qz 2)]%string.
Theorem C50_constant_not_sorted : exists (d d' : dict string Qc) edges zs rows rows', Permutation d d' /\ NoDup (map (fun kv => first_run (fst kv)) d) /\
  constant_bias d edges zs = Ok rows /\ constant_bias d' edges zs = Ok rows' /\ rows <> rows' /\ piecewise_bias d edges zs = piecewise_bias d' edges zs.
Proof.
  exists two_bins, (rev two_bins), [qz 0; qz 1; qz 2], [qq 1 2], [[qz 10]; [qz 2]], [[qz 2]; [qz 10]].
  split; [apply Permutation_rev|]. split; [|split; [reflexivity|split; [reflexivity|split; [|vm_compute; reflexivity]]]].
  - vm_compute. repeat constructor; cbn; intros H; repeat destruct H as [H|H]; discriminate || contradiction.
  - intros E. assert (X : this (qz 10) = this (qz 2)) by exact (f_equal (fun r => this (nth 0 (nth 0 r []) (qz 0))) E). vm_compute in X. discriminate.
Qed.
Definition three_bins : dict string Qc := [("bgph1", qz 11); ("bgph10", qz 13); ("bgph2", qz 12)]%string.
Example C50_instance : sorted_bias three_bins = Ok [qz 11; qz 12; qz 13] /\
  piecewise_bias three_bins [qz 0; qz 1; qz 2; qz 3] [qz (-1); qz 0; qz 1; qq 3 2; qz 2; qz 3; qz 4] =
  Ok (repeat [qz 11; qz 11; qz 12; qz 12; qz 13; qz 13; qz 13] 3).
Proof. split; vm_compute; reflexivity. Qed.
(** Names without a number, missing values and missing bins. *)
Example C50_errors : piecewise_bias [("b"%string, qz 1)] [qz 0; qz 1] [qz 0] = Err EAttributeError /\
  piecewise_bias [("b1"%string, qz 1)] [qz 0; qz 1; qz 2] [qz 0] = Err EDomain /\ piecewise_bias [] [qz 0] [qz 0] = Err EIndexError.
Proof. repeat split. Qed.

Print Assumptions C50_defined.
Print Assumptions C50_value.
Print Assumptions C50_order.
Print Assumptions C50_order_independent.
Print Assumptions C50_accepts.
Print Assumptions C50_constant_not_sorted.
