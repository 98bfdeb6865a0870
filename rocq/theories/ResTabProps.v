(** C124: tables of results. *)
From Coq Require Import Field Qcanon.
From Verif Require Import Base SortLib StrLib StemLemmas3 ParamProps2 CompareProps ResTabModel.
Open Scope nat_scope.
Open Scope string_scope.
Open Scope list_scope.

Lemma occurs_iff p s : occurs p s = true <-> exists a b, s = (a ++ p ++ b)%string.
Proof.
  induction s as [|x s IH]; cbn [occurs].
  - rewrite orb_false_r, starts_iff. split.
    + intros (r & E). exists "", r. exact E.
    + intros (a & b & E). exists b. destruct a; [exact E|discriminate].
  - rewrite orb_true_iff, starts_iff, IH. split.
    + intros [(r & E)|(a & b & E)]; [exists "", r; exact E|exists (String x a), b; cbn; congruence].
    + intros (a & b & E). destruct a as [|y a]; [left; exists b; exact E|right]. cbn in E. injection E as -> E. exists a, b. exact E.
Qed.
Lemma dget_filter {V} (f : string -> bool) (d : dict string V) k : dget String.eqb (filter (fun kv => f (fst kv)) d) k = if f k then dget String.eqb d k else None.
Proof.
  induction d as [|[a v] d IH]; cbn [filter fst]; [destruct (f k); reflexivity|].
  destruct (f a) eqn:E; cbn [dget]; destruct (String.eqb_spec a k) as [->|]; rewrite ?E; try reflexivity; rewrite IH; try rewrite E; reflexivity.
Qed.
Lemma filter_keys {V} (f : string * V -> bool) (d : dict string V) : NoDup (dkeys d) -> NoDup (dkeys (filter f d)).
Proof.
  induction d as [|[a v] d IH]; intros H; [constructor|]. inversion H as [|? ? H1 H2]; subst. cbn [filter]. destruct (f (a, v)); [|apply IH; exact H2]. cbn. constructor; [|apply IH; exact H2]. intros I. apply H1. unfold dkeys in *. apply in_map_iff in I. destruct I as ((b & w) & <- & I). apply filter_In in I. apply in_map_iff. exists (b, w). split; [reflexivity|apply I].
Qed.

Section Props.
  Context {F : Type} {K : Fld F} {O : OFld (F := F)}.
  Add Field ResFld : (@fth F K).
  Notation cell := (cell F).
  Notation frame := (frame F).
  Lemma ceq_refl (c : cell) : ceq c c = true.
  Proof. destruct c as [s|b|x]; cbn; [apply String.eqb_refl|destruct (fdec (if b then fo else fz) _); congruence|destruct (fdec x x); congruence]. Qed.
  Lemma ceq_sym (a b : cell) : ceq a b = ceq b a.
  Proof.
    destruct a as [s|b1|x], b as [t|b2|y]; try reflexivity; unfold ceq, num; [apply String.eqb_sym| | | |];
      match goal with |- context [fdec ?u ?v] => destruct (fdec u v), (fdec v u); congruence end.
  Qed.
  Lemma ceq_trans (a b c : cell) : ceq a b = true -> ceq b c = true -> ceq a c = true.
  Proof.
    destruct a as [s|b1|x], b as [t|b2|y], c as [u|b3|z]; unfold ceq, num; intros H1 H2; try discriminate;
      try (apply String.eqb_eq in H1; apply String.eqb_eq in H2; subst; apply String.eqb_refl);
      repeat match goal with H : (if fdec ?u ?v then true else false) = true |- _ => destruct (fdec u v); [|discriminate] end;
      match goal with |- context [fdec ?u ?v] => destruct (fdec u v); congruence end.
  Qed.

  (** ** Queries *)
  (** The query holds the known keys that are not excluded, with the given values or
      those of the defaults. *)
  Theorem C124_query ex (kw : dict string cell) k : NoDup (dkeys kw) ->
    dget String.eqb (query_dict ex kw) k = (if smem k ex then None else match dget String.eqb default_query k with
      | None => None | Some d => match dget String.eqb kw k with Some v => Some v | None => Some d end end).
  Proof.
    intros N. unfold query_dict. rewrite (dget_filter (fun k => negb (smem k ex))). destruct (smem k ex); [reflexivity|]. cbn [negb].
    rewrite dget_dupdate by (apply filter_keys; exact N). rewrite (dget_filter (fun k => dmem String.eqb default_query k)). unfold dmem. destruct (dget String.eqb default_query k) as [d|]; [|reflexivity]. reflexivity.
  Qed.
  (** Without options and exclusions it asks for the four defaults. *)
  Theorem C124_defaults k v : dget String.eqb (query_dict (F := F) [] []) k = Some v <->
    (k = "scenario"%string /\ v = CS "optimistic") \/ (In k ["shot_noise_sp_reduced"; "gcph_minus_gcsp"; "gcph_only_bins_in_spectro_range"]%string /\ v = CB false).
  Proof.
    split.
    - intros H. apply (dget_In _ String.eqb_spec) in H. cbn in H. destruct H as [H|[H|[H|[H|[]]]]]; injection H as <- <-; cbn; tauto.
    - intros [[-> ->]|[[<-|[<-|[<-|[]]]] ->]]; reflexivity.
  Qed.
  (** A key that is not known is not reported. *)
  Theorem C124_unknown_option_refuted ex (kw : dict string cell) k v : dget String.eqb default_query (V := cell) k = None -> query_dict ex ((k, v) :: kw) = query_dict ex kw.
  Proof. intros H. unfold query_dict. cbn [filter fst]. unfold dmem at 1. rewrite H. reflexivity. Qed.

  (** ** Selections *)
  Definition wf (t : frame) : Prop := NoDup (cols t) /\ forall r, In r (body t) -> dkeys r = cols t.
  Definition meets (q : dict string cell) (r : dict string cell) : Prop := forall k v, In (k, v) q -> exists c, dget String.eqb r k = Some c /\ ceq c v = true.
  Lemma meets_iff q r : forallb (holds r) q = true <-> meets q r.
  Proof.
    rewrite forallb_forall. unfold meets. split.
    - intros H k v I. specialize (H _ I). unfold holds in H. cbn in H. destruct (dget String.eqb r k) as [c|]; [|discriminate]. exists c. auto.
    - intros H [k v] I. unfold holds. cbn. destruct (H k v I) as (c & -> & E). exact E.
  Qed.
  Definition usable (t : frame) (q : dict string cell) : Prop := q <> [] /\ (forall k, In k (dkeys q) -> In k (cols t)) /\ forallb piece_ok q = true.
  Lemma select_unfold t q rm : usable t q -> select t q rm = let s := mkFr (cols t) (filter (fun r => forallb (holds r) q) (body t)) in if rm && Nat.ltb 1 (length (body s)) then remove_constant s else Ok s.
  Proof.
    intros (H1 & H2 & H3). unfold select. replace (existsb (fun k => negb (smem k (cols t))) (dkeys q)) with false.
    - destruct q; [congruence|]. rewrite H3. reflexivity.
    - symmetry. apply not_true_is_false. intros E. apply existsb_exists in E. destruct E as (k & I & E). apply H2 in I. apply smem_In in I. rewrite I in E. discriminate.
  Qed.
  Definition picks (t : frame) (q : dict string cell) (rows : list (dict string cell)) : Prop :=
    exists f, rows = filter f (body t) /\ forall r, In r (body t) -> (f r = true <-> meets q r).
  (** With all columns kept, the selection is the rows that meet the query, in order. *)
  Theorem C124_selected t q : usable t q -> exists s, select t q false = Ok s /\ cols s = cols t /\ picks t q (body s).
  Proof.
    intros U. rewrite (select_unfold _ _ _ U). eexists. split; [reflexivity|]. split; [reflexivity|]. exists (fun r => forallb (holds r) q). split; [reflexivity|]. intros r _. apply meets_iff.
  Qed.
  (** Otherwise the columns without two different values are left out as soon as
      there are two rows. *)
  Theorem C124_columns t q : wf t -> usable t q -> exists s rows, select t q true = Ok s /\ picks t q rows /\ length (body s) = length rows /\
    (length rows <= 1 -> cols s = cols t /\ body s = rows) /\
    (1 < length rows -> forall c, In c (cols s) <-> In c (cols t) /\ exists r r' x y, In r rows /\ In r' rows /\ dget String.eqb r c = Some x /\ dget String.eqb r' c = Some y /\ ceq x y = false) /\
    (forall n r r' c, nth_error rows n = Some r -> nth_error (body s) n = Some r' -> In c (cols s) -> dget String.eqb r' c = dget String.eqb r c).
  Proof.
    intros W U. rewrite (select_unfold _ _ _ U). cbv zeta. cbn [andb body]. set (rows := filter (fun r => forallb (holds r) q) (body t)).
    assert (P : picks t q rows) by (exists (fun r => forallb (holds r) q); split; [reflexivity|]; intros r _; apply meets_iff).
    destruct (Nat.ltb_spec 1 (length rows)) as [L|L].
    - unfold remove_constant. cbn [body cols]. destruct rows as [|r0 rest] eqn:Er; [cbn in L; lia|]. rewrite <- Er in *.
      assert (G : forall r c, In r rows -> In c (cols t) -> exists x, dget String.eqb r c = Some x).
      { intros r c I C. destruct (dget String.eqb r c) as [x|] eqn:E; [eauto|exfalso]. apply (dget_None _ String.eqb_spec) in E. apply E. rewrite (proj2 W r); [exact C|]. unfold rows in I. apply filter_In in I. apply I. }
      assert (I0 : In r0 rows) by (rewrite Er; left; reflexivity).
      eexists. exists rows. split; [reflexivity|]. split; [exact P|]. split; [cbn; rewrite map_length; reflexivity|]. split; [lia|]. cbn [cols body]. split.
      + intros _ c. rewrite filter_In, existsb_exists. split.
        * intros (C & r & I & E). split; [exact C|]. destruct (G r c I C) as (x & Ex), (G r0 c I0 C) as (y & Ey). exists r, r0, x, y. rewrite Ex, Ey in E. cbn in E. repeat split; auto. destruct (ceq x y); [discriminate|reflexivity].
        * intros (C & r & r' & x & y & I & I' & Ex & Ey & E). split; [exact C|]. destruct (G r0 c I0 C) as (z & Ez). destruct (ceq x z) eqn:E1; [|exists r; rewrite Ex, Ez; cbn; rewrite E1; auto]. exists r'. split; [exact I'|]. rewrite Ey, Ez. cbn. destruct (ceq y z) eqn:E2; [|reflexivity]. exfalso. rewrite ceq_sym in E2. rewrite (ceq_trans _ _ _ E1 E2) in E. discriminate.
      + intros n r r' c E E' C. rewrite nth_error_map in E'. match type of E' with option_map _ ?o = _ => replace o with (Some r) in E' by (rewrite <- E, ?Er; reflexivity) end. cbn in E'. injection E' as <-. rewrite (dget_filter (fun k => smem k _)). apply smem_In in C. rewrite C. reflexivity.
    - eexists. exists rows. split; [reflexivity|]. split; [exact P|]. split; [reflexivity|]. split; [auto|]. split; [lia|]. cbn [body cols]. intros n r r' c -> E _. congruence.
  Qed.
  (** So a column of results that happens to be constant in the selection is lost, and
      the shape of the result depends on the number of rows. *)
  Theorem C124_constant_result_refuted t q c v : wf t -> usable t q -> In c (cols t) -> forall s s', select t q false = Ok s -> select t q true = Ok s' -> 1 < length (body s) ->
    (forall r, In r (body s) -> dget String.eqb r c = Some v) -> ~ In c (cols s').
  Proof.
    intros W U C s s' E E' L H I. destruct (C124_columns t q W U) as (s1 & rows & E1 & (f & -> & Hf) & _ & _ & B & _). rewrite E' in E1. injection E1 as <-. rewrite (select_unfold _ _ _ U) in E. cbv zeta in E. cbn [andb] in E. injection E as <-. cbn [body] in *.
    assert (X : filter f (body t) = filter (fun r => forallb (holds r) q) (body t)). { apply filter_ext_in. intros r Ir. apply eq_true_iff_eq. rewrite Hf by exact Ir. symmetry. apply meets_iff. }
    rewrite X in B. apply (B L) in I. destruct I as (_ & r & r' & x & y & Ir & Ir' & Ex & Ey & D). rewrite (H r Ir) in Ex. rewrite (H r' Ir') in Ey. injection Ex as <-. injection Ey as <-. rewrite ceq_refl in D. discriminate.
  Qed.
  Theorem C124_query_columns t q k : wf t -> usable t q -> In k (dkeys q) -> forall s, select t q true = Ok s -> (In k (cols s) <-> length (body s) <= 1).
  Proof.
    intros W U I s E. destruct (C124_columns t q W U) as (s1 & rows & E1 & (f & -> & Hf) & L & A & B & _). rewrite E in E1. injection E1 as <-. rewrite L. split.
    - intros Ik. destruct (Nat.le_gt_cases (length (filter f (body t))) 1) as [|G]; [assumption|exfalso]. apply (B G) in Ik. destruct Ik as (_ & r & r' & x & y & Ir & Ir' & Ex & Ey & D). unfold dkeys in I. apply in_map_iff in I. destruct I as ((k' & v) & Ek & I). cbn in Ek. subst k'.
      apply filter_In in Ir, Ir'. destruct Ir as [Ib Ir], Ir' as [Ib' Ir']. apply (Hf r Ib) in Ir. apply (Hf r' Ib') in Ir'. destruct (Ir k v I) as (c & E1 & E2), (Ir' k v I) as (c' & E1' & E2'). rewrite Ex in E1. rewrite Ey in E1'. injection E1 as <-. injection E1' as <-. rewrite ceq_sym in E2'. rewrite (ceq_trans _ _ _ E2 E2') in D. discriminate.
    - intros G. destruct (A G) as [-> _]. apply (proj1 (proj2 U)). exact I.
  Qed.
  Theorem C124_unknown_key t q rm : (exists k, In k (dkeys q) /\ ~ In k (cols t)) -> select t q rm = Err EKeyError.
  Proof.
    intros (k & I & N). unfold select. replace (existsb (fun k => negb (smem k (cols t))) (dkeys q)) with true; [reflexivity|]. symmetry. apply existsb_exists. exists k. split; [exact I|]. destruct (smem k (cols t)) eqn:E; [|reflexivity]. apply smem_In in E. contradiction.
  Qed.
  (** An empty query does not select everything. *)
  Theorem C124_empty_query_refuted t rm : select t [] rm = Err EValueError.
  Proof. reflexivity. Qed.
End Props.

Lemma rmapM_back {A B} (f : A -> res B) l ys a : rmapM f l = Ok ys -> In a l -> exists b, f a = Ok b /\ In b ys.
Proof. intros H I. destruct (In_nth_error _ _ I) as (n & E). destruct (rmapM_nth f l ys n a H E) as (b & Eb & ?). exists b. split; [assumption|]. apply nth_error_In in Eb. exact Eb. Qed.
Lemma nodup_app {A} (l m : list A) : NoDup l -> NoDup m -> (forall x, In x l -> ~ In x m) -> NoDup (l ++ m).
Proof.
  induction l as [|x l IH]; intros Nl Nm H; [exact Nm|]. inversion Nl; subst. cbn. constructor; [|apply IH; auto; intros y Hy; apply H; right; exact Hy]. rewrite in_app_iff. intros [?|?]; [contradiction|]. apply (H x); [left; reflexivity|assumption].
Qed.

Section Index.
  Context {F : Type} {K : Fld F} {O : OFld (F := F)} {I : Type} (ieqb : I -> I -> bool) (ispec : forall a b, reflect (a = b) (ieqb a b)).
  Notation row := (dict string F).
  Notation itab := (itab F I).
  Notation keqb := (keqb ieqb).
  Lemma kspec a b : reflect (a = b) (keqb a b).
  Proof.
    destruct a as [m i], b as [n j]. unfold ResTabModel.keqb. cbn [fst snd]. destruct (String.eqb_spec m n) as [->|], (ispec i j) as [->|]; cbn; constructor; congruence.
  Qed.
  Notation at_ t k := (dget keqb t k).
  (** The value of a column in the row of a matrix. *)
  Definition value (t : itab) (k : string * I) (c : string) : option F := match at_ t k with Some r => dget String.eqb r c | None => None end.
  Lemma loc_get (t : itab) f l i : loc t f = Ok l -> dget ieqb l i = at_ t (f, i).
  Proof.
    unfold loc. intros H. assert (E : l = map (fun kr : (string * I) * row => (snd (fst kr), snd kr)) (filter (fun kr => String.eqb (fst (fst kr)) f) t)) by (destruct (filter _ t); [discriminate|injection H as <-; reflexivity]). subst l. clear H.
    induction t as [|[[g j] r] t IH]; [reflexivity|]. cbn [filter fst]. unfold ResTabModel.keqb. cbn [dget]. cbn [fst snd]. destruct (String.eqb g f); cbn [andb map dget fst snd]; [destruct (ieqb j i); [reflexivity|exact IH]|exact IH].
  Qed.
  Lemma loc_keys (t : itab) f l i : loc t f = Ok l -> (In i (map fst l) <-> In (f, i) (map fst t)).
  Proof.
    unfold loc. intros H. assert (E : l = map (fun kr : (string * I) * row => (snd (fst kr), snd kr)) (filter (fun kr => String.eqb (fst (fst kr)) f) t)) by (destruct (filter _ t); [discriminate|injection H as <-; reflexivity]). subst l. clear H. rewrite map_map. rewrite !in_map_iff. split.
    - intros ([[g j] r] & E & H). apply filter_In in H. destruct H as [H Q]. cbn in *. apply String.eqb_eq in Q. subst. exists ((f, i), r). auto.
    - intros ([[g j] r] & E & H). cbn in E. injection E as -> ->. exists ((f, i), r). split; [reflexivity|]. apply filter_In. split; [exact H|]. cbn. apply String.eqb_refl.
  Qed.
  Lemma loc_nodup (t : itab) f l : loc t f = Ok l -> NoDup (map fst t) -> NoDup (map fst l).
  Proof.
    unfold loc. intros H. assert (E : l = map (fun kr : (string * I) * row => (snd (fst kr), snd kr)) (filter (fun kr => String.eqb (fst (fst kr)) f) t)) by (destruct (filter _ t); [discriminate|injection H as <-; reflexivity]). subst l. clear H. rewrite map_map. cbn [fst].
    induction t as [|[[g j] r] t IH]; intros N; [constructor|]. inversion N as [|? ? N1 N2]; subst. cbn [filter fst]. destruct (String.eqb_spec g f) as [->|]; [|apply IH; exact N2]. cbn [map fst snd]. constructor; [|apply IH; exact N2]. intros H. apply N1. apply in_map_iff in H. destruct H as ([[g j'] r'] & E & H). apply filter_In in H. destruct H as [H Q]. cbn in *. apply String.eqb_eq in Q. subst. apply in_map_iff. exists ((f, j), r'). auto.
  Qed.
  Lemma loc_err (t : itab) f : (loc t f = Err EKeyError <-> forall i, ~ In (f, i) (map fst t)) /\ ((exists i, In (f, i) (map fst t)) -> exists l, loc t f = Ok l).
  Proof.
    unfold loc. assert (X : forall i r, In ((f, i), r) t <-> In ((f, i), r) (filter (fun kr => String.eqb (fst (fst kr)) f) t)) by (intros i r; rewrite filter_In; cbn; rewrite String.eqb_refl; tauto).
    destruct (filter _ t) as [|[[g j] r] l] eqn:E.
    - split; [split; [|reflexivity]|].
      + intros _ i H. apply in_map_iff in H. destruct H as ((k & r) & Ek & H). cbn in Ek. subst k. apply X in H. destruct H.
      + intros (i & H). exfalso. apply in_map_iff in H. destruct H as ((k & r) & Ek & H). cbn in Ek. subst k. apply X in H. destruct H.
    - split; [split; [discriminate|]|eauto]. intros H. exfalso. assert (Y : In ((g, j), r) (filter (fun kr => String.eqb (fst (fst kr)) f) t)) by (rewrite E; left; reflexivity). apply filter_In in Y. destruct Y as [Y Q]. cbn in Q. apply String.eqb_eq in Q. subst. apply (H j). apply in_map_iff. exists ((f, j), r). auto.
  Qed.
  Definition minus (op : F -> F -> F) (x y : option F) : option F := match x, y with Some x, Some y => Some (op x y) | _, _ => None end.
  Lemma combine_spec op (t : itab) m ref a b : NoDup (map fst t) -> loc t m = Ok a -> loc t ref = Ok b -> NoDup (map fst (combine ieqb op a b)) /\
    (forall i, In i (map fst (combine ieqb op a b)) <-> In (m, i) (map fst t) \/ In (ref, i) (map fst t)) /\
    forall i g c, In (i, g) (combine ieqb op a b) -> g c = minus op (value t (m, i) c) (value t (ref, i) c).
  Proof.
    intros N A B. assert (M : map fst (combine ieqb op a b) = map fst a ++ filter (fun i => negb (existsb (ieqb i) (map fst a))) (map fst b)) by (unfold combine; rewrite map_map; cbn [fst]; apply map_id).
    assert (X : forall i l, existsb (ieqb i) l = true <-> In i l). { intros i l. rewrite existsb_exists. split; [intros (j & H & E); destruct (ispec i j); [subst; exact H|discriminate]|intros H; exists i; split; [exact H|destruct (ispec i i); congruence]]. }
    split; [|split].
    - rewrite M. pose proof (loc_nodup _ _ _ A N) as Na. pose proof (loc_nodup _ _ _ B N) as Nb. apply nodup_app; [exact Na|apply NoDup_filter; exact Nb|]. intros i H H'. apply filter_In in H'. destruct H' as [_ H']. apply X in H. rewrite H in H'. discriminate.
    - intros i. rewrite M, in_app_iff, filter_In, (loc_keys _ _ _ i A), (loc_keys _ _ _ i B). split; [tauto|]. intros [H|H]; [tauto|]. destruct (existsb (ieqb i) (map fst a)) eqn:E; [left; apply (loc_keys _ _ _ i A); apply X; exact E|right; auto].
    - intros i g c H. unfold combine in H. apply in_map_iff in H. destruct H as (j & E & _). injection E as -> <-. rewrite (loc_get _ _ _ i A), (loc_get _ _ _ i B). unfold value, minus. destruct (at_ t (m, i)) as [r|]; [|reflexivity]. destruct (at_ t (ref, i)) as [r'|]; [|destruct (dget String.eqb r c); reflexivity]. reflexivity.
  Qed.
  (** Differences with respect to a matrix: for each combination of the other levels
      that one of the two has, the difference where both have it. *)
  Theorem C124_difference op (t : itab) ref m : NoDup (map fst t) -> (exists i, In (m, i) (map fst t)) -> (exists i, In (ref, i) (map fst t)) ->
    exists d, difference ieqb op t ref m = Ok d /\ NoDup (map fst d) /\ (forall i, In i (map fst d) <-> In (m, i) (map fst t) \/ In (ref, i) (map fst t)) /\
      forall i g c, In (i, g) d -> g c = minus op (value t (m, i) c) (value t (ref, i) c).
  Proof.
    intros N Hm Hr. destruct (proj2 (loc_err t m) Hm) as (a & A), (proj2 (loc_err t ref) Hr) as (b & B). unfold difference. rewrite A, B. cbn [rbind]. eexists. split; [reflexivity|]. apply combine_spec; assumption.
  Qed.
  Theorem C124_difference_unknown op (t : itab) ref m : (forall i, ~ In (m, i) (map fst t)) \/ (forall i, ~ In (ref, i) (map fst t)) -> difference ieqb op t ref m = Err EKeyError.
  Proof.
    intros H. unfold difference. destruct H as [H|H]; apply (proj1 (loc_err _ _)) in H; rewrite H; [reflexivity|]. unfold loc. destruct (filter _ t) as [|x l]; reflexivity.
  Qed.
  (** The percentage is the difference relative to the reference. *)
  Add Field ResFld2 : (@fth F K).
  Theorem C124_percentage (x y : F) : y <> fz -> (pct x y * y = f100 * (x - y))%F /\ (pct x y = fz <-> (f100 * (x - y))%F = fz) /\ (pct y y = fz).
  Proof.
    intros N. assert (E : (pct x y * y = f100 * (x - y))%F) by (unfold pct; field; exact N). split; [exact E|]. split.
    - split; [intros Z; rewrite Z in E; rewrite <- E; ring|]. intros Z. unfold pct. rewrite Z. field. exact N.
    - unfold pct. field. exact N.
  Qed.

  (** ** The table of figures of merit *)
  Lemma value_sub (t : itab) names s k c : sub_for t names = Ok s -> value s k c = if smem (fst k) names then value t k c else None.
  Proof.
    unfold sub_for. destruct (forallb _ names); [|discriminate]. intros E. injection E as <-. unfold value. induction t as [|[[g j] r] t IH]; [cbn; destruct (smem _ names); reflexivity|]. cbn [filter fst]. destruct k as [n i]. cbn [fst] in *. destruct (smem g names) eqn:E; cbn [dget]; destruct (kspec (g, j) (n, i)) as [Q|]; try exact IH.
    - injection Q as -> ->. rewrite E. reflexivity.
    - injection Q as -> ->. rewrite E in *. exact IH.
  Qed.
  Definition delta (op : F -> F -> F) (t : itab) (dfom : dict string string) (k : string * I) : option F :=
    match dget String.eqb dfom (fst k) with Some ref => minus op (value t k "FoM") (value t (ref, snd k) "FoM") | None => None end.
  Lemma fom_column op (s : itab) dfom ds k : NoDup (map fst s) ->
    rmapM (fun m => match dget String.eqb dfom m with Some ref => d <- difference ieqb op s ref m ;; Ok (map (fun ir => ((m, fst ir), snd ir)) d) | None => Ok [] end)
      (filter (fun m => dmem String.eqb dfom m) (map (fun kr => fst (fst kr)) s)) = Ok ds -> In k (map fst s) ->
    match dget keqb (concat ds) k with Some g => g "FoM" | None => None end = delta op s dfom k.
  Proof.
    intros N H Ik. destruct k as [m i]. unfold delta. cbn [fst snd].
    assert (A : forall n j g, In ((n, j), g) (concat ds) -> exists ref, dget String.eqb dfom n = Some ref /\ forall c, g c = minus op (value s (n, j) c) (value s (ref, j) c)).
    { intros n j g Hg. apply in_concat in Hg. destruct Hg as (l & Il & Hg). destruct (In_nth_error _ _ Il) as (q & Eq). destruct (rmapM_In _ _ _ _ H Il) as (m' & _ & E). destruct (dget String.eqb dfom m') as [ref|] eqn:Ed; [|injection E as <-; destruct Hg]. unfold difference in E. destruct (loc s m') as [a|] eqn:La; cbn [rbind] in E; [|discriminate]. destruct (loc s ref) as [b|] eqn:Lb; cbn [rbind] in E; [|discriminate]. injection E as <-. apply in_map_iff in Hg. destruct Hg as ((j' & g') & E & Hg). injection E as <- <- <-. cbn [fst snd]. exists ref. split; [exact Ed|]. intros c. apply (proj2 (proj2 (combine_spec op s m' ref a b N La Lb))). exact Hg. }
    destruct (dget keqb (concat ds) (m, i)) as [g|] eqn:E.
    - apply (dget_In _ kspec) in E. apply A in E. destruct E as (ref & -> & G). apply G.
    - destruct (dget String.eqb dfom m) as [ref|] eqn:Ed; [|reflexivity]. exfalso. apply (dget_None _ kspec) in E. apply E. clear E.
      assert (Im : In m (filter (fun m => dmem String.eqb dfom m) (map (fun kr => fst (fst kr)) s))). { apply filter_In. split; [apply in_map_iff in Ik; destruct Ik as (kr & E & Ik); apply in_map_iff; exists kr; rewrite E; auto|unfold dmem; rewrite Ed; reflexivity]. }
      destruct (rmapM_back _ _ _ _ H Im) as (l & E & Il). rewrite Ed in E. unfold difference in E. destruct (loc s m) as [a|] eqn:La; cbn [rbind] in E; [|discriminate]. destruct (loc s ref) as [b|] eqn:Lb; cbn [rbind] in E; [|discriminate]. injection E as <-.
      pose proof (proj2 (proj1 (proj2 (combine_spec op s m ref a b N La Lb)) i) (or_introl Ik)) as X. apply in_map_iff in X. destruct X as ((i' & g) & E & X). cbn in E. subst i'. unfold dkeys. apply in_map_iff. exists ((m, i), g). split; [reflexivity|]. apply in_concat. eexists. split; [exact Il|]. apply in_map_iff. exists (i, g). auto.
  Qed.
  Notation fom_table := (fom_table ieqb).
  Lemma sub_In (t s : itab) names kr : sub_for t names = Ok s -> (In kr s <-> In kr t /\ In (fst (fst kr)) names).
  Proof. unfold sub_for. destruct (forallb _ names); [|discriminate]. intros E. injection E as <-. rewrite filter_In, smem_In. tauto. Qed.
  Lemma sub_nodup (t s : itab) names : sub_for t names = Ok s -> NoDup (map fst t) -> NoDup (map fst s).
  Proof.
    unfold sub_for. destruct (forallb _ names); [|discriminate]. intros E. injection E as <-. induction t as [|x t IH]; intros N; [constructor|]. inversion N as [|? ? N1 N2]; subst. cbn [filter]. destruct (smem _ names); [|apply IH; exact N2]. cbn. constructor; [|apply IH; exact N2]. intros H. apply N1. apply in_map_iff in H. destruct H as (y & E & H). apply filter_In in H. apply in_map_iff. exists y. tauto.
  Qed.
  Lemma fom_inv (t : itab) fishers dfom r : fom_table t fishers dfom = Ok r -> exists s ds dp, sub_for t fishers = Ok s /\
    (forall op es, (op = fsub /\ es = ds) \/ (op = pct /\ es = dp) -> rmapM (fun m => match dget String.eqb dfom m with Some ref => d <- difference ieqb op s ref m ;; Ok (map (fun ir => ((m, fst ir), snd ir)) d) | None => Ok [] end)
      (filter (fun m => dmem String.eqb dfom m) (map (fun kr => fst (fst kr)) s)) = Ok es) /\
    r = map (fun kr => (fst kr, (match dget keqb (concat ds) (fst kr) with Some g => g "FoM" | None => None end, match dget keqb (concat dp) (fst kr) with Some g => g "FoM" | None => None end, snd kr))) s.
  Proof.
    unfold ResTabModel.fom_table. intros H. destruct (sub_for t fishers) as [s|]; cbn [rbind] in H; [|discriminate]. cbv zeta in H.
    match type of H with rbind ?a _ = _ => destruct a as [ds|] eqn:E1; cbn [rbind] in H; [|discriminate] end. match type of H with rbind ?a _ = _ => destruct a as [dp|] eqn:E2; cbn [rbind] in H; [|discriminate] end.
    exists s, ds, dp. split; [reflexivity|]. split; [intros op es [[-> ->]|[-> ->]]; assumption|]. destruct (filter _ _) as [|m ms]; [discriminate|]. destruct (forallb _ s); [|discriminate]. injection H as <-. reflexivity.
  Qed.
  (** The table holds the rows of the given matrices with the differences of the
      figures of merit. *)
  Theorem C124_fom (t : itab) fishers dfom r : NoDup (map fst t) -> fom_table t fishers dfom = Ok r ->
    NoDup (map fst r) /\ (forall k, In k (map fst r) <-> In k (map fst t) /\ In (fst k) fishers) /\
    forall k a b row, In (k, (a, b, row)) r -> at_ t k = Some row /\ a = delta fsub t dfom k /\ b = delta pct t dfom k.
  Proof.
    intros N H. destruct (fom_inv _ _ _ _ H) as (s & ds & dp & S & D & ->). pose proof (sub_nodup _ _ _ S N) as Ns. rewrite map_map. cbn [fst].
    assert (Mk : map (fun kr : string * I * row => fst kr) s = map fst s) by reflexivity. rewrite Mk. split; [exact Ns|]. split.
    - intros k. rewrite !in_map_iff. split.
      + intros (kr & <- & Ik). apply (sub_In _ _ _ _ S) in Ik. split; [exists kr; tauto|tauto].
      + intros [(kr & <- & Ik) If]. exists kr. split; [reflexivity|]. apply (sub_In _ _ _ _ S). auto.
    - intros k a b row Ir. apply in_map_iff in Ir. destruct Ir as ((k' & row') & E & Ir). cbn [fst snd] in E. injection E as E1 E2 E3 E4. subst k' row'.
      assert (Ik : In k (map fst s)) by (apply in_map_iff; exists (k, row); auto).
      rewrite (fom_column fsub s dfom ds k Ns (D fsub ds (or_introl (conj eq_refl eq_refl))) Ik) in E2. rewrite (fom_column pct s dfom dp k Ns (D pct dp (or_intror (conj eq_refl eq_refl))) Ik) in E3.
      assert (It : In (k, row) t /\ In (fst k) fishers) by exact (proj1 (sub_In t s fishers (k, row) S) Ir). destruct It as [It If]. split; [apply (dget_NoDup_In _ kspec); assumption|].
      assert (X : forall op, delta op s dfom k = delta op t dfom k).
      { intros op. unfold delta. destruct (dget String.eqb dfom (fst k)) as [ref|] eqn:Ed; [|reflexivity]. rewrite !(value_sub _ _ _ _ _ S). cbn [fst]. apply smem_In in If. rewrite If.
        assert (Rf : smem ref fishers = true); [|rewrite Rf; reflexivity].
        assert (Im : In (fst k) (filter (fun m => dmem String.eqb dfom m) (map (fun kr : string * I * dict string F => fst (fst kr)) s))) by (apply filter_In; split; [apply in_map_iff; exists (k, row); auto|unfold dmem; rewrite Ed; reflexivity]).
        destruct (rmapM_back _ _ _ _ (D fsub ds (or_introl (conj eq_refl eq_refl))) Im) as (l & El & _). rewrite Ed in El. unfold difference in El. destruct (loc s (fst k)) as [u|]; cbn [rbind] in El; [|discriminate]. destruct (loc s ref) as [v|] eqn:Lv; cbn [rbind] in El; [|discriminate].
        destruct (smem ref fishers) eqn:Q; [reflexivity|exfalso]. assert (Y : loc s ref = Err EKeyError); [|congruence]. apply (proj1 (loc_err s ref)). intros i Hi. apply in_map_iff in Hi. destruct Hi as ((k' & r') & E & Hi). cbn in E. subst k'. apply (sub_In _ _ _ _ S) in Hi. destruct Hi as [_ Hi]. cbn in Hi. apply smem_In in Hi. congruence. }
      rewrite <- !X. split; congruence.
  Qed.
  Theorem C124_fom_total (t : itab) fishers dfom : (forall f, In f fishers -> exists i, In (f, i) (map fst t)) ->
    (forall m ref, In m fishers -> dget String.eqb dfom m = Some ref -> In ref fishers) -> (exists m ref, In m fishers /\ dget String.eqb dfom m = Some ref) ->
    (forall k row, In (k, row) t -> In (fst k) fishers -> exists x, dget String.eqb row "FoM" = Some x) -> exists r, fom_table t fishers dfom = Ok r.
  Proof.
    intros H1 H2 (m0 & ref0 & Im0 & Em0) H4. unfold ResTabModel.fom_table.
    assert (S : exists s, sub_for t fishers = Ok s). { unfold sub_for. replace (forallb _ fishers) with true; [eauto|]. symmetry. apply forallb_forall. intros f If. apply smem_In. destruct (H1 f If) as (i & Ii). apply in_map_iff in Ii. destruct Ii as (kr & E & Ii). apply in_map_iff. exists kr. rewrite E. auto. }
    destruct S as (s & S). rewrite S. cbn [rbind]. cbv zeta.
    assert (P : forall f, In f fishers -> exists i, In (f, i) (map fst s)). { intros f If. destruct (H1 f If) as (i & Ii). exists i. apply in_map_iff in Ii. destruct Ii as ((k & r) & E & Ii). cbn in E. subst k. apply in_map_iff. exists ((f, i), r). split; [reflexivity|]. apply (sub_In _ _ _ _ S). auto. }
    assert (G : forall op, exists es, rmapM (fun m => match dget String.eqb dfom m with Some ref => d <- difference ieqb op s ref m ;; Ok (map (fun ir => ((m, fst ir), snd ir)) d) | None => Ok [] end)
      (filter (fun m => dmem String.eqb dfom m) (map (fun kr : string * I * row => fst (fst kr)) s)) = Ok es).
    { intros op. apply rmapM_total. intros m Im. destruct (dget String.eqb dfom m) as [ref|] eqn:Ed; [|eauto]. apply filter_In in Im. destruct Im as [Im _]. apply in_map_iff in Im. destruct Im as (kr & <- & Im). apply (sub_In _ _ _ _ S) in Im. destruct Im as [_ Im]. unfold difference. destruct (proj2 (loc_err s _) (P _ Im)) as (a & ->), (proj2 (loc_err s ref) (P _ (H2 _ _ Im Ed))) as (b & ->). cbn [rbind]. eauto. }
    destruct (G fsub) as (ds & ->), (G pct) as (dp & ->). cbn [rbind].
    assert (Q : In m0 (filter (fun m => dmem String.eqb dfom m) (map (fun kr : string * I * row => fst (fst kr)) s))). { apply filter_In. split; [|unfold dmem; rewrite Em0; reflexivity]. destruct (P _ Im0) as (i & Ii). apply in_map_iff in Ii. destruct Ii as (kr & E & Ii). apply in_map_iff. exists kr. rewrite E. auto. }
    destruct (filter _ (map _ s)) as [|m ms]; [destruct Q|]. replace (forallb _ s) with true; [eauto|]. symmetry. apply forallb_forall. intros [k row] Ik. apply (sub_In _ _ _ _ S) in Ik. cbn [snd]. unfold dmem. destruct (H4 k row (proj1 Ik) (proj2 Ik)) as (x & ->). reflexivity.
  Qed.
  (** With no other level in the index there is no table. *)
  Theorem C124_fom_flat_refuted (t : dict string row) fishers dfom : fom_table_flat t fishers dfom <> Ok tt.
  Proof.
    unfold fom_table_flat. destruct (forallb _ fishers); [|discriminate]. cbv zeta. match goal with |- rbind ?a _ <> _ => destruct a; cbn [rbind]; [|discriminate] end. destruct (filter _ _); [discriminate|]. destruct (smem _ _); discriminate.
  Qed.

  (** ** Rows of four bins *)
  Notation hkey := (hkey F I).
  Notation hkeqb := (hkeqb (F := F) ieqb).
  Lemma hspec (a b : hkey) : reflect (a = b) (hkeqb a b).
  Proof.
    destruct a as [[m x] i], b as [[n y] j]. unfold ResTabModel.hkeqb. cbn [fst snd]. destruct (String.eqb_spec m n) as [->|], (fdec x y) as [->|], (ispec i j) as [->|]; cbn; constructor; congruence.
  Qed.
  Definition hybrid (k : hkey) : Prop := (exists a b, fst (fst k) = (a ++ "GCsp(Pk)" ++ b)%string) /\ snd (fst k) <> (fo + fo + fo + fo)%F.
  Definition source_of (k : hkey) : hkey := ((fst (fst k), (fo + fo + fo + fo)%F), snd k).
  Lemma hybrid_iff k : (occurs "GCsp(Pk)" (fst (fst k)) && negb (if fdec (snd (fst k)) four then true else false)) = true <-> hybrid k.
  Proof.
    unfold hybrid. change (fo + fo + fo + fo)%F with four. rewrite andb_true_iff, occurs_iff. destruct (fdec (snd (fst k)) four) as [E|E]; cbn; split; intros [A B]; split; auto; try discriminate; contradiction.
  Qed.
  Lemma dset_keys_mem {V} (d : dict hkey V) k v : In k (dkeys d) -> dkeys (dset hkeqb d k v) = dkeys d.
  Proof.
    induction d as [|[a w] d IH]; intros H; [destruct H|]. cbn [dset]. destruct (hspec a k) as [->|]; [reflexivity|]. cbn. f_equal. apply IH. destruct H as [H|H]; [cbn in H; congruence|exact H].
  Qed.
  Theorem C124_hybrid (t : dict hkey row) : (forall k, In k (dkeys t) -> hybrid k -> In (source_of k) (dkeys t)) ->
    exists r, replace_hybrid ieqb t = Ok r /\ dkeys r = dkeys t /\ forall k, In k (dkeys t) -> (hybrid k -> dget hkeqb r k = dget hkeqb t (source_of k)) /\ (~ hybrid k -> dget hkeqb r k = dget hkeqb t k).
  Proof.
    intros H. unfold replace_hybrid.
    assert (X : forall ks u, dkeys u = dkeys t -> incl ks (dkeys t) -> (forall k, ~ hybrid k -> dget hkeqb u k = dget hkeqb t k) -> (forall k, hybrid k -> In k (dkeys t) -> dget hkeqb u k = dget hkeqb t (source_of k) \/ In k ks) ->
      exists r, fold_left (fun acc k => t <- acc ;; replace_one ieqb t k) ks (Ok u) = Ok r /\ dkeys r = dkeys t /\ forall k, In k (dkeys t) -> (hybrid k -> dget hkeqb r k = dget hkeqb t (source_of k)) /\ (~ hybrid k -> dget hkeqb r k = dget hkeqb t k)).
    { induction ks as [|k ks IH]; intros u Hk Hi H1 H2.
      - exists u. split; [reflexivity|]. split; [exact Hk|]. intros k Ik. split; [intros Hy; destruct (H2 k Hy Ik) as [E|[]]; exact E|apply H1].
      - cbn [fold_left rbind]. unfold replace_one at 2. destruct (occurs "GCsp(Pk)" (fst (fst k)) && negb (if fdec (snd (fst k)) four then true else false)) eqn:E.
        + apply hybrid_iff in E. assert (Ik : In k (dkeys t)) by (apply Hi; left; reflexivity). change ((fst (fst k), four), snd k) with (source_of k).
          assert (Ns : ~ hybrid (source_of k)) by (intros [_ Q]; apply Q; reflexivity). rewrite (H1 _ Ns).
          destruct (dget hkeqb t (source_of k)) as [r|] eqn:Er; [|exfalso; apply (dget_None _ hspec) in Er; apply Er; apply H; assumption].
          apply IH.
          * rewrite dset_keys_mem; [exact Hk|rewrite Hk; exact Ik].
          * intros x Hx. apply Hi. right. exact Hx.
          * intros k' Hn. rewrite (dget_dset_other _ hspec) by (intros <-; contradiction). apply H1. exact Hn.
          * intros k' Hy Ik'. destruct (hspec k' k) as [->|Nk]; [left; rewrite (dget_dset_same _ hspec); auto|]. rewrite (dget_dset_other _ hspec) by congruence. destruct (H2 k' Hy Ik') as [?|[?|?]]; [auto|congruence|auto].
        + apply IH; [exact Hk|intros x Hx; apply Hi; right; exact Hx|exact H1|]. intros k' Hy Ik'. destruct (H2 k' Hy Ik') as [?|[<-|?]]; [auto| |auto]. apply hybrid_iff in Hy. congruence. }
    apply X; [reflexivity|apply incl_refl|reflexivity|]. intros k _ Ik. right. exact Ik.
  Qed.
  Theorem C124_hybrid_missing (t : dict hkey row) k : In k (dkeys t) -> hybrid k -> ~ In (source_of k) (dkeys t) -> replace_hybrid ieqb t = Err EKeyError.
  Proof.
    intros Ik Hy Hs. unfold replace_hybrid.
    assert (Er : forall ks e, fold_left (fun (acc : res (dict hkey row)) k => t <- acc ;; replace_one ieqb t k) ks (Err e) = Err e) by (induction ks; intros e; [reflexivity|apply IHks]).
    assert (X : forall ks u, dkeys u = dkeys t -> incl ks (dkeys t) -> In k ks -> fold_left (fun acc k => t <- acc ;; replace_one ieqb t k) ks (Ok u) = Err EKeyError).
    { induction ks as [|q ks IH]; intros u Hk Hi Iq; [destruct Iq|]. cbn [fold_left rbind]. unfold replace_one at 2. destruct (occurs "GCsp(Pk)" (fst (fst q)) && negb (if fdec (snd (fst q)) four then true else false)) eqn:E.
      - change ((fst (fst q), four), snd q) with (source_of q). destruct (dget hkeqb u (source_of q)) as [r|] eqn:Eg; [|apply Er]. destruct Iq as [->|Iq].
        + exfalso. apply Hs. rewrite <- Hk. apply (dget_In _ hspec) in Eg. unfold dkeys. apply in_map_iff. exists (source_of k, r). auto.
        + apply IH; [rewrite dset_keys_mem; [exact Hk|rewrite Hk; apply Hi; left; reflexivity]|intros x Hx; apply Hi; right; exact Hx|exact Iq].
      - apply IH; [exact Hk|intros x Hx; apply Hi; right; exact Hx|]. destruct Iq as [->|Iq]; [apply hybrid_iff in Hy; congruence|exact Iq]. }
    apply X; [reflexivity|apply incl_refl|exact Ik].
  Qed.
End Index.

Section Latex.
  Context {F : Type} {K : Fld F} {O : OFld (F := F)} (fmt2 fmt : F -> string).
  Notation lcell := (lcell F).
  Notation latex_row := (latex_row fmt2 fmt).
  Lemma errors_numbers (es : list (string * F)) : rmapM (fun c : string * lcell => lnum (snd c)) (map (fun nx => (fst nx, LN (snd nx))) es) = Ok (map snd es).
  Proof. induction es as [|e es IH]; [reflexivity|]. cbn [map rmapM snd]. cbn [lnum rbind]. rewrite IH. reflexivity. Qed.
  Definition errors (es : list (string * F)) : list (string * lcell) := map (fun nx => (fst nx, LN (snd nx))) es.
  (** The row of a matrix: bins, name, figure of merit, its change, the errors. *)
  Theorem C124_latex n f x es ref d : (match ref with
      | None => d = "--"
      | Some y => y <> fz /\ flt fz (f100 * (x - y) / y)%F /\ d = ("+" ++ fmt2 (f100 * (x - y) / y)%F ++ "\%")%string end) ->
    latex_row (("nbins", LT n) :: ("fisher", LT f) :: ("FoM", LN x) :: errors es) ref =
    Ok (n ++ " & " ++ f ++ " & " ++ fmt2 x ++ " & " ++ d ++ " & " ++ join " & " (map fmt (map snd es)) ++ " \\")%string.
  Proof.
    intros H. unfold ResTabModel.latex_row, ResTabModel.get. cbn [dget String.eqb Ascii.eqb Bool.eqb rbind lnum ltext skipn]. unfold errors. destruct ref as [y|].
    - destruct H as (N & [P1 P2] & ->). destruct (fdec y fz); [contradiction|]. unfold delta_text. destruct (fle_dec (f100 * (x - y) / y)%F fz) as [L|]; [exfalso; apply P2; apply fle_antisym; assumption|]. cbn [rbind]. rewrite errors_numbers. cbn [rbind]. rewrite !sapp_assoc. reflexivity.
    - subst d. cbn [rbind]. rewrite errors_numbers. cbn [rbind]. rewrite !sapp_assoc. reflexivity.
  Qed.
  (** A decrease is printed with two signs. *)
  Theorem C124_decrease_refuted n f x es y : y <> fz -> flt (f100 * (x - y) / y)%F fz ->
    fmt2 (f100 * (x - y) / y)%F = ("-" ++ fmt2 (- (f100 * (x - y) / y))%F)%string ->
    latex_row (("nbins", LT n) :: ("fisher", LT f) :: ("FoM", LN x) :: errors es) (Some y) =
    Ok (n ++ " & " ++ f ++ " & " ++ fmt2 x ++ " & --" ++ fmt2 (- (f100 * (x - y) / y))%F ++ "\% & " ++ join " & " (map fmt (map snd es)) ++ " \\")%string.
  Proof.
    intros N [L _] E. unfold ResTabModel.latex_row, ResTabModel.get. cbn [dget String.eqb Ascii.eqb Bool.eqb rbind lnum ltext skipn]. destruct (fdec y fz); [contradiction|]. unfold delta_text. destruct (fle_dec (f100 * (x - y) / y)%F fz); [|contradiction]. cbn [rbind]. unfold errors. rewrite errors_numbers. cbn [rbind]. rewrite E, !sapp_assoc. reflexivity.
  Qed.
  (** Without the column of bins the first error is left out. *)
  Theorem C124_no_bins_refuted f x e es : ~ In "nbins" (map fst (e :: es)) -> latex_row (("fisher", LT f) :: ("FoM", LN x) :: errors (e :: es)) None =
    Ok (f ++ " & " ++ fmt2 x ++ " & -- & " ++ join " & " (map fmt (map snd es)) ++ " \\")%string.
  Proof.
    intros N. assert (X : dget String.eqb (errors (e :: es)) "nbins" = None). { apply (dget_None _ String.eqb_spec). intros I. apply N. unfold dkeys, errors in I. rewrite map_map in I. exact I. }
    unfold ResTabModel.latex_row, ResTabModel.get. change (dget String.eqb (("fisher", LT f) :: ("FoM", LN x) :: errors (e :: es)) "nbins") with (dget String.eqb (errors (e :: es)) "nbins"). rewrite X.
    cbn [dget String.eqb Ascii.eqb Bool.eqb rbind lnum ltext skipn errors map]. fold (errors es). unfold errors. rewrite errors_numbers. cbn [rbind]. reflexivity.
  Qed.
End Latex.

(** ** A table *)
Definition ex_frame : frame Qc := mkFr ["fisher"; "scenario"; "shot_noise_sp_reduced"; "FoM"; "h"]
  [[("fisher", CS "[GCph]"); ("scenario", CS "optimistic"); ("shot_noise_sp_reduced", CB false); ("FoM", CN (qz 40)); ("h", CN (qq 1 2))];
   [("fisher", CS "[GCph]"); ("scenario", CS "pessimistic"); ("shot_noise_sp_reduced", CB false); ("FoM", CN (qz 20)); ("h", CN (qq 1 3))];
   [("fisher", CS "[WL]"); ("scenario", CS "optimistic"); ("shot_noise_sp_reduced", CB false); ("FoM", CN (qz 40)); ("h", CN (qq 1 5))]].
Definition ex_q : dict string (cell Qc) := query_dict ["gcph_minus_gcsp"; "gcph_only_bins_in_spectro_range"] [].
Definition ex_t : itab Qc nat := [(("[GCph]", 0), [("FoM", qz 50)]); (("[GCph]", 1), [("FoM", qz 60)]); (("[WL]", 0), [("FoM", qz 40)])].
Definition ex_h : dict (hkey Qc nat) (dict string Qc) := [((("[GCsp(Pk)]", four), 0), [("FoM", qz 7)]); ((("[GCsp(Pk)]", qz 12), 0), [("FoM", qz 9)]); ((("[WL]", qz 12), 0), [("FoM", qz 8)])].
Example C124_instance : wf ex_frame /\ usable ex_frame ex_q /\
  (match select ex_frame ex_q true with Ok s => cols s = ["fisher"; "h"] /\ length (body s) = 2 | Err _ => False end) /\
  NoDup (map fst ex_t) /\ fom_table Nat.eqb ex_t ["[GCph]"; "[WL]"] [("[GCph]", "[WL]")] =
    Ok [(("[GCph]", 0), (Some (qz 10), Some (pct (qz 50) (qz 40)), [("FoM", qz 50)])); (("[GCph]", 1), (None, None, [("FoM", qz 60)])); (("[WL]", 0), (None, None, [("FoM", qz 40)]))] /\
  (match replace_hybrid Nat.eqb ex_h with Ok r => map snd r = [[("FoM", qz 7)]; [("FoM", qz 7)]; [("FoM", qz 8)]] | Err _ => False end).
Proof.
  split.
  { split; [cbn; repeat constructor; cbn; intuition discriminate|]. intros r H. cbn in H. decompose [or] H; subst; try contradiction; reflexivity. }
  split.
  { split; [discriminate|]. split; [|reflexivity]. intros k H. cbn in H. cbn. tauto. }
  split; [vm_compute; split; reflexivity|]. split; [cbn; repeat constructor; cbn; intuition discriminate|]. split; vm_compute; reflexivity.
Qed.

Print Assumptions C124_query.
Print Assumptions C124_defaults.
Print Assumptions C124_unknown_option_refuted.
Print Assumptions C124_selected.
Print Assumptions C124_columns.
Print Assumptions C124_constant_result_refuted.
Print Assumptions C124_query_columns.
Print Assumptions C124_unknown_key.
Print Assumptions C124_empty_query_refuted.
Print Assumptions C124_difference.
Print Assumptions C124_difference_unknown.
Print Assumptions C124_percentage.
Print Assumptions C124_fom.
Print Assumptions C124_fom_total.
Print Assumptions C124_fom_flat_refuted.
Print Assumptions C124_hybrid.
Print Assumptions C124_hybrid_missing.
Print Assumptions C124_latex.
Print Assumptions C124_decrease_refuted.
Print Assumptions C124_no_bins_refuted.
