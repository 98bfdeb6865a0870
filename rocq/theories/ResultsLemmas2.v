From Verif Require Import Base SortLib StrLib FrameModel FrameLemmas FisherModel HeapModel ResultsModel ResultsSpec HeapLemmas ResultsLemmas.
From Coq Require Import Permutation Field.
Open Scope list_scope.

(** ** Splitting combination names *)
Definition op_sym (b : bool) : string := if b then "+" else "-".
Definition tokens (n0 : string) (ops : list (bool * string)) : list string :=
  n0 :: flat_map (fun on => [op_sym (fst on); snd on]) ops.
Lemma sapp_assoc (a b c : string) : ((a ++ b) ++ c = a ++ (b ++ c))%string.
Proof. induction a as [|x a IH]; cbn; [reflexivity|rewrite IH; reflexivity]. Qed.
Lemma sapp_nil (a : string) : (a ++ "" = a)%string.
Proof. induction a as [|x a IH]; cbn; [reflexivity|rewrite IH; reflexivity]. Qed.
Lemma split_step cur a t : a <> " "%char -> split_ops cur (String a t) = split_ops (cur ++ String a "") t.
Proof.
  intros N. cbn [split_ops]. destruct t as [|o [|b r]]; try reflexivity. destruct (Ascii.eqb_spec a " "); [contradiction|reflexivity].
Qed.
Lemma split_plain n : ~ In " "%char (list_ascii_of_string n) -> forall cur t, split_ops cur (n ++ t) = split_ops (cur ++ n) t.
Proof.
  induction n as [|a n IH]; intros N cur t.
  - cbn [append]. rewrite sapp_nil. reflexivity.
  - cbn [append]. cbn in N. rewrite split_step by (intros ->; apply N; left; reflexivity). rewrite IH by tauto.
    rewrite sapp_assoc. reflexivity.
Qed.
Lemma split_op b cur t : split_ops cur (op_text b ++ t) = cur :: op_sym b :: split_ops "" t.
Proof. destruct b; cbn; reflexivity. Qed.
Lemma split_comb_cur ops : forall n0 cur, ~ In " "%char (list_ascii_of_string n0) ->
  (forall on, In on ops -> ~ In " "%char (list_ascii_of_string (snd on))) ->
  split_ops cur (comb_text n0 ops) = (cur ++ n0)%string :: flat_map (fun on => [op_sym (fst on); snd on]) ops.
Proof.
  unfold comb_text. induction ops as [|[b n] ops IH]; intros n0 cur N0 N; rewrite split_plain by exact N0.
  - reflexivity.
  - assert (E : String.concat "" (map (fun on => (op_text (fst on) ++ snd on)%string) ((b, n) :: ops)) =
        (op_text b ++ (n ++ String.concat "" (map (fun on => (op_text (fst on) ++ snd on)%string) ops)))%string).
    { cbn [map String.concat fst snd]. destruct (map _ ops) eqn:M.
      - cbn [String.concat]. rewrite sapp_nil. reflexivity.
      - rewrite sapp_assoc. cbn [append]. reflexivity. }
    rewrite E, split_op, IH; [reflexivity|apply (N (b, n)); left; reflexivity|intros; apply N; right; assumption].
Qed.
Lemma split_comb n0 ops : ~ In " "%char (list_ascii_of_string n0) ->
  (forall on, In on ops -> ~ In " "%char (list_ascii_of_string (snd on))) -> split_ops "" (comb_text n0 ops) = tokens n0 ops.
Proof. intros. rewrite split_comb_cur by assumption. reflexivity. Qed.
Definition all_plain (c : string * list (bool * string)) : Prop := plain (fst c) /\ forall on, In on (snd c) -> plain (snd on).
Lemma tokens_inj n ops m ops' : tokens n ops = tokens m ops' -> n = m /\ ops = ops'.
Proof.
  unfold tokens. intros E. injection E as -> E. split; [reflexivity|]. revert ops' E.
  induction ops as [|[b x] ops IH]; intros [|[b' x'] ops'] E; try discriminate E; [reflexivity|]. cbn in E. injection E as E1 -> E.
  rewrite (IH _ E). destruct b, b'; try discriminate E1; reflexivity.
Qed.
Lemma text_inj c c' : all_plain c -> all_plain c' -> comb_text (fst c) (snd c) = comb_text (fst c') (snd c') -> c = c'.
Proof.
  intros [A B] [A' B'] E. apply (f_equal (split_ops "")) in E.
  rewrite !split_comb in E by (first [apply A|apply A'|intros; apply B; assumption|intros; apply B'; assumption]).
  apply tokens_inj in E. destruct c, c', E; cbn in *; subst; reflexivity.
Qed.
(** A name without blanks is a combination only of itself. *)
Lemma text_plain c n : all_plain c -> plain n -> comb_text (fst c) (snd c) = n -> c = (n, []).
Proof.
  intros A P E. apply text_inj; [exact A|split; [exact P|intros ? []]|]. cbn [fst snd]. rewrite E. unfold comb_text. cbn. rewrite sapp_nil. reflexivity.
Qed.
Lemma is_op_sym b : is_op (op_sym b) = true. Proof. destruct b; reflexivity. Qed.
Lemma is_op_plain n : plain n -> is_op n = false.
Proof. intros (_ & A & B). unfold is_op. destruct (String.eqb_spec n "+"), (String.eqb_spec n "-"); try contradiction; reflexivity. Qed.

Section Comb.
  Context {F : Type} {K : Fld F} {O : OFld (F := F)} {S : SqrtFld F} {SO : SetOrder}.
  Implicit Types h : heap F.

  Definition idx_ops (l : list string) i n : list nat := filter (fun i => is_op (nth i l ""%string)) (seq i n).
  Lemma idx_rec pre ops : (forall on, In on ops -> plain (snd on)) -> forall on,
    plain (snd on) ->
    let l := pre ++ op_sym (fst on) :: snd on :: flat_map (fun on => [op_sym (fst on); snd on]) ops in
    idx_ops l (length pre) (length l - length pre) = length pre :: idx_ops l (length pre + 2) (length l - length pre - 2).
  Proof.
    intros _ on P l. assert (L : length l = length pre + (2 + length (flat_map (fun on => [op_sym (fst on); snd on]) ops))) by (unfold l; rewrite app_length; reflexivity).
    replace (length l - length pre) with (Datatypes.S (Datatypes.S (length l - length pre - 2))) by lia. unfold idx_ops. cbn [seq filter].
    assert (N0 : nth (length pre) l ""%string = op_sym (fst on)) by (unfold l; rewrite app_nth2, Nat.sub_diag by lia; reflexivity).
    assert (N1 : nth (Datatypes.S (length pre)) l ""%string = snd on)
      by (unfold l; rewrite app_nth2 by lia; replace (Datatypes.S (length pre) - length pre) with 1 by lia; reflexivity).
    rewrite N0, N1, is_op_sym, (is_op_plain _ P). f_equal. f_equal. f_equal; lia.
  Qed.
  Definition operands h (d : odict) (ops : list (bool * string)) (gs : list (bool * fisher F)) : Prop :=
    Forall2 (fun on og => fst on = fst og /\ at_key h d (snd on) = Some (snd og)) ops gs.
  Lemma at_key_grows h h' d n f : grows h h' -> at_key h d n = Some f -> at_key h' d n = Some f.
  Proof. unfold at_key. intros G. destruct (dget String.eqb d n); [apply grows_view; exact G|discriminate]. Qed.
  Lemma operands_grows h h' d ops gs : grows h h' -> operands h d ops gs -> operands h' d ops gs.
  Proof. intros G D. induction D as [|x y ? ? [A B] D IH]; constructor; [split; [exact A|eapply at_key_grows; eauto]|exact IH]. Qed.
  Lemma apply_op_value b h a c f g : view h a = Some f -> view h c = Some g ->
    exists h' x, apply_op (op_sym b) a c h = (h', Ok x) /\ grows h h' /\ view h' x = Some (if b then fisher_add f g else fisher_sub f g).
  Proof.
    intros A C. unfold apply_op. destruct b; cbn [op_sym String.eqb Ascii.eqb Bool.eqb].
    - destruct (combine_spec fadd " + " _ _ _ _ _ A C) as (h' & x & E & G & _ & V). exists h', x. auto.
    - destruct (combine_spec fsub " - " _ _ _ _ _ A C) as (h' & x & E & G & _ & V). exists h', x. auto.
  Qed.
  Lemma fold_value d ops : forall pre h gs acc f, (forall on, In on ops -> plain (snd on)) -> operands h d ops gs -> view h acc = Some f ->
    let l := pre ++ flat_map (fun on => [op_sym (fst on); snd on]) ops in
    exists h' c, fold_ops d l (idx_ops l (length pre) (length l - length pre)) acc h = (h', Ok c) /\ grows h h' /\ view h' c = Some (comb_value f gs).
  Proof.
    induction ops as [|on ops IH]; intros pre h gs acc f P D V l.
    - inversion D; subst. assert (length l - length pre = 0) as -> by (unfold l; cbn; rewrite app_nil_r; lia). cbn.
      exists h, acc. split; [reflexivity|]. split; [apply grows_refl|exact V].
    - inversion D as [|? og ? gs' [A B] D']; subst. destruct og as [b g]. cbn in A, B. destruct on as [b' n]. cbn in A, B. subst b'.
      pose proof (idx_rec pre ops (fun on H => P on (or_intror H)) (b, n) (P _ (or_introl eq_refl))) as E. cbn zeta in E.
      change (pre ++ op_sym (fst (b, n)) :: snd (b, n) :: flat_map (fun on => [op_sym (fst on); snd on]) ops) with l in E. rewrite E.
      cbn [fold_ops].
      assert (N0 : nth (length pre) l ""%string = op_sym b) by (unfold l; rewrite app_nth2, Nat.sub_diag by lia; reflexivity).
      assert (N1 : nth_error l (length pre + 1) = Some n)
        by (unfold l; rewrite nth_error_app2 by lia; replace (length pre + 1 - length pre) with 1 by lia; reflexivity).
      rewrite N1, N0. unfold at_key in B. unfold bind, dict_at at 1. destruct (dget String.eqb d n) as [c|] eqn:G; [|discriminate B]. cbn [ret].
      destruct (apply_op_value b h acc c f g V B) as (h1 & x & E1 & G1 & V1). rewrite E1.
      specialize (IH (pre ++ [op_sym b; n]) h1 gs' x _ (fun on H => P on (or_intror H)) (operands_grows _ _ _ _ _ G1 D') V1). cbn zeta in IH.
      rewrite <- app_assoc in IH. change ([op_sym b; n] ++ flat_map (fun on => [op_sym (fst on); snd on]) ops) with
        (flat_map (fun on => [op_sym (fst on); snd on]) ((b, n) :: ops)) in IH. fold l in IH. rewrite app_length in IH. cbn [length] in IH.
      destruct IH as (h2 & c2 & E2 & G2 & V2). exists h2, c2.
      split; [|split; [eapply grows_trans; eauto|exact V2]]. rewrite <- E2. f_equal. f_equal. lia.
  Qed.
  Lemma exists_false_all (d : odict) n0 ops : plain n0 -> (forall on, In on ops -> plain (snd on)) ->
    existsb (fun x => negb (is_op x) && negb (dmem String.eqb d x)) (tokens n0 ops) = false <->
    (forall n, n = n0 \/ In n (map snd ops) -> dget String.eqb d n <> None).
  Proof.
    intros P0 P. unfold tokens. cbn [existsb]. rewrite (is_op_plain _ P0), Bool.orb_false_iff. cbn [negb andb].
    assert (T : forall n, negb (dmem String.eqb d n) = false <-> dget String.eqb d n <> None).
    { intros n. unfold dmem. destruct (dget String.eqb d n); cbn; split; congruence. }
    assert (X : existsb (fun x => negb (is_op x) && negb (dmem String.eqb d x)) (flat_map (fun on => [op_sym (fst on); snd on]) ops) = false <->
                (forall n, In n (map snd ops) -> dget String.eqb d n <> None)).
    { induction ops as [|on ops IH]; cbn [flat_map existsb app map]; [cbn; split; [intros _ ? []|reflexivity]|].
      rewrite is_op_sym, (is_op_plain (snd on)) by (apply P; left; reflexivity). cbn [negb andb orb]. rewrite Bool.orb_false_iff, T, IH by (intros; apply P; right; assumption).
      split; [intros [A B] n [<-|H]; auto|]. intros A. split; [apply A; left; reflexivity|intros; apply A; right; assumption]. }
    rewrite T, X. split; [intros [A B] n [->|H]; auto|]. intros A. split; [apply A; auto|intros; apply A; auto].
  Qed.
  Lemma compute_value h d c f0 gs : all_plain c -> at_key h d (fst c) = Some f0 -> operands h d (snd c) gs ->
    exists h' a, compute_comb (comb_text (fst c) (snd c)) d h = (h', Ok (Some a)) /\ grows h h' /\ view h' a = Some (comb_value f0 gs) /\
      (snd c = [] -> h' = h /\ dget String.eqb d (fst c) = Some a).
  Proof.
    destruct c as [n0 ops]. intros [P0 P] A D. cbn [fst snd] in *. unfold compute_comb.
    rewrite split_comb by (first [apply P0|intros; apply P; assumption]).
    assert (X : existsb (fun x => negb (is_op x) && negb (dmem String.eqb d x)) (tokens n0 ops) = false).
    { apply exists_false_all; [exact P0|exact P|]. intros n [->|H]; [unfold at_key in A; destruct (dget _ d n0); [discriminate|discriminate A]|].
      clear -D H. induction D as [|[b x] y ? ? [_ B] D IH]; [destruct H|]. destruct H as [<-|H]; [|auto]. cbn in *. unfold at_key in B. destruct (dget _ d x); [discriminate|discriminate B]. }
    rewrite X. assert (A' := A). unfold at_key in A. unfold bind, dict_at. change (nth 0 (tokens n0 ops) ""%string) with n0. destruct (dget String.eqb d n0) as [a|] eqn:G; [|discriminate A]. cbn [ret].
    destruct (fold_value d ops [n0] h gs a f0 P D A) as (h' & c & E & G' & V). cbn zeta in E. change ([n0] ++ _) with (tokens n0 ops) in E.
    assert (I : filter (fun i => is_op (nth i (tokens n0 ops) ""%string)) (seq 0 (length (tokens n0 ops))) = idx_ops (tokens n0 ops) (length [n0]) (length (tokens n0 ops) - length [n0])).
    { unfold tokens, idx_ops. cbn [length seq filter nth]. rewrite (is_op_plain _ P0). f_equal. f_equal. lia. }
    rewrite I, E. exists h', c. split; [reflexivity|]. split; [exact G'|]. split; [exact V|].
    intros ->. cbn in E. injection E as -> ->. auto.
  Qed.
  Lemma compute_missing h d c n : all_plain c -> n = fst c \/ In n (map snd (snd c)) -> dget String.eqb d n = None ->
    compute_comb (comb_text (fst c) (snd c)) d h = (h, Ok None).
  Proof.
    destruct c as [n0 ops]. intros [P0 P] Hn G. cbn [fst snd] in *. unfold compute_comb.
    rewrite split_comb by (first [apply P0|intros; apply P; assumption]). destruct (existsb _ (tokens n0 ops)) eqn:E; [reflexivity|].
    elim (proj1 (exists_false_all d n0 ops P0 P) E n Hn G).
  Qed.
  Lemma missing_or h d c : all_plain c -> live h d ->
    (exists f0 gs, at_key h d (fst c) = Some f0 /\ operands h d (snd c) gs) \/
    (exists n, (n = fst c \/ In n (map snd (snd c))) /\ dget String.eqb d n = None).
  Proof.
    intros _ Lv. destruct c as [n0 ops]. cbn.
    assert (T : forall n, (exists f, at_key h d n = Some f) \/ dget String.eqb d n = None).
    { intros n. unfold at_key. destruct (dget String.eqb d n) as [a|] eqn:G; [|auto]. left. apply (dget_In _ String.eqb_spec) in G.
      destruct (view h a) eqn:V; [eauto|]. elim (Lv _ _ G V). }
    assert (X : (exists gs, operands h d ops gs) \/ exists n, In n (map snd ops) /\ dget String.eqb d n = None).
    { induction ops as [|[b n] ops IH]; [left; exists []; constructor|]. destruct (T n) as [(f & A)|A]; [|right; exists n; cbn; auto].
      destruct IH as [(gs & B)|(m & B & C)]; [left; exists ((b, f) :: gs); constructor; cbn; auto|right; exists m; cbn; auto]. }
    destruct (T n0) as [(f & A)|A]; [|right; exists n0; auto]. destruct X as [(gs & B)|(m & B & C)]; [left; eauto|right; exists m; auto].
  Qed.

  Definition texts (cs : list (string * list (bool * string))) := map (fun c => comb_text (fst c) (snd c)) cs.
  Lemma operands_same h d h1 d1 ops gs : (forall on, In on ops -> plain (snd on)) -> (forall n f, plain n -> at_key h d n = Some f -> at_key h1 d1 n = Some f) ->
    operands h d ops gs -> operands h1 d1 ops gs.
  Proof.
    intros P H D. induction D as [|x y ? ? [A B] D IH]; constructor; [split; [exact A|apply H; [apply P; left; reflexivity|exact B]]|].
    apply IH. intros; apply P; right; assumption.
  Qed.
  Lemma live_set h d k a : live h d -> view h a <> None -> live h (dset String.eqb d k a).
  Proof.
    intros L V k' a' H. assert (X : In (k', a') d \/ a' = a).
    { clear -H. induction d as [|[x y] d IH]; cbn in H; [destruct H as [H|[]]; injection H as <- <-; auto|]. destruct (String.eqb x k).
      - destruct H as [H|H]; [injection H as <- <-; auto|left; right; exact H].
      - destruct H as [H|H]; [left; left; exact H|]. destruct (IH H); [left; right; assumption|auto]. }
    destruct X as [X| ->]; [eapply L; eauto|exact V].
  Qed.
  Lemma live_grows h h' d : grows h h' -> live h d -> live h' d.
  Proof. intros G L k a H. destruct (view h a) as [f|] eqn:V; [|elim (L _ _ H V)]. rewrite (grows_view _ _ _ _ G V). discriminate. Qed.
  (** The whole list of combinations. *)
  Lemma combs_spec cs : forall h d, Forall all_plain cs -> live h d ->
    exists h' d', eval_combs (texts cs) d h = (h', Ok d') /\ grows h h' /\ live h' d' /\
      (forall k, ~ In k (texts cs) -> dget String.eqb d' k = dget String.eqb d k) /\
      (forall n, plain n -> dget String.eqb d' n = dget String.eqb d n) /\
      (forall c f0 gs, In c cs -> at_key h d (fst c) = Some f0 -> operands h d (snd c) gs ->
         at_key h' d' (comb_text (fst c) (snd c)) = Some (comb_value f0 gs)) /\
      (forall c n, In c cs -> n = fst c \/ In n (map snd (snd c)) -> dget String.eqb d n = None ->
         dget String.eqb d' (comb_text (fst c) (snd c)) = dget String.eqb d (comb_text (fst c) (snd c))).
  Proof.
    induction cs as [|c cs IH]; intros h d P Lv; cbn [texts map eval_combs].
    - exists h, d. split; [reflexivity|]. split; [apply grows_refl|]. split; [exact Lv|]. repeat split; auto; intros ? ? ? [].
    - inversion P as [|? ? Pc P']; subst. set (k0 := comb_text (fst c) (snd c)).
      assert (Step : exists h1 d1, (forall k, bind (compute_comb k0 d) (fun r => eval_combs k (match r with Some a => dset String.eqb d k0 a | None => d end)) h = eval_combs k d1 h1) /\
        grows h h1 /\ live h1 d1 /\ (forall k, k <> k0 -> dget String.eqb d1 k = dget String.eqb d k) /\ (forall n, plain n -> dget String.eqb d1 n = dget String.eqb d n) /\
        (forall f0 gs, at_key h d (fst c) = Some f0 -> operands h d (snd c) gs -> at_key h1 d1 k0 = Some (comb_value f0 gs)) /\
        (forall n, n = fst c \/ In n (map snd (snd c)) -> dget String.eqb d n = None -> dget String.eqb d1 k0 = dget String.eqb d k0)).
      { destruct (missing_or h d c Pc Lv) as [(f0 & gs & A & B)|(n & A & B)].
        - destruct (compute_value h d c f0 gs Pc A B) as (h1 & a & E & G & V & Triv). exists h1, (dset String.eqb d k0 a).
          split; [intros k; unfold bind, k0; rewrite E; reflexivity|]. split; [exact G|].
          split; [apply live_set; [eapply live_grows; eauto|rewrite V; discriminate]|].
          split; [intros k Nk; apply (dget_dset_other _ String.eqb_spec); congruence|]. split; [|split].
          + intros n Pn. destruct (string_dec k0 n) as [E'|N]; [|apply (dget_dset_other _ String.eqb_spec); exact N].
            pose proof (text_plain c n Pc Pn E') as Ec. rewrite Ec in Triv. cbn in Triv. destruct (Triv eq_refl) as [_ T]. rewrite T.
            rewrite <- E'. apply (dget_dset_same _ String.eqb_spec).
          + intros f0' gs' A' B'. assert (f0' = f0) as -> by congruence. assert (gs' = gs) as ->.
            { clear -B B'. revert gs' B'. induction B as [|x y ? ? [H1 H2] B IH]; intros gs' B'; inversion B' as [|? z ? ? [H3 H4] B2]; subst; [reflexivity|].
              f_equal; [destruct y, z; cbn in *; congruence|apply IH; exact B2]. }
            unfold at_key. rewrite (dget_dset_same _ String.eqb_spec). exact V.
          + intros n Hn Gn. exfalso. destruct Hn as [->|Hn]; [unfold at_key in A; rewrite Gn in A; discriminate|].
            clear -B Hn Gn. induction B as [|[b x] y ? ? [_ B] D IH]; [destruct Hn|]. destruct Hn as [E|Hn]; [|auto]. cbn in *. subst x. unfold at_key in B. rewrite Gn in B; discriminate.
        - exists h, d. pose proof (compute_missing h d c n Pc A B) as E. split; [intros k; unfold bind, k0; rewrite E; reflexivity|].
          split; [apply grows_refl|]. split; [exact Lv|]. split; [auto|]. split; [auto|]. split; [|auto].
          intros f0 gs A' B'. exfalso. destruct A as [->|Hn]; [unfold at_key in A'; rewrite B in A'; discriminate|].
          clear -B B' Hn. induction B' as [|[b x] y ? ? [_ B1] D IH]; [destruct Hn|]. destruct Hn as [E|Hn]; [|auto]. cbn in *. subst x. unfold at_key in B1. rewrite B in B1; discriminate. }
      destruct Step as (h1 & d1 & E1 & G1 & L1 & K1 & N1 & V1 & M1). rewrite E1. clear E1.
      destruct (IH h1 d1 P' L1) as (h' & d' & E2 & G2 & L2 & K2 & N2 & V2 & M2).
      assert (AK : forall n f, plain n -> at_key h d n = Some f -> at_key h1 d1 n = Some f).
      { intros n f Pn A. unfold at_key in *. rewrite N1 by exact Pn. destruct (dget String.eqb d n); [eapply grows_view; eauto|discriminate]. }
      exists h', d'. split; [exact E2|]. split; [eapply grows_trans; eauto|]. split; [exact L2|]. split; [|split; [|split]].
      + intros k Hk. rewrite K2 by (intros Hi; apply Hk; right; exact Hi). apply K1. intros ->. apply Hk. left; reflexivity.
      + intros n Pn. rewrite N2, N1 by exact Pn. reflexivity.
      + intros c' f0 gs Hc A B.
        assert (Pc' : all_plain c') by (rewrite Forall_forall in P; apply P; exact Hc).
        assert (A1 := AK _ _ (proj1 Pc') A). assert (B1 := operands_same _ _ _ _ _ _ (proj2 Pc') AK B).
        destruct (in_dec string_dec (comb_text (fst c') (snd c')) (texts cs)) as [Hi|Hi].
        * unfold texts in Hi. apply in_map_iff in Hi. destruct Hi as (c2 & Ec & Hi).
          assert (c2 = c') as -> by (apply text_inj; [rewrite Forall_forall in P'; apply P'; exact Hi|exact Pc'|exact Ec]). apply V2; assumption.
        * assert (c = c') as -> by (destruct Hc as [Hc|Hc]; [exact Hc|elim Hi; apply in_map_iff; exists c'; auto]).
          unfold at_key. rewrite K2 by exact Hi. specialize (V1 f0 gs A B). unfold at_key in V1. unfold k0 in V1.
          destruct (dget String.eqb d1 _); [eapply grows_view; eauto|discriminate].
      + intros c' n Hc Hn Gn.
        assert (Pc' : all_plain c') by (rewrite Forall_forall in P; apply P; exact Hc).
        assert (Gn1 : dget String.eqb d1 n = None).
        { rewrite N1; [exact Gn|]. destruct Hn as [->|Hn]; [apply Pc'|]. apply in_map_iff in Hn. destruct Hn as (on & <- & Hon). apply Pc'; exact Hon. }
        destruct (in_dec string_dec (comb_text (fst c') (snd c')) (texts cs)) as [Hi|Hi].
        * assert (Hc2 : In c' cs).
          { unfold texts in Hi. apply in_map_iff in Hi. destruct Hi as (c2 & Ec & Hi).
            assert (c2 = c') as -> by (apply text_inj; [rewrite Forall_forall in P'; apply P'; exact Hi|exact Pc'|exact Ec]). exact Hi. }
          rewrite (M2 c' n Hc2 Hn Gn1). destruct (string_dec (comb_text (fst c') (snd c')) k0) as [Ek|Nk]; [|apply K1; exact Nk].
          apply text_inj in Ek; [|exact Pc'|exact Pc]. subst c'. eapply M1; eauto.
        * assert (c = c') as -> by (destruct Hc as [Hc|Hc]; [exact Hc|elim Hi; apply in_map_iff; exists c'; auto]).
          rewrite K2 by exact Hi. eapply M1; eauto.
  Qed.
  Lemma comb_value_name ops : forall (f0 : fisher F) gs,
    map (fun og => (fst og, fname (snd og))) gs = ops -> fname (comb_value f0 gs) = comb_text (fname f0) ops.
  Proof.
    intros f0 gs <-. unfold comb_text. revert f0. induction gs as [|[b g] gs IH]; intros f0.
    - cbn. rewrite sapp_nil. reflexivity.
    - cbn [comb_value fold_left]. unfold comb_value in IH. rewrite IH.
      assert (X : fname (if fst (b, g) then fisher_add f0 (snd (b, g)) else fisher_sub f0 (snd (b, g))) = (fname f0 ++ (op_text b ++ fname g))%string)
        by (destruct b; reflexivity).
      rewrite X. cbn [map fst snd]. rewrite !sapp_assoc. f_equal. cbn [String.concat]. destruct (map _ (map _ gs)) eqn:M.
      + cbn [String.concat]. rewrite sapp_nil. reflexivity.
      + rewrite sapp_assoc. cbn [append]. reflexivity.
  Qed.

  (** ** Analyses *)
End Comb.
