(** Property C108: the weight functions behind the spectra, with the current values
    of the parameters. *)
From Coq Require Import Permutation Sorted Field QArith Qcanon.
From Verif Require Import Base SortLib StrLib NameModel NameLemmas StemLemmas3 KeyModel ParamModel ParamLemmas2 EvalModel EvalSpec EllLemmas OrdLib NumModel NumLemmas BiasModel BiasProps ConfigModel ConfigLemmas ConfigProps2 ClModel ClProps WeightModel WsLemmas CollModel CollLemmas CollProps.
Open Scope nat_scope.
Open Scope list_scope.

(** ** Alphabetical order of numbered names *)
Lemma leb_prefix a s t : String.leb (a ++ s) (a ++ t) = String.leb s t.
Proof. induction a as [|c a IH]; [reflexivity|]. cbn [append]. rewrite str_leb_cons, IH. replace (Ascii.compare c c) with Eq; [reflexivity|]. symmetry. unfold Ascii.compare. apply N.compare_refl. Qed.
Lemma sorted_prefix a l : StronglySorted (SortLib.le String.leb) l -> StronglySorted (SortLib.le String.leb) (map (append a) l).
Proof.
  induction 1 as [|x l S IH Fo]; cbn [map]; constructor; [exact IH|]. rewrite Forall_forall in *. intros y Hy. apply in_map_iff in Hy. destruct Hy as (t & <- & Ht). unfold SortLib.le in *. rewrite leb_prefix. exact (Fo t Ht).
Qed.
Lemma ssort_sorted l m : StronglySorted (SortLib.le String.leb) m -> Permutation l m -> ssort l = m.
Proof.
  intros S P. apply (ssorted_unique String.leb); [apply String.leb_antisym|apply isort_ssorted; [apply String.leb_total|apply str_leb_trans]|exact S|]. rewrite ssort_perm. exact P.
Qed.
Lemma sorted_firstn {A} (R : A -> A -> Prop) l n : StronglySorted R l -> StronglySorted R (firstn n l).
Proof.
  intros S. revert n. induction S as [|x l S IH Fo]; intros [|n]; cbn [firstn]; try constructor; [apply IH|]. rewrite Forall_forall in *. intros y Hy. apply Fo. rewrite <- (firstn_skipn n l). apply in_or_app. auto.
Qed.
Definition numbered (a : string) (n : nat) : list string := map (fun i => (a ++ dec i)%string) (seq 0 n).
Lemma numbered_sorted a n : n <= 10 -> StronglySorted (SortLib.le String.leb) (numbered a n).
Proof.
  intros H. unfold numbered. rewrite <- (map_map dec (append a)). apply sorted_prefix.
  assert (E : map dec (seq 0 n) = firstn n (map dec (seq 0 10))). { rewrite firstn_map. f_equal. do 11 (destruct n as [|n]; [reflexivity|]). lia. }
  rewrite E. apply sorted_firstn. vm_compute. repeat constructor.
Qed.
Lemma dec_lead n c r : dec n = String c r -> n <> 0 -> c <> "0"%char.
Proof.
  unfold dec. assert (G : forall f m c r, m < f -> m <> 0 -> dec_fuel f m = String c r -> c <> "0"%char).
  { clear. induction f as [|f IH]; intros m c r Hm Nz; [lia|]. cbn [dec_fuel]. destruct (Nat.ltb_spec m 10) as [L|L].
    - intros E. injection E as <- _. do 10 (destruct m as [|m]; [first [contradiction|vm_compute; discriminate]|]). lia.
    - destruct (dec_fuel f (m / 10)) as [|c' r'] eqn:D; cbn [append].
      + exfalso. assert (Hq : m / 10 < f) by (pose proof (Nat.div_lt m 10); lia). destruct f as [|f']; [lia|]. cbn [dec_fuel] in D. destruct (m / 10 <? 10)%nat; [discriminate|]. destruct (dec_fuel f' _); discriminate.
      + intros E. injection E as <- _. eapply IH; [| |exact D]; [pose proof (Nat.div_lt m 10); lia|]. intros Z. apply Nat.div_small_iff in Z; lia. }
  intros E Nz. eapply G; [| exact Nz|exact E]. lia.
Qed.
(** No number from 2 on comes before 10 in alphabetical order. *)
Lemma leb_ten n : 2 <= n -> String.leb "10" (dec n) = true.
Proof.
  intros H. destruct (dec_first n) as (d & r & Hd & E). pose proof (dec_lead n _ _ E ltac:(lia)) as Nz. pose proof (dec_number n) as Nn. pose proof (dec_digits n) as Dg. rewrite E in *.
  destruct (Nat.eq_dec d 1) as [->|Nd]; [|do 10 (destruct d as [|d]; [solve [exfalso; apply Nz; reflexivity|exfalso; apply Nd; reflexivity|reflexivity]|]); lia].
  destruct r as [|c r]; [cbn in Nn; lia|]. change (digit 1) with "1"%char. rewrite str_leb_cons. change (Ascii.compare "1" "1") with Eq. cbn iota.
  cbn [all_chars] in Dg. apply andb_true_iff in Dg. destruct Dg as [_ Dg]. apply andb_true_iff in Dg. destruct Dg as [Dg _]. clear - Dg.
  destruct c as [[] [] [] [] [] [] [] []]; vm_compute in Dg; try discriminate; try (rewrite str_leb_cons; vm_compute; reflexivity); destruct r; reflexivity.
Qed.
Lemma seq_perm n : 11 <= n -> Permutation (seq 0 n) (0 :: 1 :: 10 :: (seq 2 8 ++ seq 11 (n - 11))).
Proof.
  intros H. replace n with (11 + (n - 11)) at 1 by lia. rewrite seq_app. change (seq 0 11) with (0 :: 1 :: (seq 2 8 ++ [10])). cbn [app]. do 2 apply perm_skip. rewrite <- app_assoc. cbn [app Nat.add]. symmetry. apply Permutation_middle.
Qed.
Lemma eleven a n l : 11 <= n -> Permutation l (numbered a n) -> nth 2 (ssort l) ""%string = (a ++ "10")%string.
Proof.
  intros H P.
  assert (E : ssort l = (a ++ "0")%string :: (a ++ "1")%string :: (a ++ "10")%string :: ssort (map (fun i => (a ++ dec i)%string) (seq 2 8 ++ seq 11 (n - 11)))).
  { apply ssort_sorted.
    - assert (Tail : Forall (SortLib.le String.leb (a ++ "10")%string) (ssort (map (fun i => (a ++ dec i)%string) (seq 2 8 ++ seq 11 (n - 11))))).
      { apply Forall_forall. intros x Hx. apply (proj1 (ssort_In _ _)) in Hx. apply in_map_iff in Hx. destruct Hx as (i & <- & Hi). unfold SortLib.le. rewrite leb_prefix. apply leb_ten. apply in_app_iff in Hi. destruct Hi as [Hi|Hi]; apply in_seq in Hi; lia. }
      assert (T10 : SortLib.le String.leb (a ++ "1")%string (a ++ "10")%string) by (unfold SortLib.le; rewrite leb_prefix; reflexivity).
      assert (T01 : SortLib.le String.leb (a ++ "0")%string (a ++ "1")%string) by (unfold SortLib.le; rewrite leb_prefix; reflexivity).
      assert (Tr : forall x y l, SortLib.le String.leb x y -> Forall (SortLib.le String.leb y) l -> Forall (SortLib.le String.leb x) l) by (intros x y k A B; rewrite Forall_forall in *; intros z Hz; eapply str_leb_trans; [exact A|exact (B z Hz)]).
      assert (T1 : Forall (SortLib.le String.leb (a ++ "1")%string) ((a ++ "10")%string :: ssort (map (fun i => (a ++ dec i)%string) (seq 2 8 ++ seq 11 (n - 11))))) by (constructor; [exact T10|eapply Tr; eassumption]).
      repeat (constructor; [|try (constructor; [exact T01|]; eapply Tr; eassumption); try exact T1; try exact Tail]). apply isort_ssorted; [apply String.leb_total|apply str_leb_trans].
    - rewrite P. unfold numbered. rewrite (Permutation_map _ (seq_perm n H)). cbn [map]. change (dec 0) with "0"%string. change (dec 1) with "1"%string. change (dec 10) with "10"%string. do 3 apply perm_skip. symmetry. apply ssort_perm. }
  rewrite E. reflexivity.
Qed.

Section P.
  Context {F : Type} {K : Fld F} {O : OFld (F := F)}.
  Add Field FldCo2 : (fth (F := F)).
  Open Scope fld_scope.
  Context (N : numerics F).
  Notation weight := (weight_of N).

  Lemma biased_inv an files pp dens co fid p a d w : weight an files pp dens co fid p a = Ok (d, w) -> p <> "Lensing"%string ->
    dget String.eqb dens p = Some d /\ In p long_names /\
    exists path f m vals rows, pc_bias a = Some path /\ dget String.eqb files path = Some f /\ setup_bias (String.eqb p "Void") f (nuisance_for p pp) = Ok (m, vals) /\
      evaluate_bias N m vals (bf_add f) (match bf_edges f with Some e => e | None => de_edges d end) co fid = Ok rows /\
      (length rows = de_bins d \/ length rows = 1%nat \/ de_bins d = 1%nat) /\
      w = biased_weight (co_H co) (co_c co) (de_n d) (fun i => rows_fun rows (if Nat.eqb (length rows) 1 then 0%nat else i)).
  Proof.
    intros E Np. destruct (weight_of_long N _ _ _ _ _ _ _ _ _ E) as [L D]. cbn [fst] in D. split; [exact D|]. split; [exact L|]. unfold weight_of in E. destruct (negb (smem p long_names)); [discriminate|].
    unfold dgetr in E at 1. rewrite D in E. cbn [rbind] in E. destruct (String.eqb_spec p "Lensing") as [|_]; [contradiction|]. unfold biased in E. destruct (pc_bias a) as [path|]; [|discriminate]. cbn [rbind] in E. destruct (dget String.eqb files path) as [f|] eqn:Ef; [|discriminate]. cbn [rbind] in E.
    destruct (setup_bias _ f _) as [[m vals]|] eqn:Es; [|discriminate]. cbn [rbind fst snd] in E. destruct (evaluate_bias _ _ _ _ _ _ _) as [rows|] eqn:Ev; [|discriminate]. cbn [rbind] in E.
    destruct (_ || _ || _) eqn:B in E; [|discriminate]. cbn [rbind] in E. injection E as <-. exists path, f, m, vals, rows. split; [reflexivity|]. split; [exact Ef|]. split; [exact Es|]. split; [exact Ev|]. split; [|reflexivity].
    rewrite !orb_true_iff, !Nat.eqb_eq in B. tauto.
  Qed.
  Lemma values_nth (nuis : dict string (param F)) (names : dict string F) : forall vals,
    rmapM (fun kv => match dget String.eqb nuis (fst kv) with Some p => Ok (fst kv, current p) | None => Err EKeyError end) names = Ok vals ->
    dkeys vals = dkeys names /\ Forall (fun nv => exists q, dget String.eqb nuis (fst nv) = Some q /\ snd nv = current q) vals.
  Proof.
    induction names as [|[n x] names IH]; intros vals E; cbn [rmapM fst] in E; [injection E as <-; auto|].
    destruct (dget String.eqb nuis n) as [q|] eqn:D; [|discriminate]. cbn [rbind] in E. destruct (rmapM _ names) as [v|]; [|discriminate]. cbn [rbind] in E. injection E as <-.
    destruct (IH v eq_refl) as [A B]. split; [cbn [dkeys map fst] in *; f_equal; exact A|]. constructor; [exists q; auto|exact B].
  Qed.
  Lemma setup_bias_inv void (f : bfile F) (nuis : dict string (param F)) m vals : setup_bias void f nuis = Ok (m, vals) ->
    dkeys vals = ssort (dkeys (bf_nuis f)) /\ Forall (fun nv => exists q, dget String.eqb nuis (fst nv) = Some q /\ snd nv = current q) vals /\
    (bf_model f = "constant"%string -> void = false /\ m = Some Constant) /\ (bf_model f = "piecewise"%string -> void = false /\ m = Some Piecewise) /\
    (bf_model f = "euclid_flagship_photo"%string -> void = false /\ m = Some Flagship) /\
    (bf_model f = "fiducial_growth_void"%string -> if void then m = Some Growth else m = None) /\ (bf_model f = "vdn_void"%string -> if void then m = Some Vdn else m = None) /\
    (~ In (bf_model f) ["constant"; "piecewise"; "euclid_flagship_photo"; "fiducial_growth_void"; "vdn_void"]%string -> void = false /\ m = None).
  Proof.
    unfold setup_bias. destruct (rmapM _ (by_name (bf_nuis f))) as [v|] eqn:R; [|discriminate]. cbn [rbind]. destruct (values_nth _ _ _ R) as [A B]. rewrite by_name_keys in A. intros E.
    assert (v = vals) as ->. { destruct void; [|congruence]. destruct (String.eqb _ _); [congruence|]. destruct (String.eqb _ _); [congruence|discriminate]. }
    split; [exact A|]. split; [exact B|]. clear R A B.
    split; [|split; [|split; [|split; [|split]]]]; intros H; try (rewrite H in E; destruct void; cbn in E; try discriminate; injection E as <-; auto; fail).
    assert (Q : forall s, In s ["constant"; "piecewise"; "euclid_flagship_photo"; "fiducial_growth_void"; "vdn_void"]%string -> String.eqb (bf_model f) s = false) by (intros s Hs; apply String.eqb_neq; intros X; apply H; rewrite X; exact Hs).
    rewrite !Q in E by (cbn; auto 10). destruct void; [discriminate|]. injection E as <-. auto.
  Qed.
  Lemma rows_repeat (x : F) n z : (z < n)%nat -> at_ (repeat x n) z = x.
  Proof. unfold at_. revert z. induction n as [|n IH]; intros z H; [lia|]. destruct z as [|z]; [reflexivity|]. cbn [repeat nth]. apply IH. lia. Qed.

  (** ** The models of the galaxies *)
  (** Constant bias: bin i has the i-th parameter in alphabetical order. *)
  Theorem C108_constant an files pp dens co fid p a d w path f : weight an files pp dens co fid p a = Ok (d, w) -> p <> "Lensing"%string ->
    pc_bias a = Some path -> dget String.eqb files path = Some f -> bf_model f = "constant"%string ->
    length (match bf_edges f with Some e => e | None => de_edges d end) = (length (bf_nuis f) + 1)%nat /\
    forall i z, (i < length (bf_nuis f))%nat -> (z < length (co_zs co))%nat ->
      exists q, dget String.eqb (nuisance_for p pp) (nth i (ssort (dkeys (bf_nuis f))) ""%string) = Some q /\ w i z = co_H co z / co_c co * de_n d i z * current q.
  Proof.
    intros E Np Pa Fi Mo. destruct (biased_inv _ _ _ _ _ _ _ _ _ _ E Np) as (D & L & path' & f' & m & vals & rows & P' & F' & Sb & Ev & Br & ->).
    assert (path' = path) as -> by congruence. assert (f' = f) as -> by congruence. clear P' F'.
    destruct (setup_bias_inv _ _ _ _ _ Sb) as (Kv & Vq & C & _). destruct (C Mo) as [_ ->]. clear C. cbn [evaluate_bias] in Ev. unfold constant_bias in Ev. destruct (Z.eqb_spec (Z.of_nat (length vals)) (n_bins (match bf_edges f with Some e => e | None => de_edges d end))) as [Ln|]; [|discriminate]. cbn [negb] in Ev. injection Ev as <-.
    assert (Lv : length vals = length (bf_nuis f)). { rewrite <- (map_length fst vals), <- (map_length fst (bf_nuis f)). unfold dkeys in Kv. rewrite Kv. apply Permutation_length, ssort_perm. }
    split; [unfold n_bins in Ln; lia|]. intros i z Hi Hz.
    assert (Hn : exists nv, nth_error vals i = Some nv) by (destruct (nth_error vals i) eqn:X; [eauto|apply nth_error_None in X; lia]). destruct Hn as [nv Hn].
    rewrite Forall_forall in Vq. destruct (Vq nv (nth_error_In _ _ Hn)) as (q & Q1 & Q2). exists q. split.
    - rewrite <- Kv. unfold dkeys. pose proof (map_nth_error fst _ _ Hn) as X. apply nth_error_nth with (d := ""%string) in X. rewrite X. exact Q1.
    - unfold biased_weight, rows_fun. rewrite map_length. replace (if Nat.eqb (length vals) 1 then 0%nat else i) with i by (destruct (Nat.eqb_spec (length vals) 1); lia).
      pose proof (map_nth_error (fun kv => repeat (snd kv) (length (co_zs co))) _ _ Hn) as X. apply nth_error_nth with (d := []) in X. rewrite X, rows_repeat by exact Hz. rewrite Q2. reflexivity.
  Qed.
  (** Up to ten numbered parameters: bin i has the parameter of number i, in
      whatever order the file was written. *)
  Theorem C108_ten_bins an files pp dens co fid p a d w path f pre n : weight an files pp dens co fid p a = Ok (d, w) -> p <> "Lensing"%string ->
    pc_bias a = Some path -> dget String.eqb files path = Some f -> bf_model f = "constant"%string ->
    (n <= 10)%nat -> Permutation (dkeys (bf_nuis f)) (map (fun i => (pre ++ dec i)%string) (seq 0 n)) ->
    forall i z, (i < n)%nat -> (z < length (co_zs co))%nat ->
      exists q, dget String.eqb (nuisance_for p pp) (pre ++ dec i)%string = Some q /\ w i z = co_H co z / co_c co * de_n d i z * current q.
  Proof.
    intros E Np Pa Fi Mo Hn P i z Hi Hz. destruct (C108_constant _ _ _ _ _ _ _ _ _ _ _ _ E Np Pa Fi Mo) as [_ C]. rewrite (ssort_sorted _ _ (numbered_sorted pre n Hn) P) in C.
    assert (L : length (bf_nuis f) = n) by (rewrite <- (map_length fst); change (map fst (bf_nuis f)) with (dkeys (bf_nuis f)); rewrite (Permutation_length P), map_length, seq_length; reflexivity).
    destruct (C i z ltac:(lia) Hz) as (q & Q1 & Q2). exists q. split; [|exact Q2]. rewrite <- Q1. f_equal. unfold numbered. rewrite (nth_indep _ _ (pre ++ dec 0)%string) by (rewrite map_length, seq_length; exact Hi).
    rewrite (map_nth (fun i => (pre ++ dec i)%string)), seq_nth by exact Hi. reflexivity.
  Qed.
  (** From eleven bins on, the third bin has the parameter of number ten. *)
  Theorem C108_eleven_bins_refuted an files pp dens co fid p a d w path f pre n : weight an files pp dens co fid p a = Ok (d, w) -> p <> "Lensing"%string ->
    pc_bias a = Some path -> dget String.eqb files path = Some f -> bf_model f = "constant"%string ->
    (11 <= n)%nat -> Permutation (dkeys (bf_nuis f)) (map (fun i => (pre ++ dec i)%string) (seq 0 n)) ->
    forall z, (z < length (co_zs co))%nat ->
      exists q, dget String.eqb (nuisance_for p pp) (pre ++ "10")%string = Some q /\ w 2%nat z = co_H co z / co_c co * de_n d 2%nat z * current q.
  Proof.
    intros E Np Pa Fi Mo Hn P z Hz. destruct (C108_constant _ _ _ _ _ _ _ _ _ _ _ _ E Np Pa Fi Mo) as [_ C].
    assert (L : length (bf_nuis f) = n) by (rewrite <- (map_length fst); change (map fst (bf_nuis f)) with (dkeys (bf_nuis f)); rewrite (Permutation_length P), map_length, seq_length; reflexivity).
    destruct (C 2%nat z ltac:(lia) Hz) as (q & Q1 & Q2). rewrite (eleven pre n _ Hn P) in Q1. eauto.
  Qed.
  (** Piecewise bias: numbered parameters in the order of their numbers, the value
      depending on the redshift, not on the bin of the density. *)
  Theorem C108_piecewise an files pp dens co fid p a d w path f pre n edges : weight an files pp dens co fid p a = Ok (d, w) -> p <> "Lensing"%string ->
    pc_bias a = Some path -> dget String.eqb files path = Some f -> bf_model f = "piecewise"%string ->
    edges = match bf_edges f with Some e => e | None => de_edges d end -> StronglySorted fle edges ->
    all_chars (fun c => negb (is_digit c)) pre = true -> Permutation (dkeys (bf_nuis f)) (map (fun i => (pre ++ dec i)%string) (seq 0 n)) ->
    length edges = (n + 1)%nat /\
    forall i z k, (i < de_bins d)%nat -> (z < length (co_zs co))%nat -> (k < n)%nat ->
      (k = 0%nat \/ fle (at_ edges k) (at_ (co_zs co) z)) -> (k = (n - 1)%nat \/ flt (at_ (co_zs co) z) (at_ edges (k + 1))) ->
      exists q, dget String.eqb (nuisance_for p pp) (pre ++ dec k)%string = Some q /\ w i z = co_H co z / co_c co * de_n d i z * current q.
  Proof.
    intros E Np Pa Fi Mo Ed So Pre P. destruct (biased_inv _ _ _ _ _ _ _ _ _ _ E Np) as (D & L & path' & f' & m & vals & rows & P' & F' & Sb & Ev & Br & ->).
    assert (path' = path) as -> by congruence. assert (f' = f) as -> by congruence. clear P' F'. rewrite <- Ed in Ev.
    destruct (setup_bias_inv _ _ _ _ _ Sb) as (Kv & Vq & _ & C & _). destruct (C Mo) as [_ ->]. clear C. cbn [evaluate_bias] in Ev.
    destruct (C50_defined _ _ _ _ Ev) as (b & Sv & Lr & Le & _). destruct (C50_order _ _ Sv) as (l & Pl & -> & Sl). destruct (Permutation_map_inv _ _ Pl) as (l' & -> & Pl').
    assert (Kl : Permutation (map fst l') (map (fun i => (pre ++ dec i)%string) (seq 0 n))). { rewrite <- P. rewrite <- (Permutation_map fst Pl'). unfold dkeys in Kv |- *. rewrite Kv. apply ssort_perm. }
    assert (Ord : map fst l' = map (fun i => (pre ++ dec i)%string) (seq 0 n)).
    { destruct (Permutation_map_inv _ _ Kl) as (ks & Ek & Pk). rewrite Ek. f_equal. apply (ssorted_unique Nat.leb).
      - intros x y A B. apply Nat.leb_le in A, B. lia.
      - assert (Fr : map fst (map (fun kv : string * F => (first_run (fst kv), snd kv)) l') = map Some ks).
        { rewrite map_map. cbn [fst]. rewrite <- (map_map fst first_run), Ek, map_map. apply map_ext. intros i. pose proof (C50_number pre i "" Pre) as X. rewrite sapp_nil_r in X. apply X. discriminate. }
        revert Sl Fr. generalize (map (fun kv : string * F => (first_run (fst kv), snd kv)) l'). clear. intros l S. revert ks. induction S as [|x l S IH Fo]; intros [|k ks] Fr; try discriminate; constructor.
        + apply IH. cbn [map] in Fr. congruence.
        + cbn [map] in Fr. injection Fr as Fx Fr. apply Forall_forall. intros y Hy. apply (in_map Some) in Hy. rewrite <- Fr in Hy. apply in_map_iff in Hy. destruct Hy as (u & Fu & Hu). rewrite Forall_forall in Fo. specialize (Fo u Hu). rewrite Fx, Fu in Fo. apply Nat.leb_le. exact Fo.
      - clear. generalize 0%nat. induction n as [|n IH]; intros s; cbn [seq]; constructor; [apply IH|]. apply Forall_forall. intros y Hy. apply in_seq in Hy. apply Nat.leb_le. lia.
      - symmetry. exact Pk. }
    assert (Ln : length l' = n) by (rewrite <- (map_length fst), Ord, map_length, seq_length; reflexivity). rewrite !map_length, Ln in *.
    split; [exact Le|]. intros i z k Hi Hz Hk Lo Hi'.
    assert (Hv : exists nv, nth_error l' k = Some nv) by (destruct (nth_error l' k) eqn:X; [eauto|apply nth_error_None in X; lia]). destruct Hv as [nv Hv].
    assert (Nk : fst nv = (pre ++ dec k)%string). { pose proof (map_nth_error fst _ _ Hv) as X. rewrite Ord in X. rewrite (map_nth_error _ _ _ (nth_error_nth' (seq 0 n) 0%nat ltac:(rewrite seq_length; exact Hk))) in X. rewrite seq_nth in X by exact Hk. cbn [Nat.add] in X. injection X as X. symmetry. exact X. }
    rewrite Forall_forall in Vq. destruct (Vq nv) as (q & Q1 & Q2); [rewrite Pl'; exact (nth_error_In _ _ Hv)|]. rewrite Nk in Q1. exists q. split; [exact Q1|].
    unfold biased_weight, rows_fun. f_equal. set (j := if Nat.eqb (length rows) 1 then 0%nat else i).
    assert (Hj : (j < length rows)%nat) by (unfold j; destruct (Nat.eqb_spec (length rows) 1); lia).
    assert (Bk : at_ (map snd (map (fun kv : string * F => (first_run (fst kv), snd kv)) l')) k = current q). { rewrite map_map. cbn [snd]. unfold at_. pose proof (map_nth_error snd _ _ Hv) as X. apply nth_error_nth with (d := 0) in X. change (fun x : string * F => snd x) with (@snd string F). rewrite X. exact Q2. }
    destruct (C50_value _ _ _ _ _ _ _ So Ev Sv (nth_In rows [] Hj) Hz) as (V1 & V2 & V3). rewrite !map_length, Ln in V2, V3. rewrite <- Bk.
    destruct (fle_lt_dec (at_ edges (k + 1)) (at_ (co_zs co) z)) as [U|U].
    - destruct Hi' as [->|Hi']; [|exfalso; exact (flt_not_le _ _ Hi' U)]. replace (n - 1 + 1)%nat with n in U by lia. apply V3. exact U.
    - destruct Lo as [->|Lo]; [|apply V2; assumption]. destruct (fle_lt_dec (at_ edges 0) (at_ (co_zs co) z)) as [U'|U']; [apply V2; assumption|apply V1; exact U'].
  Qed.

  Lemma value_of (nuis : dict string (param F)) (vals : dict string F) n x : Forall (fun nv => exists q, dget String.eqb nuis (fst nv) = Some q /\ snd nv = current q) vals -> dgetr vals n = Ok x ->
    exists q, dget String.eqb nuis n = Some q /\ x = current q.
  Proof.
    intros Fo E. unfold dgetr in E. destruct (dget String.eqb vals n) as [y|] eqn:D; [|discriminate]. injection E as <-. apply (dget_In _ String.eqb_spec) in D. rewrite Forall_forall in Fo. exact (Fo _ D).
  Qed.
  (** Photometric bias of the Flagship simulation. *)
  Theorem C108_flagship an files pp dens co fid p a d w path f : weight an files pp dens co fid p a = Ok (d, w) -> p <> "Lensing"%string ->
    pc_bias a = Some path -> dget String.eqb files path = Some f -> bf_model f = "euclid_flagship_photo"%string ->
    exists A B C D, dget String.eqb (nuisance_for p pp) "Aph" = Some A /\ dget String.eqb (nuisance_for p pp) "Bph" = Some B /\ dget String.eqb (nuisance_for p pp) "Cph" = Some C /\ dget String.eqb (nuisance_for p pp) "Dph" = Some D /\
      forall i z, (i < de_bins d)%nat -> (i < length (match bf_edges f with Some e => e | None => de_edges d end) - 1)%nat -> (z < length (co_zs co))%nat ->
        w i z = co_H co z / co_c co * de_n d i z * nu_flagship N (current A) (current B) (current C) (current D) (at_ (co_zs co) z).
  Proof.
    intros E Np Pa Fi Mo. destruct (biased_inv _ _ _ _ _ _ _ _ _ _ E Np) as (D & L & path' & f' & m & vals & rows & P' & F' & Sb & Ev & Br & ->).
    assert (path' = path) as -> by congruence. assert (f' = f) as -> by congruence. clear P' F'.
    destruct (setup_bias_inv _ _ _ _ _ Sb) as (Kv & Vq & _ & _ & C & _). destruct (C Mo) as [_ ->]. clear C. unfold evaluate_bias in Ev.
    destruct (dgetr vals "Aph") as [x1|] eqn:A1; [|discriminate]. cbn [rbind] in Ev. destruct (dgetr vals "Bph") as [x2|] eqn:A2; [|discriminate]. cbn [rbind] in Ev.
    destruct (dgetr vals "Cph") as [x3|] eqn:A3; [|discriminate]. cbn [rbind] in Ev. destruct (dgetr vals "Dph") as [x4|] eqn:A4; [|discriminate]. cbn [rbind] in Ev. injection Ev as <-.
    destruct (value_of _ _ _ _ Vq A1) as (q1 & Q1 & ->), (value_of _ _ _ _ Vq A2) as (q2 & Q2 & ->), (value_of _ _ _ _ Vq A3) as (q3 & Q3 & ->), (value_of _ _ _ _ Vq A4) as (q4 & Q4 & ->).
    exists q1, q2, q3, q4. repeat (split; [assumption|]). intros i z Hi Hn Hz. unfold biased_weight, rows_fun. rewrite repeat_length. f_equal. set (n := (length _ - 1)%nat) in *. set (j := if Nat.eqb n 1 then 0%nat else i).
    assert (Hj : (j < n)%nat) by (unfold j; destruct (Nat.eqb_spec n 1); lia). clearbody j n. replace (nth j (repeat _ n) []) with (map (nu_flagship N (current q1) (current q2) (current q3) (current q4)) (co_zs co)).
    - unfold at_. rewrite (nth_indep _ 0 (nu_flagship N (current q1) (current q2) (current q3) (current q4) 0)) by (rewrite map_length; exact Hz). apply map_nth.
    - clear -Hj. revert j Hj. induction n as [|n IH]; intros j Hj; [lia|]. destruct j as [|j]; [reflexivity|]. cbn [repeat nth]. apply IH. lia.
  Qed.

  (** ** Voids *)
  (** With [fiducial_growth_void] the growth factor is that of the fiducial
      cosmology, which must have the same grid; the biases are read off in the
      centres of the bins. *)
  Theorem C108_growth an files pp dens co fid a d w path f edges : weight an files pp dens co fid "Void" a = Ok (d, w) ->
    pc_bias a = Some path -> dget String.eqb files path = Some f -> bf_model f = "fiducial_growth_void"%string ->
    edges = match bf_edges f with Some e => e | None => de_edges d end ->
    exists fd q, fid = Some fd /\ co_zs fd = co_zs co /\ dget String.eqb (nuisance_for "Void" pp) "voidbias0" = Some q /\
      forall i z, (i < length edges - 1)%nat -> (z < length (co_zs co))%nat ->
        w i z = co_H co z / co_c co * de_n d i z *
                nu_spline N (co_zs co) (map (fun z => current q / co_D fd z) (seq 0 (length (co_zs co)))) ((at_ edges i + at_ edges (i + 1)) / (1 + 1)).
  Proof.
    intros E Pa Fi Mo Ed. destruct (biased_inv _ _ _ _ _ _ _ _ _ _ E ltac:(discriminate)) as (D & L & path' & f' & m & vals & rows & P' & F' & Sb & Ev & Br & ->).
    assert (path' = path) as -> by congruence. assert (f' = f) as -> by congruence. clear P' F'. rewrite <- Ed in Ev.
    destruct (setup_bias_inv _ _ _ _ _ Sb) as (Kv & Vq & _ & _ & _ & C & _). specialize (C Mo). cbn in C. subst m. unfold evaluate_bias in Ev. destruct fid as [fd|]; [|discriminate].
    destruct (leqb (co_zs co) (co_zs fd)) eqn:Z; [|discriminate]. cbn [negb] in Ev. destruct (dgetr vals "voidbias0") as [x|] eqn:A; [|discriminate]. cbn [rbind] in Ev. injection Ev as <-.
    destruct (value_of _ _ _ _ Vq A) as (q & Q & ->). exists fd, q. split; [reflexivity|]. split; [apply leqb_eq in Z; congruence|]. split; [exact Q|]. intros i z Hi Hz.
    unfold biased_weight, rows_fun. rewrite map_length. assert (Lc : length (centres edges) = (length edges - 1)%nat) by (unfold centres; rewrite map_length, seq_length; reflexivity). rewrite Lc. f_equal.
    replace (if Nat.eqb (length edges - 1) 1 then 0%nat else i) with i by (destruct (Nat.eqb_spec (length edges - 1) 1); lia).
    rewrite (nth_error_nth (map _ (centres edges)) i (x := repeat (nu_spline N (co_zs co) (map (fun z => current q / co_D fd z) (seq 0 (length (co_zs co)))) ((at_ edges i + at_ edges (i + 1)) / (1 + 1))) (length (co_zs co)))).
    - apply rows_repeat. exact Hz.
    - unfold centres. rewrite map_map. rewrite (map_nth_error _ _ _ (nth_error_nth' (seq 0 (length edges - 1)) 0%nat ltac:(rewrite seq_length; exact Hi))). rewrite seq_nth by exact Hi. reflexivity.
  Qed.
  (** With [vdn_void] it follows the cosmology in use. *)
  Theorem C108_vdn an files pp dens co fid a d w path f edges : weight an files pp dens co fid "Void" a = Ok (d, w) ->
    pc_bias a = Some path -> dget String.eqb files path = Some f -> bf_model f = "vdn_void"%string ->
    edges = match bf_edges f with Some e => e | None => de_edges d end ->
    exists b, nu_vdn N co (bf_add f) (map (fun i => (at_ edges i + at_ edges (i + 1)) / (1 + 1)) (seq 0 (length edges - 1))) = Ok b /\
      forall i z, (i < length b)%nat -> (z < length (co_zs co))%nat -> w i z = co_H co z / co_c co * de_n d i z * at_ b i.
  Proof.
    intros E Pa Fi Mo Ed. destruct (biased_inv _ _ _ _ _ _ _ _ _ _ E ltac:(discriminate)) as (D & L & path' & f' & m & vals & rows & P' & F' & Sb & Ev & Br & ->).
    assert (path' = path) as -> by congruence. assert (f' = f) as -> by congruence. clear P' F'. rewrite <- Ed in Ev.
    destruct (setup_bias_inv _ _ _ _ _ Sb) as (_ & _ & _ & _ & _ & _ & C & _). specialize (C Mo). cbn in C. subst m. unfold evaluate_bias in Ev.
    destruct (nu_vdn N co (bf_add f) (centres edges)) as [b|] eqn:B; [|discriminate]. cbn [rbind] in Ev. injection Ev as <-. exists b. split; [exact B|]. intros i z Hi Hz.
    unfold biased_weight, rows_fun. rewrite map_length. f_equal. replace (if Nat.eqb (length b) 1 then 0%nat else i) with i by (destruct (Nat.eqb_spec (length b) 1); lia).
    rewrite (nth_error_nth (map _ b) i (x := repeat (at_ b i) (length (co_zs co)))); [apply rows_repeat; exact Hz|]. rewrite (map_nth_error _ _ _ (nth_error_nth' b 0 Hi)). reflexivity.
  Qed.

  (** ** Lensing *)
  Theorem C108_lensing an files pp dens co fid a d w : weight an files pp dens co fid "Lensing" a = Ok (d, w) ->
    (de_bins d = 0%nat \/ an_eff an = "quad"%string \/ an_eff an = "simpson"%string) /\
    exists v, dget String.eqb (pc_specific a) "include_IA" = Some v /\ exists eff ia,
      (forall i z, (i < de_bins d)%nat ->
         (an_eff an = "quad"%string -> eff i z = nu_eff N co d i z) /\
         (an_eff an = "simpson"%string -> eff i z = nu_simps N (map (fun x => de_n d i x * (1 - co_r co z / co_r co x)) (seq z (length (co_zs co) - z))) (skipn z (co_zs co)))) /\
      (sv_true v = false -> forall i z, ia i z = 0) /\
      (sv_true v = true -> exists A C E B, dget String.eqb (nuisance_for "Lensing" pp) "aIA" = Some A /\ dget String.eqb (nuisance_for "Lensing" pp) "cIA" = Some C /\
         dget String.eqb (nuisance_for "Lensing" pp) "etaIA" = Some E /\ dget String.eqb (nuisance_for "Lensing" pp) "betaIA" = Some B /\
         forall i z, ia i z = current A * current C * nu_fia N (current E) (current B) (at_ (co_zs co) z) * co_Omm co * co_H co z * de_n d i z / (co_D co z * co_c co)) /\
      forall i z, w i z = fnat 3 / fnat 2 * co_Omm co * (1 + at_ (co_zs co) z) * (co_H0 co / co_c co) * co_rt co z * eff i z - ia i z.
  Proof.
    intros H. unfold weight_of in H. cbn in H. destruct (dgetr dens "Lensing") as [d0|]; [|discriminate]. cbn [rbind] in H. destruct (lensing N an a (nuisance_for "Lensing" pp) d0 co) as [w0|] eqn:L; [|discriminate]. cbn [rbind] in H. injection H as -> ->.
    unfold lensing in L. destruct (efficiency _ _ _ _ _ _ _) as [eff|] eqn:Ef; [|discriminate]. cbn [rbind] in L. unfold dgetr at 1 in L. destruct (dget String.eqb (pc_specific a) "include_IA") as [v|]; [|discriminate]. cbn [rbind] in L.
    assert (Me : (de_bins d = 0%nat \/ an_eff an = "quad"%string \/ an_eff an = "simpson"%string) /\ forall i z, (i < de_bins d)%nat -> (an_eff an = "quad"%string -> eff i z = nu_eff N co d i z) /\
        (an_eff an = "simpson"%string -> eff i z = nu_simps N (map (fun x => de_n d i x * (1 - co_r co z / co_r co x)) (seq z (length (co_zs co) - z))) (skipn z (co_zs co)))).
    { unfold efficiency in Ef. destruct (Nat.eqb_spec (de_bins d) 0) as [Z|Z]; [split; [auto|intros; lia]|]. destruct (String.eqb_spec (an_eff an) "quad") as [Q|Q]; [injection Ef as <-; split; [auto|intros; split; [reflexivity|intros X; rewrite Q in X; discriminate]]|].
      destruct (String.eqb_spec (an_eff an) "simpson") as [Q'|Q']; [|discriminate]. injection Ef as <-. split; [auto|]. intros i z Hi. split; [intros; contradiction|reflexivity]. }
    split; [apply Me|]. exists v. split; [reflexivity|]. destruct Me as [_ Me]. destruct (sv_true v).
    - unfold par_now, dgetr in L.
      destruct (dget String.eqb _ "aIA") as [A|]; [|discriminate]. cbn [rbind] in L. destruct (dget String.eqb _ "cIA") as [C|]; [|discriminate]. cbn [rbind] in L.
      destruct (dget String.eqb _ "etaIA") as [E|]; [|discriminate]. cbn [rbind] in L. destruct (dget String.eqb _ "betaIA") as [B|]; [|discriminate]. cbn [rbind] in L. injection L as <-.
      eexists eff, _. split; [exact Me|]. split; [discriminate|]. split; [intros _; exists A, C, E, B; repeat (split; [reflexivity|]); reflexivity|]. reflexivity.
    - cbn [rbind] in L. injection L as <-. exists eff, (fun _ _ => 0). split; [exact Me|]. split; [reflexivity|]. split; [discriminate|]. intros i z. unfold lensing_weight. ring.
  Qed.

  (** ** Bin edges and errors *)
  (** Edges in the bias file replace those of the density, which are then not read. *)
  Theorem C108_edges an files pp dens dens' co fid p a d d' w path f e : weight an files pp dens co fid p a = Ok (d, w) -> p <> "Lensing"%string ->
    pc_bias a = Some path -> dget String.eqb files path = Some f -> bf_edges f = Some e ->
    dget String.eqb dens' p = Some d' -> de_bins d' = de_bins d -> de_n d' = de_n d ->
    weight an files pp dens' co fid p a = Ok (d', w).
  Proof.
    intros E Np Pa Fi Be D' Nb Nn. destruct (biased_inv _ _ _ _ _ _ _ _ _ _ E Np) as (D & L & _). unfold weight_of in *. destruct (negb _); [discriminate|]. unfold dgetr at 1 in E. rewrite D in E. cbn [rbind] in E. unfold dgetr at 1. rewrite D'. cbn [rbind].
    rewrite (proj2 (String.eqb_neq p "Lensing") Np) in *. unfold biased in *. rewrite Pa in *. cbn [rbind] in *. rewrite Fi in *. cbn [rbind] in *. rewrite Be in *. rewrite Nb, Nn.
    match type of E with rbind ?x _ = _ => destruct x as [w0|]; [|discriminate] end. cbn [rbind] in *. injection E as <-. reflexivity.
  Qed.
  (** What is missing is named by the error. *)
  Theorem C108_errors an files pp dens co fid p a : In p long_names ->
    (dget String.eqb dens p = None -> weight an files pp dens co fid p a = Err EKeyError) /\
    forall d, dget String.eqb dens p = Some d -> p <> "Lensing"%string ->
      (pc_bias a = None -> weight an files pp dens co fid p a = Err ETypeError) /\
      forall path, pc_bias a = Some path ->
        (dget String.eqb files path = None -> weight an files pp dens co fid p a = Err EOSError) /\
        forall f, dget String.eqb files path = Some f ->
          ((exists n, In n (dkeys (bf_nuis f)) /\ dget String.eqb (nuisance_for p pp) n = None) -> weight an files pp dens co fid p a = Err EKeyError) /\
          ((forall n, In n (dkeys (bf_nuis f)) -> dget String.eqb (nuisance_for p pp) n <> None) ->
             (p = "Void"%string -> ~ In (bf_model f) ["vdn_void"; "fiducial_growth_void"]%string -> weight an files pp dens co fid p a = Err ENotImplemented) /\
             (p <> "Void"%string -> ~ In (bf_model f) ["constant"; "piecewise"; "euclid_flagship_photo"]%string -> weight an files pp dens co fid p a = Err EAttributeError) /\
             (p = "Void"%string -> bf_model f = "fiducial_growth_void"%string -> fid = None -> weight an files pp dens co fid p a = Err EAttributeError)).
  Proof.
    intros L. unfold weight_of. destruct (smem_spec p long_names); [|contradiction]. cbn [negb]. split; [intros D; unfold dgetr; rewrite D; reflexivity|]. intros d D Np. assert (D2 : dgetr dens p = Ok d) by (unfold dgetr; rewrite D; reflexivity). rewrite D2. cbn [rbind].
    destruct (String.eqb_spec p "Lensing") as [|_]; [contradiction|]. unfold biased. split; [intros ->; reflexivity|]. intros path ->. cbn [rbind]. split; [intros ->; reflexivity|]. intros f ->. cbn [rbind].
    assert (R : forall l : dict string F, ((exists n, In n (dkeys l) /\ dget String.eqb (nuisance_for p pp) n = None) ->
          rmapM (fun kv => match dget String.eqb (nuisance_for p pp) (fst kv) with Some q => Ok (fst kv, current q) | None => Err EKeyError end) l = Err EKeyError) /\
        ((forall n, In n (dkeys l) -> dget String.eqb (nuisance_for p pp) n <> None) ->
          exists v, rmapM (fun kv => match dget String.eqb (nuisance_for p pp) (fst kv) with Some q => Ok (fst kv, current q) | None => Err EKeyError end) l = Ok v)).
    { induction l as [|[k x] l [IH1 IH2]]; [split; [intros (n & C & _); destruct C|intros _; eexists; reflexivity]|]. cbn [rmapM dkeys map fst]. split.
      - intros (n & [<-|Hn] & Q); [rewrite Q; reflexivity|]. destruct (dget String.eqb _ k); [|reflexivity]. cbn [rbind]. rewrite IH1 by eauto. reflexivity.
      - intros H. destruct (dget String.eqb _ k) eqn:Q; [|exfalso; exact (H k (or_introl eq_refl) Q)]. cbn [rbind]. destruct IH2 as [v ->]; [intros n Hn; apply H; right; exact Hn|]. cbn [rbind]. eauto. }
    assert (Kb : forall n, In n (dkeys (by_name (bf_nuis f))) <-> In n (dkeys (bf_nuis f))) by (intros n; rewrite by_name_keys; apply ssort_In).
    destruct (R (by_name (bf_nuis f))) as [R1 R2]. split.
    - intros (n & Hn & Q). unfold setup_bias. rewrite R1; [reflexivity|]. exists n. split; [apply Kb; exact Hn|exact Q].
    - intros H. destruct R2 as [v Hv]; [intros n Hn; apply H, Kb; exact Hn|]. unfold setup_bias. rewrite Hv. cbn [rbind].
      split; [|split].
      + intros -> Nm. cbn [String.eqb Ascii.eqb Bool.eqb]. destruct (String.eqb_spec (bf_model f) "vdn_void") as [X|_]; [exfalso; apply Nm; rewrite X; cbn; auto|]. destruct (String.eqb_spec (bf_model f) "fiducial_growth_void") as [X|_]; [exfalso; apply Nm; rewrite X; cbn; auto|]. reflexivity.
      + intros Nv Nm. rewrite (proj2 (String.eqb_neq p "Void") Nv). assert (Q : forall s, In s ["constant"; "piecewise"; "euclid_flagship_photo"]%string -> String.eqb (bf_model f) s = false) by (intros s Hs; apply String.eqb_neq; intros X; apply Nm; rewrite X; exact Hs). rewrite !Q by (cbn; auto 10). reflexivity.
      + intros -> -> ->. reflexivity.
  Qed.
End P.

(** ** Instances *)
(** Eleven bins of constant bias, written in the order of the bins; the value of
    parameter i is i. *)
Definition ex_eleven : dict string (bfile Qc) := [("b.h5"%string, mkBf None "constant" (map (fun i => (("b" ++ dec i)%string, qz 0)) (seq 0 11)) [])].
Definition ex_gal (probe : string) : pcfg Qc := mkPc probe [qz 10] [qz 1] "d.h5" (Some "b.h5"%string) false [] [].
Definition ex_pars (n : nat) : coll Qc := mkColl (map (fun i => ex_par ("b" ++ dec i) "PhotometricGalaxy" (Z.of_nat i)) (seq 0 n)) [] [] false.
Definition ex_bins (n : nat) : dict string (density Qc) := [("PhotometricGalaxy"%string, mkDe n (map (fun i => qz (Z.of_nat i)) (seq 0 (n + 1))) (fun _ _ => qz 1))].
Definition weights (r : res (density Qc * (nat -> nat -> Qc))) (n z : nat) : list Q := match r with Ok dw => map (fun i => this (snd dw i z)) (seq 0 n) | Err _ => [] end.
Example C108_eleven_instance : Permutation (dkeys (match ex_eleven with (_, f) :: _ => bf_nuis f | [] => [] end)) (map (fun i => ("b" ++ dec i)%string) (seq 0 11)) /\
  weights (weight_of ex_num ex_an ex_eleven (ex_pars 11) (ex_bins 11) ex_co None "PhotometricGalaxy" (ex_gal "PhotometricGalaxy")) 11 0 = map (fun i => this (qz i)) [0; 1; 10; 2; 3; 4; 5; 6; 7; 8; 9]%Z.
Proof. split; [vm_compute; apply Permutation_refl|vm_compute; reflexivity]. Qed.
(** Ten bins written in reverse. *)
Definition ex_ten : dict string (bfile Qc) := [("b.h5"%string, mkBf None "constant" (rev (map (fun i => (("b" ++ dec i)%string, qz 0)) (seq 0 10))) [])].
Example C108_ten_instance : weights (weight_of ex_num ex_an ex_ten (ex_pars 10) (ex_bins 10) ex_co None "PhotometricGalaxy" (ex_gal "PhotometricGalaxy")) 10 0 = map (fun i => this (qz i)) [0; 1; 2; 3; 4; 5; 6; 7; 8; 9]%Z.
Proof. vm_compute; reflexivity. Qed.
(** Eleven bins of piecewise bias: at the redshift 2 the parameter of number 2; the
    edges of the file, from 0 in steps of 1/2, move it to number 4. *)
Definition ex_piece (e : option (list Qc)) : dict string (bfile Qc) := [("b.h5"%string, mkBf e "piecewise" (map (fun i => (("b" ++ dec i)%string, qz 0)) (seq 0 11)) [])].
Example C108_piecewise_instance :
  weights (weight_of ex_num ex_an (ex_piece None) (ex_pars 11) (ex_bins 11) ex_co None "PhotometricGalaxy" (ex_gal "PhotometricGalaxy")) 2 2 = [this (qz 6); this (qz 6)] /\
  weights (weight_of ex_num ex_an (ex_piece (Some (map (fun i => qq (Z.of_nat i) 2) (seq 0 12)))) (ex_pars 11) (ex_bins 11) ex_co None "PhotometricGalaxy" (ex_gal "PhotometricGalaxy")) 2 2 = [this (qz 12); this (qz 12)].
Proof. split; vm_compute; reflexivity. Qed.
Definition ex_flag : dict string (bfile Qc) := [("b.h5"%string, mkBf None "euclid_flagship_photo" [("Aph", qz 0); ("Bph", qz 0); ("Cph", qz 0); ("Dph", qz 0)]%string [])].
Definition ex_flag_pars : coll Qc := mkColl [ex_par "Aph" "PhotometricGalaxy" 1; ex_par "Bph" "PhotometricGalaxy" 2; ex_par "Cph" "PhotometricGalaxy" 3; ex_par "Dph" "PhotometricGalaxy" 4] [] [] false.
Example C108_flagship_instance : weights (weight_of ex_num ex_an ex_flag ex_flag_pars (ex_bins 2) ex_co None "PhotometricGalaxy" (ex_gal "PhotometricGalaxy")) 2 2 = [this (qz 15); this (qz 15)].
Proof. vm_compute; reflexivity. Qed.
(** Voids: growth of the fiducial cosmology (its factor is twice that of the
    current one), and the other model. *)
Definition ex_fid : cosmology Qc := mkCo (co_zs ex_co) (co_H ex_co) (co_r ex_co) (co_rt ex_co) (fun _ => qz 2) (qz 1) (qz 1) (qz 1) (co_pk ex_co).
Definition ex_void (model : string) : dict string (bfile Qc) := [("b.h5"%string, mkBf None model (if String.eqb model "vdn_void" then [] else [("voidbias0"%string, qz 0)]) [])].
Example C108_growth_instance :
  weights (weight_of ex_num ex_an (ex_void "fiducial_growth_void") ex_pp ex_dens ex_co (Some ex_fid) "Void" (ex_gal "Void")) 2 0 = [this (qz 3); this (qz 6)] /\
  weights (weight_of ex_num ex_an (ex_void "vdn_void") ex_pp ex_dens ex_co None "Void" (ex_gal "Void")) 2 0 = [this (qq 1 2); this (qz 3)].
Proof. split; vm_compute; reflexivity. Qed.
Example C108_lensing_instance :
  weights (weight_of ex_num ex_an ex_files ex_pp ex_dens ex_co None "Lensing" (mkPc "Lensing" [qz 10] [qz 1] "d.h5" None false [] [("include_IA"%string, SBool false)])) 2 0 = [this (qq 9 2); this (qq 25 4)] /\
  weights (weight_of ex_num ex_an ex_files ex_pp ex_dens ex_co None "Lensing" (mkPc "Lensing" [qz 10] [qz 1] "d.h5" None false [] [("include_IA"%string, SBool true)])) 2 0 = [this (qq 7 2); this (qq 17 4)].
Proof. split; vm_compute; reflexivity. Qed.
Definition err (r : res (density Qc * (nat -> nat -> Qc))) : option exc := match r with Ok _ => None | Err e => Some e end.
Example C108_errors_instance :
  err (weight_of ex_num ex_an ex_eleven (ex_pars 11) [] ex_co None "PhotometricGalaxy" (ex_gal "PhotometricGalaxy")) = Some EKeyError /\
  err (weight_of ex_num ex_an ex_eleven (ex_pars 10) (ex_bins 11) ex_co None "PhotometricGalaxy" (ex_gal "PhotometricGalaxy")) = Some EKeyError /\
  err (weight_of ex_num ex_an (ex_void "constant") ex_pp ex_dens ex_co None "Void" (ex_gal "Void")) = Some ENotImplemented /\
  err (weight_of ex_num ex_an (ex_void "fiducial_growth_void") ex_pp ex_dens ex_co None "Void" (ex_gal "Void")) = Some EAttributeError /\
  err (weight_of ex_num ex_an (ex_void "vdn_void") ex_pp ex_dens ex_co None "PhotometricGalaxy" (ex_gal "PhotometricGalaxy")) = Some EAttributeError.
Proof. repeat split; vm_compute; reflexivity. Qed.

Print Assumptions C108_constant.
Print Assumptions C108_ten_bins.
Print Assumptions C108_eleven_bins_refuted.
Print Assumptions C108_piecewise.
Print Assumptions C108_flagship.
Print Assumptions C108_growth.
Print Assumptions C108_vdn.
Print Assumptions C108_lensing.
Print Assumptions C108_edges.
Print Assumptions C108_errors.
