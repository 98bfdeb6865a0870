(** Newton-Cotes integration. *)
From Verif Require Import Base SortLib ParamModel EvalModel EvalSpec EllLemmas OrdLib NumModel.
From Coq Require Import Field.
Open Scope list_scope.

Section NC.
  Context {F : Type} {K : Fld F} {O : OFld (F := F)}.
  Add Field FldNC : (fth (F := F)).
  Open Scope fld_scope.

  (** Polynomials by their coefficients, lowest first; antiderivatives. *)
  Fixpoint peval (cs : list F) (x : F) : F := match cs with [] => 0 | c :: r => c + x * peval r x end.
  Fixpoint anti_from (k : nat) (cs : list F) (x : F) : F :=
    match cs with [] => 0 | c :: r => c * fpow x (Datatypes.S k) / fnat (Datatypes.S k) + anti_from (Datatypes.S k) r x end.
  Definition anti (cs : list F) (x : F) : F := anti_from 0 cs x.
  Fixpoint peval_from (k : nat) (cs : list F) (x : F) : F :=
    match cs with [] => 0 | c :: r => c * fpow x k + peval_from (Datatypes.S k) r x end.
  Lemma peval_from_eq k cs x : peval_from k cs x = fpow x k * peval cs x.
  Proof. revert k. induction cs as [|c r IH]; intros k; cbn [peval_from peval]; [ring|]. rewrite IH. cbn [fpow]. ring. Qed.

  (** One panel of [order] intervals. *)
  Definition panel (order : nat) (h : F) (f : nat -> F) : F := h * Fsum (fun i => at_ (nc_weights order) i * f i) (seq 0 (order + 1)).
  Lemma panel_ext order h f g : (forall i, (i <= order)%nat -> f i = g i) -> panel order h f = panel order h g.
  Proof. intros H. unfold panel. f_equal. apply Fsum_ext. intros i Hi. apply in_seq in Hi. rewrite H by lia. reflexivity. Qed.
  Lemma panel_plus order h f g : panel order h (fun i => f i + g i) = panel order h f + panel order h g.
  Proof.
    unfold panel. rewrite (Fsum_ext _ (fun i => at_ (nc_weights order) i * f i + at_ (nc_weights order) i * g i)) by (intros; ring).
    rewrite Fsum_plus. ring.
  Qed.
  Lemma panel_scale order h a f : panel order h (fun i => a * f i) = a * panel order h f.
  Proof.
    unfold panel. rewrite (Fsum_ext _ (fun i => a * (at_ (nc_weights order) i * f i))) by (intros; ring). rewrite Fsum_scale. ring.
  Qed.
  Lemma panel_zero order h : panel order h (fun _ => 0) = 0.
  Proof. unfold panel. rewrite Fsum_zero by (intros; ring). ring. Qed.
  (** Degree of exactness of the rule. *)
  Definition degree_of (order : nat) : nat := if Nat.even order then (order + 1)%nat else order.

  Lemma at_map na D vs i : at_ (map (fun v => fnat na * fnat v / fnat D) vs) i = (fnat na * fnat (nth i vs 0%nat)) * (1 / fnat (F := F) D) \/ D = 0%nat.
  Proof.
    destruct D as [|D]; [right; reflexivity|left]. unfold at_. assert (N : fnat (F := F) (Datatypes.S D) <> 0) by (apply fnat_neq; lia).
    revert i. induction vs as [|v vs IH]; intros [|i]; cbn [map nth]; try (cbn [fnat] in *; field; exact N). apply IH.
  Qed.
  Lemma panel_raw (na D : nat) vs order h f (R : F) m : nc_weights order = map (fun v => fnat na * fnat v / fnat D) vs -> (0 < D)%nat ->
    fnat m * (h * (fnat na * Fsum (fun i => fnat (nth i vs 0%nat) * f i) (seq 0 (order + 1)))) = R * fnat D ->
    fnat m * panel order h f = R.
  Proof.
    intros E HD H. unfold panel. rewrite E. assert (N : fnat (F := F) D <> 0) by (apply fnat_neq; exact HD).
    rewrite (Fsum_ext _ (fun i => (fnat na / fnat D) * (fnat (nth i vs 0%nat) * f i))).
    - rewrite Fsum_scale. transitivity ((fnat m * (h * (fnat na * Fsum (fun i => fnat (nth i vs 0%nat) * f i) (seq 0 (order + 1))))) / fnat D); [field; exact N|].
      rewrite H. field. exact N.
    - intros i _. destruct (at_map na D vs i) as [G|G]; [|lia]. rewrite G. field. exact N.
  Qed.
  Lemma panel_mono order d x h : (1 <= order <= 6)%nat -> (d <= degree_of order)%nat ->
    fnat (Datatypes.S d) * panel order h (fun i => fpow (x + fnat i * h) d) = fpow (x + fnat order * h) (Datatypes.S d) - fpow x (Datatypes.S d).
  Proof.
    intros Ho Hd. destruct order as [|[|[|[|[|[|[|order]]]]]]]; try lia.
    - do 2 (destruct d as [|d]; [eapply panel_raw; [reflexivity|lia|]; cbn [fnat Fsum seq nth fpow Nat.add]; ring|]). cbn in Hd. lia.
    - do 4 (destruct d as [|d]; [eapply panel_raw; [reflexivity|lia|]; cbn [fnat Fsum seq nth fpow Nat.add]; ring|]). cbn in Hd. lia.
    - do 4 (destruct d as [|d]; [eapply panel_raw; [reflexivity|lia|]; cbn [fnat Fsum seq nth fpow Nat.add]; ring|]). cbn in Hd. lia.
    - do 6 (destruct d as [|d]; [eapply panel_raw; [reflexivity|lia|]; cbn [fnat Fsum seq nth fpow Nat.add]; ring|]). cbn in Hd. lia.
    - do 6 (destruct d as [|d]; [eapply panel_raw; [reflexivity|lia|]; cbn [fnat Fsum seq nth fpow Nat.add]; ring|]). cbn in Hd. lia.
    - do 8 (destruct d as [|d]; [eapply panel_raw; [reflexivity|lia|]; cbn [fnat Fsum seq nth fpow Nat.add]; ring|]). cbn in Hd. lia.
  Qed.
  Lemma panel_poly_from order k cs x h : (1 <= order <= 6)%nat -> (k + length cs <= degree_of order + 1)%nat ->
    panel order h (fun i => peval_from k cs (x + fnat i * h)) = anti_from k cs (x + fnat order * h) - anti_from k cs x.
  Proof.
    intros Ho. revert k. induction cs as [|c r IH]; intros k Hl; cbn [peval_from anti_from].
    - rewrite panel_zero. ring.
    - cbn [length] in Hl. rewrite panel_plus, IH by lia. rewrite panel_scale.
      assert (N : fnat (F := F) (Datatypes.S k) <> 0) by (apply fnat_neq; lia).
      pose proof (panel_mono order k x h Ho) as M. specialize (M ltac:(lia)).
      set (P := panel order h (fun i => fpow (x + fnat i * h) k)) in *.
      replace P with ((fpow (x + fnat order * h) (Datatypes.S k) - fpow x (Datatypes.S k)) / fnat (Datatypes.S k)).
      + field. exact N.
      + rewrite <- M. field. exact N.
  Qed.
  Lemma panel_poly order cs x h : (1 <= order <= 6)%nat -> (length cs <= degree_of order + 1)%nat ->
    panel order h (fun i => peval cs (x + fnat i * h)) = anti cs (x + fnat order * h) - anti cs x.
  Proof.
    intros Ho Hl. unfold anti. rewrite <- (panel_poly_from order 0 cs x h Ho) by lia. apply panel_ext. intros i _. rewrite peval_from_eq. cbn [fpow]. ring.
  Qed.

  (** The sum is made of panels. *)
  Lemma nc_panels order x y : (1 <= order)%nat ->
    let n := length x in let h := at_ x 1 - at_ x 0 in
    nc_sum order x y =
      Fsum (fun k => panel order h (fun i => at_ y (order * k + i))) (seq 0 ((n - 1) / order)) +
      (if Nat.eqb ((n - 1) mod order) 0 then 0 else panel ((n - 1) mod order) h (fun i => at_ y (order * ((n - 1) / order) + i))).
  Proof.
    intros Ho. cbn zeta. unfold nc_sum. set (h := at_ x 1 - at_ x 0). set (n := length x).
    assert (E : Fsum (fun delta => h * Fsum (fun k => at_ (nc_weights order) delta * at_ y (order * k + delta)) (seq 0 ((n - 1) / order))) (seq 0 (order + 1)) =
                Fsum (fun k => panel order h (fun i => at_ y (order * k + i))) (seq 0 ((n - 1) / order))).
    { rewrite Fsum_scale, Fsum_comm. unfold panel. rewrite Fsum_scale. reflexivity. }
    rewrite E. destruct (Nat.eqb_spec ((n - 1) mod order) 0) as [e|ne]; [ring|]. f_equal. unfold panel.
    f_equal. apply Fsum_ext. intros i _. do 2 f_equal. pose proof (Nat.div_mod (n - 1) order ltac:(lia)) as D.
    assert ((n - 1) mod order < order)%nat by (apply Nat.mod_upper_bound; lia).
    replace (n - (n - 1) mod order - 1)%nat with (order * ((n - 1) / order))%nat by (destruct n; [cbn in ne; rewrite Nat.mod_0_l in ne by lia; contradiction|lia]).
    reflexivity.
  Qed.

  (** Equally spaced samples. *)
  Definition grid (x0 h : F) (n : nat) : list F := map (fun i => x0 + fnat i * h) (seq 0 n).
  Lemma grid_length x0 h n : length (grid x0 h n) = n.
  Proof. unfold grid. rewrite map_length, seq_length. reflexivity. Qed.
  Lemma at_grid x0 h n (f : F -> F) i : (i < n)%nat -> at_ (map f (grid x0 h n)) i = f (x0 + fnat i * h).
  Proof.
    intros H. unfold at_, grid. rewrite map_map. rewrite (nth_indep _ _ (f (x0 + fnat 0 * h))) by (rewrite map_length, seq_length; exact H).
    rewrite (map_nth (fun i => f (x0 + fnat i * h))), seq_nth by exact H. reflexivity.
  Qed.
  Lemma grid_step x0 h n : (2 <= n)%nat -> at_ (grid x0 h n) 1 - at_ (grid x0 h n) 0 = h.
  Proof.
    intros H. rewrite <- (map_id (grid x0 h n)), !at_grid by lia. cbn [fnat]. ring.
  Qed.
  Lemma Fsum_tel (g : nat -> F) n : Fsum (fun k => g (Datatypes.S k) - g k) (seq 0 n) = g n - g 0%nat.
  Proof. induction n as [|n IH]; [cbn; ring|]. rewrite seq_S, Fsum_app, IH. cbn. ring. Qed.

  Lemma nc_exact order cs x0 h n : (1 <= order <= 6)%nat -> (2 <= n)%nat ->
    (length cs <= degree_of order + 1)%nat ->
    ((n - 1) mod order = 0 \/ length cs <= degree_of ((n - 1) mod order) + 1)%nat ->
    nc_sum order (grid x0 h n) (map (peval cs) (grid x0 h n)) = anti cs (x0 + fnat (n - 1) * h) - anti cs x0.
  Proof.
    intros Ho Hn Hl He. rewrite nc_panels by lia. cbn zeta. rewrite grid_length, grid_step by exact Hn.
    set (b := ((n - 1) / order)%nat). set (e := ((n - 1) mod order)%nat). pose proof (Nat.div_mod (n - 1) order ltac:(lia)) as D.
    fold b in D. fold e in D. fold e in He. assert (Hm : (e < order)%nat) by (apply Nat.mod_upper_bound; lia).
    rewrite (Fsum_ext _ (fun k => anti cs (x0 + fnat (order * Datatypes.S k) * h) - anti cs (x0 + fnat (order * k) * h))).
    - rewrite (Fsum_tel (fun k => anti cs (x0 + fnat (order * k) * h))). destruct (Nat.eqb_spec e 0) as [e0|ne].
      + replace (n - 1)%nat with (order * b)%nat by lia. replace (order * 0)%nat with 0%nat by lia. cbn [fnat]. replace (x0 + 0 * h) with x0 by ring. ring.
      + rewrite (panel_ext e h _ (fun i => peval cs ((x0 + fnat (order * b) * h) + fnat i * h))).
        * rewrite panel_poly by lia. replace (x0 + fnat (order * b) * h + fnat e * h) with (x0 + fnat (n - 1) * h).
          -- replace (order * 0)%nat with 0%nat by lia. cbn [fnat]. replace (x0 + 0 * h) with x0 by ring. ring.
          -- rewrite D, fnat_add. ring.
        * intros i Hi. rewrite at_grid by lia. f_equal. rewrite fnat_add. ring.
    - intros k Hk. apply in_seq in Hk. assert (order * Datatypes.S k <= order * b)%nat by (apply Nat.mul_le_mono_l; lia).
      rewrite (panel_ext order h _ (fun i => peval cs ((x0 + fnat (order * k) * h) + fnat i * h))).
      + rewrite panel_poly by lia. f_equal. f_equal. replace (order * Datatypes.S k)%nat with (order * k + order)%nat by lia. rewrite fnat_add. ring.
      + intros i Hi. rewrite at_grid by lia. f_equal. rewrite fnat_add. ring.
  Qed.

  Lemma at_map2 (f : F -> F -> F) l m i : length l = length m -> f 0 0 = 0 -> at_ (map (fun p => f (fst p) (snd p)) (combine l m)) i = f (at_ l i) (at_ m i).
  Proof.
    unfold at_. intros E Z. revert m i E. induction l as [|a l IH]; intros [|b m] i E; try discriminate; destruct i; cbn; try (symmetry; exact Z); try reflexivity.
    apply IH. cbn in E. lia.
  Qed.
  Lemma nc_linear order x y z a b : (1 <= order)%nat -> length y = length z ->
    nc_sum order x (map (fun p => a * fst p + b * snd p) (combine y z)) = a * nc_sum order x y + b * nc_sum order x z.
  Proof.
    intros Ho E. rewrite !nc_panels by exact Ho. cbn zeta. set (h := at_ x 1 - at_ x 0).
    assert (P : forall o t, panel o h (fun i => at_ (map (fun p => a * fst p + b * snd p) (combine y z)) (t + i)) =
                 a * panel o h (fun i => at_ y (t + i)) + b * panel o h (fun i => at_ z (t + i))).
    { intros o t. rewrite <- !panel_scale, <- panel_plus. apply panel_ext. intros i _.
      rewrite (at_map2 (fun u v => a * u + b * v)); [reflexivity|exact E|ring]. }
    rewrite (Fsum_ext _ (fun k => a * panel order h (fun i => at_ y (order * k + i)) + b * panel order h (fun i => at_ z (order * k + i)))) by (intros; apply P).
    rewrite Fsum_plus, !Fsum_scale. destruct (Nat.eqb _ 0); [ring|]. rewrite P. ring.
  Qed.
  (** Order 1: the trapezoids. *)
  Lemma nc_trapezoid x y : (1 <= length x)%nat ->
    nc_sum 1 x y = Fsum (fun k => (at_ x 1 - at_ x 0) * (at_ y k + at_ y (Datatypes.S k)) / fnat 2) (seq 0 (length x - 1)).
  Proof.
    intros H. rewrite nc_panels by lia. cbn zeta. rewrite Nat.div_1_r, Nat.mod_1_r. cbn [Nat.eqb].
    replace (Fsum (fun k => panel 1 (at_ x 1 - at_ x 0) (fun i => at_ y (1 * k + i))) (seq 0 (length x - 1)) + 0) with
      (Fsum (fun k => panel 1 (at_ x 1 - at_ x 0) (fun i => at_ y (1 * k + i))) (seq 0 (length x - 1))) by ring.
    apply Fsum_ext. intros k _. unfold panel. cbn [seq Nat.add Fsum nc_weights map at_ nth]. unfold at_.
    replace (1 * k + 0)%nat with k by lia. replace (1 * k + 1)%nat with (Datatypes.S k) by lia.
    assert (N : (1 + 1 : F) <> 0) by (intros Z; apply (fnat_neq (F := F) 2); [lia|]; cbn [fnat]; transitivity (1 + 1 : F); [ring|exact Z]). cbn [fnat nth]. field. exact N.
  Qed.
End NC.
