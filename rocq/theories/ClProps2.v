(** C68: the analytic derivative for a piecewise bias.  C97: lensing weights. *)
From Coq Require Import Field QArith Qcanon.
From Verif Require Import Base SortLib StrLib NameModel KeyModel ParamModel EvalModel OrdLib NumModel NumLemmas NumLemmas2 BiasModel ClModel ClProps WeightModel.
Open Scope list_scope.

Section P.
  Context {F : Type} {K : Fld F} {O : OFld (F := F)}.
  Open Scope fld_scope.
  Add Field FF : fth.

  Lemma combine_filter {A B} (f : A -> bool) (xs : list A) : forall (ys : list B), length xs = length ys ->
    combine (filter f xs) (map snd (filter (fun xy => f (fst xy)) (combine xs ys))) = filter (fun xy => f (fst xy)) (combine xs ys) /\
    length (filter f xs) = length (map snd (filter (fun xy => f (fst xy)) (combine xs ys))).
  Proof.
    induction xs as [|x xs IH]; intros [|y ys] E; try discriminate E; [split; reflexivity|]. injection E as E. destruct (IH ys E) as [A1 A2]. cbn [combine filter fst].
    destruct (f x); [cbn; rewrite A1, <- A2; split; reflexivity|split; assumption].
  Qed.
  (** The integral over exactly the nodes of the grid in the closed bin, over the
      bias, once for each probe of the spectrum that is the parameter's. *)
  Theorem C68_piecewise simps p p1 p2 ni nj edges zs y (c d : arr3 (F := F)) : is_bias p = true -> probe_is p p1 || probe_is p p2 = true -> fiducial p <> 0 ->
    (forall l i j, length (y l i j) = length zs) -> analytic_derivative simps p p1 p2 "piecewise" ni nj edges zs y c = Ok d ->
    exists ch k, last_char (pp_name p) = Some ch /\ is_digit ch = true /\ k = digit_val ch /\ (k + 1 < length edges)%nat /\
      forall l i j, exists xs ys, length xs = length ys /\
        (forall z v, In (z, v) (combine xs ys) <-> In (z, v) (combine zs (y l i j)) /\ fle (at_ edges k) z /\ fle z (at_ edges (k + 1))) /\
        d l i j = fnat ((if probe_is p p1 then 1 else 0) + (if probe_is p p2 then 1 else 0)) / fiducial p * simps ys xs.
  Proof.
    intros B Q N LY. unfold analytic_derivative, do_analytic. assert (T : is_nuis p && negb (probe_is p p1) && negb (probe_is p p2) = false) by (destruct (probe_is p p1), (probe_is p p2), (is_nuis p); auto; discriminate).
    rewrite T, B. assert (T' : negb (probe_is p p1) && negb (probe_is p p2) = false) by (destruct (probe_is p p1), (probe_is p p2); auto; discriminate). rewrite T'. cbn [negb String.eqb Ascii.eqb Bool.eqb].
    unfold digit_index. destruct (last_char (pp_name p)) as [ch|]; [|discriminate]. destruct (is_digit ch) eqn:D; [|discriminate]. cbn [rbind].
    destruct (Nat.leb_spec (length edges) (digit_val ch + 1)) as [|L]; [discriminate|]. destruct (feqb (fiducial p) 0 && negb (Nat.eqb (ni * nj) 0)); [discriminate|]. intros E. injection E as <-.
    exists ch, (digit_val ch). repeat split; auto. intros l i j. set (k := digit_val ch) in *. exists (filter (in_bin edges k) zs), (masked edges zs k (y l i j)).
    destruct (combine_filter (in_bin edges k) zs (y l i j) (eq_sym (LY l i j))) as [C1 C2]. split; [exact C2|]. split.
    - intros z v. unfold masked. rewrite C1, filter_In. cbn [fst]. unfold in_bin. rewrite andb_true_iff, !fleb'_iff. tauto.
    - unfold analytic_piecewise. destruct (probe_is p p1), (probe_is p p2); cbn [Nat.add fnat]; field; exact N.
  Qed.

  (** ** Lensing weights *)
  Definition vanishing (simps : list F -> list F -> F) : Prop := forall ys xs, (forall y, In y ys -> y = 0) -> simps ys xs = 0.
  Definition additive (simps : list F -> list F -> F) : Prop := forall a b (g h : nat -> F) l xs,
    simps (map (fun x => a * g x + b * h x) l) xs = a * simps (map g l) xs + b * simps (map h l) xs.
  Definition positive (simps : list F -> list F -> F) : Prop := forall ys xs, (forall y, In y ys -> fle 0 y) -> fle 0 (simps ys xs).

  (** The weight of a bin at a redshift depends only on its sources beyond that redshift. *)
  Theorem C97_beyond simps quad bins Omm H0 c zs n n' r rt w w' : lensing_weights simps quad "simpson" bins Omm H0 c zs n r rt None = Ok w ->
    lensing_weights simps quad "simpson" bins Omm H0 c zs n' r rt None = Ok w' ->
    forall i z, r z <> 0 -> (forall x, (z < x < length zs)%nat -> n i x = n' i x) -> w i z = w' i z.
  Proof.
    unfold lensing_weights, efficiency. destruct (Nat.eqb bins 0); cbn [String.eqb Ascii.eqb Bool.eqb rbind]; intros E E'; injection E as <-; injection E' as <-; intros i z R A; [reflexivity|].
    unfold lensing_weight, eff_simpson. f_equal. f_equal. apply map_ext_in. intros x I. apply in_seq in I. destruct (Nat.eq_dec x z) as [->|N].
    - replace (1 - r z / r z) with (0 : F) by (field; exact R). ring.
    - rewrite A by lia. reflexivity.
  Qed.
  (** Without sources beyond it there is no lensing: the weight is zero, and with
      intrinsic alignments it is minus their term. *)
  Theorem C97_behind simps quad bins Omm H0 c zs n r rt ia w : vanishing simps -> lensing_weights simps quad "simpson" bins Omm H0 c zs n r rt ia = Ok w ->
    forall i z, r z <> 0 -> (forall x, (z < x < length zs)%nat -> n i x = 0) -> w i z = match ia with Some a => - a i z | None => 0 end.
  Proof.
    intros V. unfold lensing_weights, efficiency. intros E i z R A.
    assert (X : forall e : nat -> nat -> F, e i z = 0 -> lensing_weight Omm H0 c (at_ zs) rt e ia i z = match ia with Some a => - a i z | None => 0 end).
    { intros e Z. unfold lensing_weight. rewrite Z. destruct ia; ring. }
    destruct (Nat.eqb bins 0); cbn [String.eqb Ascii.eqb Bool.eqb rbind] in E; injection E as <-; apply X; [reflexivity|].
    unfold eff_simpson. apply V. intros y I. apply in_map_iff in I as (x & <- & I). apply in_seq in I. destruct (Nat.eq_dec x z) as [->|N].
    - replace (1 - r z / r z) with (0 : F) by (field; exact R). ring.
    - rewrite A by lia. ring.
  Qed.
  (** Intrinsic alignments are taken off the weight, in proportion to their
      amplitude and to the density of the bin at the redshift itself. *)
  Theorem C97_alignment simps quad method bins Omm H0 c zs n r rt A C Fz H D w0 w : 
    lensing_weights simps quad method bins Omm H0 c zs n r rt None = Ok w0 -> lensing_weights simps quad method bins Omm H0 c zs n r rt (Some (ia_weight A C Omm c Fz H D n)) = Ok w ->
    forall i z, c <> 0 -> D z <> 0 -> w0 i z - w i z = A * C * Omm * H z / c * Fz z / D z * n i z.
  Proof.
    unfold lensing_weights. destruct (efficiency simps quad method bins zs n r) as [e|]; [|discriminate]. cbn [rbind]. intros E E'. injection E as <-. injection E' as <-. intros i z Nc ND.
    unfold lensing_weight, ia_weight. match goal with |- ?a - (?a - _) = _ => generalize a end. intros a. field. auto.
  Qed.
  (** The weight is linear in the density of the sources. *)
  Theorem C97_linear simps quad bins Omm H0 c zs n n1 n2 a b r rt w w1 w2 : additive simps -> (bins <> 0)%nat -> (forall i x, n i x = a * n1 i x + b * n2 i x) ->
    lensing_weights simps quad "simpson" bins Omm H0 c zs n r rt None = Ok w -> lensing_weights simps quad "simpson" bins Omm H0 c zs n1 r rt None = Ok w1 ->
    lensing_weights simps quad "simpson" bins Omm H0 c zs n2 r rt None = Ok w2 -> forall i z, w i z = a * w1 i z + b * w2 i z.
  Proof.
    intros L Nb E. unfold lensing_weights, efficiency. destruct (Nat.eqb_spec bins 0) as [X|_]; [contradiction|]. cbn [String.eqb Ascii.eqb Bool.eqb rbind].
    intros E0 E1 E2. injection E0 as <-. injection E1 as <-. injection E2 as <-. intros i z. unfold lensing_weight, eff_simpson.
    replace (map (fun x => n i x * (1 - r z / r x)) (seq z (length zs - z))) with (map (fun x => a * (n1 i x * (1 - r z / r x)) + b * (n2 i x * (1 - r z / r x))) (seq z (length zs - z)))
      by (apply map_ext; intros x; rewrite E; ring).
    rewrite L. ring.
  Qed.
  (** It is not negative when distances grow with redshift and the quadrature keeps signs. *)
  Theorem C97_nonnegative simps quad bins Omm H0 c zs n r rt w : positive simps -> fle 0 Omm -> fle 0 H0 -> flt 0 c ->
    (forall z, fle 0 (1 + at_ zs z)) -> (forall z, fle 0 (rt z)) -> (forall z, flt 0 (r z)) -> (forall x z, (x <= z)%nat -> fle (r x) (r z)) -> (forall i x, fle 0 (n i x)) ->
    lensing_weights simps quad "simpson" bins Omm H0 c zs n r rt None = Ok w -> forall i z, fle 0 (w i z).
  Proof.
    intros V HO HH HC HZ HR R0 RM HN. unfold lensing_weights, efficiency. intros E i z.
    assert (D : forall x y : F, fle 0 x -> flt 0 y -> fle 0 (x / y)).
    { intros x y A B. replace (x / y) with (x * (1 / y)) by (field; apply (flt_neq' _ _ B)). apply fle_mul; [exact A|apply flt_le, flt_inv, B]. }
    assert (X : forall e : nat -> nat -> F, fle 0 (e i z) -> fle 0 (lensing_weight Omm H0 c (at_ zs) rt e None i z)).
    { intros e Z. unfold lensing_weight. repeat apply fle_mul; auto. apply D; [apply flt_le, fnat_pos; lia|apply fnat_pos; lia]. }
    destruct (Nat.eqb bins 0); cbn [String.eqb Ascii.eqb Bool.eqb rbind] in E; injection E as <-; apply X; [apply fle_refl|].
    unfold eff_simpson. apply V. intros y I. apply in_map_iff in I as (x & <- & I). apply in_seq in I. apply fle_mul; [apply HN|].
    pose proof (flt_neq' _ _ (R0 x)) as Nx. replace (1 - r z / r x) with ((r x - r z) / r x) by (field; exact Nx). apply D; [|apply R0].
    replace (0 : F) with (r z + - r z) by ring. replace (r x - r z) with (r x + - r z) by ring. apply fle_add. apply RM. lia.
  Qed.
  (** Only two methods are known; with no bin the method is not looked at. *)
  Theorem C97_methods simps quad method bins Omm H0 c zs n r rt ia : lensing_weights simps quad method bins Omm H0 c zs n r rt ia = Err EValueError <->
    (bins <> 0)%nat /\ method <> "quad"%string /\ method <> "simpson"%string.
  Proof.
    unfold lensing_weights, efficiency. destruct (Nat.eqb_spec bins 0) as [->|Nb]; [split; [discriminate|intros (X & _); congruence]|].
    destruct (String.eqb_spec method "quad") as [->|N1]; [split; [discriminate|intros (_ & X & _); congruence]|].
    destruct (String.eqb_spec method "simpson") as [->|N2]; [split; [discriminate|intros (_ & _ & X); congruence]|]. split; [auto|reflexivity].
  Qed.
End P.

Example C68_instance_piecewise : let p := bias_par "bgph1" (qz 2) in
  is_bias p = true /\ probe_is p "PhotometricGalaxy" || probe_is p "Lensing" = true /\ fiducial p <> 0%Qc /\
  exists d, analytic_derivative (fun ys _ => fold_right Qcplus 0%Qc ys) p "PhotometricGalaxy" "Lensing" "piecewise" 2 2 [qz 0; qz 1; qz 2] [qz 0; qz 1; qz 2; qz 3] (fun _ _ _ => [qz 1; qz 2; qz 4; qz 8]) (fun _ _ _ => 0%Qc) = Ok d /\
    feqb (d 0 0 0)%nat (qz 3) = true.
Proof. cbv zeta. split; [reflexivity|]. split; [reflexivity|]. split; [discriminate|]. eexists. split; [reflexivity|]. vm_compute. reflexivity. Qed.
(** Instances: the trapezoidal rule, three redshifts, one bin. *)
Fixpoint trapezoid (ys xs : list Qc) : Qc :=
  match ys, xs with
  | y1 :: ((y2 :: _) as ys), x1 :: ((x2 :: _) as xs) => ((x2 - x1) * ((y1 + y2) / qz 2) + trapezoid ys xs)%Qc
  | _, _ => 0%Qc
  end.
Example C97_instance :
  let zs := [qq 1 2; qz 1; qz 2] in let n (i x : nat) : Qc := if Nat.eqb x 2 then qz 1 else if Nat.eqb x 1 then qz 2 else qz 0 in
  match lensing_weights trapezoid (fun _ _ => 0%Qc) "simpson" 1 (qq 1 3) (qz 2) (qz 3) zs n (fun x => qz (Z.of_nat x + 1)) (fun x => qz (Z.of_nat x + 1)) None with
  | Ok w => feqb (w 0%nat 0%nat) (qq 13 24) && feqb (w 0%nat 2%nat) 0%Qc && negb (feqb (w 0%nat 1%nat) 0%Qc) = true
  | Err _ => False
  end.
Proof. vm_compute. reflexivity. Qed.

Print Assumptions C68_piecewise.
Print Assumptions C97_beyond.
Print Assumptions C97_behind.
Print Assumptions C97_alignment.
Print Assumptions C97_linear.
Print Assumptions C97_nonnegative.
Print Assumptions C97_methods.
