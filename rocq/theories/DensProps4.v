(** C87, C90: undershooting splines, reloaded densities; an instance of the
    assumptions on scipy and examples for C87-C90. *)
From Verif Require Import Base SortLib ParamModel OrdLib EvalModel EvalSpec NumModel DensModel DensSpec DensLemmas DensProps DensProps2 DensProps3.
From Coq Require Import Field Sorted.
Open Scope string_scope.
Open Scope list_scope.

Section Inst.
  Context {F : Type} {K : Fld F} {O : OFld (F := F)}.
  Add Field DensProps4F : (fth (F := F)).
  Open Scope fld_scope.

  (** The polynomial through given points. *)
  Definition basis (x : list F) (i : nat) (z : F) (ks : list nat) : F :=
    fold_right (fun k acc => (if Nat.eqb k i then 1 else (z - nth k x 0) / (nth i x 0 - nth k x 0)) * acc) 1 ks.
  Definition lagrange (x y : list F) (z : F) : F := Fsum (fun i => nth i y 0 * basis x i z (seq 0 (length x))) (seq 0 (length x)).
  Definition poly_spline (x y : list F) (z : F) : F :=
    match x with [] => 0 | a :: r => if fltb z a then 0 else if fltb (last r a) z then 0 else lagrange x y z end.
  (** Integration against a finite sum of masses. *)
  Definition atoms (ts : list (F * F)) (f : F -> F) (a b : F) : F :=
    Fsum (fun tw => snd tw * f (fst tw)) (filter (fun tw => fltb a (fst tw) && (if fle_dec (fst tw) b then true else false)) ts).
  Definition model_numerics (ts : list (F * F)) : numerics F := mkNum poly_spline (atoms ts) (fun _ _ => 0) (fun _ => 1) 1 1.

  Lemma basis_self x i ks : increasing x -> (i < length x)%nat -> (forall k, In k ks -> (k < length x)%nat) -> basis x i (nth i x 0) ks = 1.
  Proof.
    intros S L. induction ks as [|k ks IH]; intros H; [reflexivity|]. cbn [basis fold_right]. fold (basis x i (nth i x 0) ks). rewrite IH by (intros; apply H; right; assumption).
    destruct (Nat.eqb k i) eqn:E; [ring|]. apply Nat.eqb_neq in E. assert (Lk : (k < length x)%nat) by (apply H; left; reflexivity).
    assert (D : nth i x 0 - nth k x 0 <> 0).
    { intros C. assert (Q : nth i x 0 = nth k x 0) by (transitivity (nth i x 0 - nth k x 0 + nth k x 0); [ring|rewrite C; ring]).
      destruct (Nat.lt_ge_cases i k) as [T|T]; [apply (flt_neq _ _ (increasing_nth x i k S (conj T Lk))); exact Q|].
      assert (T' : (k < i)%nat) by lia. apply (flt_neq' _ _ (increasing_nth x k i S (conj T' L))); exact Q. }
    field. exact D.
  Qed.
  Lemma basis_other x i j ks : increasing x -> (i < length x)%nat -> (j < length x)%nat -> i <> j -> In j ks -> basis x i (nth j x 0) ks = 0.
  Proof.
    intros S Li Lj D. induction ks as [|k ks IH]; [intros []|]. cbn [basis fold_right]. fold (basis x i (nth j x 0) ks). intros [->|H].
    - destruct (Nat.eqb j i) eqn:E; [apply Nat.eqb_eq in E; congruence|].
      assert (N : nth i x 0 - nth j x 0 <> 0).
      { intros C. assert (Q : nth i x 0 = nth j x 0) by (transitivity (nth i x 0 - nth j x 0 + nth j x 0); [ring|rewrite C; ring]).
        destruct (Nat.lt_ge_cases i j) as [T|T]; [apply (flt_neq _ _ (increasing_nth x i j S (conj T Lj))); exact Q|].
        assert (T' : (j < i)%nat) by lia. apply (flt_neq' _ _ (increasing_nth x j i S (conj T' Li))); exact Q. }
      field. exact N.
    - rewrite IH by exact H. ring.
  Qed.
  Lemma lagrange_nodes x y j : increasing x -> length x = length y -> (j < length x)%nat -> lagrange x y (nth j x 0) = nth j y 0.
  Proof.
    intros S L Lj. unfold lagrange. rewrite (Fsum_single (fun i => nth i y 0 * basis x i (nth j x 0) (seq 0 (length x))) (a := j) (seq_NoDup (length x) 0)).
    - rewrite basis_self; [ring|exact S|exact Lj|]. intros k Hk. apply in_seq in Hk. lia.
    - apply in_seq. lia.
    - intros i Hi D. apply in_seq in Hi. rewrite basis_other; [ring|exact S|lia|exact Lj|exact D|apply in_seq; lia].
  Qed.
  Lemma model_ideal ts : (forall t w, In (t, w) ts -> fle 0 w) -> ideal (model_numerics ts).
  Proof.
    intros W. constructor; cbn [model_numerics spline quad nexp root2pi npi].
    - intros f g a b _ H. apply Fsum_ext. intros [t w] Hin. apply filter_In in Hin. destruct Hin as [_ Hb]. apply andb_true_iff in Hb. destruct Hb as [H1 H2]. cbn [fst snd] in *. apply fltb_iff in H1. destruct (fle_dec t b); [|discriminate]. rewrite (H t); [reflexivity|]. split; [apply flt_le; exact H1|assumption].
    - intros c f a b _. unfold atoms. rewrite <- Fsum_scale. apply Fsum_ext. intros. ring.
    - intros f a b c Hab Hbc. unfold atoms. induction ts as [|[t w] l IH]; [cbn; ring|]. assert (IH' := IH (fun t w H => W t w (or_intror H))). clear IH. cbn [filter fst snd].
      destruct (fltb a t) eqn:E1, (fltb b t) eqn:E2; cbn [andb].
      + destruct (fle_dec t c), (fle_dec t b) as [C|_]; try (apply fltb_iff in E2; destruct (flt_not_le _ _ E2 C)); cbn [Fsum fst snd]; rewrite IH'; ring.
      + apply fltb_false in E2. destruct (fle_dec t b); [|contradiction]. destruct (fle_dec t c) as [_|C]; [|exfalso; apply C; eapply fle_trans; eassumption]. cbn [Fsum fst snd]. rewrite IH'. ring.
      + apply fltb_false in E1. apply fltb_iff in E2. exfalso. apply (flt_not_le _ _ E2). eapply fle_trans; eassumption.
      + exact IH'.
    - intros f a b _ H. apply Fsum_nonneg. intros [t w] Hin. apply filter_In in Hin. destruct Hin as [Hi Hb]. apply andb_true_iff in Hb. destruct Hb as [H1 H2]. cbn [fst snd] in *. apply fltb_iff in H1. destruct (fle_dec t b); [|discriminate]. apply fle_mul; [eapply W; exact Hi|]. apply H. split; [apply flt_le; exact H1|assumption].
    - intros x y i u v S L Hu Hv. assert (Li : (i < length x)%nat) by (apply nth_error_Some; congruence). apply (nth_error_nth _ _ 0) in Hu as Nu. apply (nth_error_nth _ _ 0) in Hv as Nv.
      unfold poly_spline. destruct x as [|a r]; [cbn in Li; lia|].
      assert (A : fle (nth 0 (a :: r) 0) (nth i (a :: r) 0)) by (apply increasing_nth_le; [exact S|lia]).
      assert (B : fle (nth i (a :: r) 0) (nth (length r) (a :: r) 0)) by (apply increasing_nth_le; [exact S|cbn in *; lia]).
      rewrite (nth_error_nth (a :: r) (length r) 0 (last_nth a r)) in B. rewrite Nu in A, B. cbn [nth] in A.
      rewrite (proj2 (fltb_false u a) A), (proj2 (fltb_false (last r a) u) B). rewrite <- Nu, lagrange_nodes by assumption. exact Nv.
    - intros c x y z. unfold poly_spline. destruct x as [|a r]; [ring|]. destruct (fltb z a); [ring|]. destruct (fltb (last r a) z); [ring|].
      unfold lagrange. rewrite <- Fsum_scale. apply Fsum_ext. intros i _. replace (nth i (map (fmul c) y) 0) with (c * nth i y 0); [ring|].
      rewrite <- (map_nth (fmul c)). replace (c * 0) with (0 : F) by ring. reflexivity.
    - intros x y a r z -> [H|H]; unfold poly_spline.
      + apply fltb_iff in H. rewrite H. reflexivity.
      + apply fltb_iff in H. rewrite H. destruct (fltb z a); reflexivity.
    - intros. apply flt_0_1.
    - apply flt_0_1.
    - apply flt_0_1.
  Qed.
End Inst.

Section Undershoot.
  Context {F : Type} {K : Fld F} {O : OFld (F := F)}.
  Add Field DensProps4G : (fth (F := F)).
  Open Scope fld_scope.
  (** The cubic spline through four points is the cubic through them. *)
  Definition cubic (N : numerics F) : Prop := forall x y z a b, length x = 4%nat -> length y = 4%nat -> increasing x -> nth_error x 0 = Some a -> nth_error x 3 = Some b ->
    between a b z -> spline N x y z = lagrange x y z.
  Definition dom4 : list F := map fnat [0; 1; 2; 3]%nat.
  Lemma dom4_inc : increasing dom4.
  Proof.
    apply increasingb_iff. cbn [dom4 map increasingb]. rewrite !andb_true_iff. assert (H : forall n, fltb (fnat n : F) (fnat (Datatypes.S n)) = true).
    { intros n. apply fltb_iff. apply flt_sub_iff. replace (fnat (Datatypes.S n) - fnat n) with (1 : F) by (cbn [fnat]; ring). apply flt_0_1. }
    repeat split; apply H.
  Qed.
  (** Positive counts may be interpolated below zero, and the density is then
      negative there. *)
  Theorem C87_undershoot (N : numerics F) : ideal N -> cubic N -> exists d y zlo zhi r z, counts d y zlo zhi r /\ (forall v, In v y -> flt 0 v) /\ between zlo zhi z /\
    flt (spline N (ddom d) y z) 0 /\
    forall a b, flt 0 (number_in N d y r zlo zhi a b) -> flt 0 (quad N (fun zp => scatter N r zp z) a b) -> flt (counts_in N d y r a b z / number_in N d y r zlo zhi a b) 0.
  Proof.
    intros I Cu. set (y := map fnat [10; 1; 1; 10]%nat : list F). set (r := mkResp 0 0 1 1 0 1 1 : response F). set (z := fnat 3 / fnat 2 : F).
    set (resp := [("f_out", 0); ("z_b", 0); ("sigma_b", 1); ("c_b", 1); ("z_o", 0); ("sigma_o", 1); ("c_o", 1)] : dict string F).
    set (d := mkDens "" None None dom4 None None [] resp None None false (Some y) None None None 1 false).
    assert (C : counts d y (fnat 0) (fnat 3) r) by (constructor; try reflexivity; [cbn; lia|exact dom4_inc]).
    assert (T : fnat 2 <> (0 : F)) by (apply fnat_neq; lia).
    assert (T2 : (1 : F) + 1 <> 0) by (intros E; apply T; transitivity ((1 : F) + 1); [cbn [fnat]; ring|exact E]).
    assert (P : forall n, (0 < n)%nat -> flt 0 (fnat n : F)) by (intros; apply fnat_pos; assumption).
    assert (B : between (fnat 0) (fnat 3) z).
    { unfold z. split.
      - apply flt_le. apply fdiv_pos; apply P; lia.
      - apply flt_le. apply flt_sub_iff. replace (fnat 3 - fnat 3 / fnat 2) with (fnat 3 / fnat 2 : F) by (cbn [fnat]; field; exact T2). apply fdiv_pos; apply P; lia. }
    assert (V : spline N (ddom d) y z = - (1 / fnat 8)).
    { change (ddom d) with dom4. rewrite (Cu dom4 y z (fnat 0) (fnat 3)); try reflexivity; [|exact dom4_inc|exact B].
      assert (T1 : (1 : F) <> 0) by (apply flt_neq', flt_0_1).
      assert (T3 : (1 : F) + 1 + 1 <> 0) by (intros E; apply (fnat_neq 3 ltac:(lia)); transitivity ((1 : F) + 1 + 1); [cbn [fnat]; ring|exact E]).
      assert (H8 : ((1 : F) + 1) * ((1 + 1) * (1 + 1)) <> 0) by (intros E; destruct (f_zero_prod _ _ E) as [E1|E1]; [exact (T2 E1)|destruct (f_zero_prod _ _ E1); apply T2; assumption]).
      assert (H3 : (1 : F) + (1 + 1) <> 0) by (intros E; apply T3; transitivity ((1 : F) + (1 + 1)); [ring|exact E]).
      assert (Hm : - (1 : F) <> 0) by (intros E; apply T1; transitivity (- - (1 : F)); [ring|rewrite E; ring]).
      assert (Hm2 : - ((1 : F) + 1) <> 0) by (intros E; apply T2; transitivity (- - ((1 : F) + 1)); [ring|rewrite E; ring]).
      assert (Hm3 : - ((1 : F) + (1 + 1)) <> 0) by (intros E; apply H3; transitivity (- - ((1 : F) + (1 + 1))); [ring|rewrite E; ring]).
      assert (T8 : (fnat 8 : F) <> 0) by (apply fnat_neq; lia).
      unfold lagrange, basis, z, dom4, y. cbn [map length seq Fsum fold_right nth Nat.eqb fnat] in *. field.
      repeat split; first [exact H8|exact H3|exact Hm|exact Hm2|exact Hm3|exact T2|exact T1|assumption]. }
    assert (Ng : flt (spline N (ddom d) y z) 0).
    { rewrite V. replace (0 : F) with (- 0 : F) by ring. apply flt_opp. apply flt_inv. apply P. lia. }
    exists d, y, (fnat 0), (fnat 3), r, z. split; [exact C|]. split; [intros v Hv; unfold y in Hv; apply in_map_iff in Hv; destruct Hv as (n & <- & Hn); apply P; cbn in Hn; lia|]. split; [exact B|]. split; [exact Ng|].
    intros a b Hn Hq. unfold counts_in. apply flt_opp in Ng. replace (- (0 : F)) with (0 : F) in Ng by ring.
    assert (X : flt 0 (- spline N (ddom d) y z * quad N (fun zp => scatter N r zp z) a b * (1 / number_in N d y r (fnat 0) (fnat 3) a b))).
    { apply flt_mul; [apply flt_mul; assumption|]. apply flt_inv. exact Hn. }
    apply flt_opp in X. replace (- (0 : F)) with (0 : F) in X by ring. apply flt_neq' in Hn. 
    match type of X with flt ?l _ => match goal with |- flt ?g _ => replace g with l; [exact X|field; exact Hn] end end.
  Qed.
End Undershoot.

Section Reload.
  Context {F : Type} {K : Fld F} {O : OFld (F := F)}.
  Open Scope fld_scope.
  Context (N : numerics F).
  Implicit Types d n a b : density F.

  (** What [normalized] reads. *)
  Definition alike a b : Prop := dhas a = dhas b /\ dedges a = dedges b /\ (dhas a = true -> dnspl a = dnspl b) /\
    (dhas a = false -> dgood a = dgood b /\ dcat a = dcat b /\ dspl a = dspl b /\ dnorms a = dnorms b).
  Lemma alike_normalized a b i : alike a b -> normalized N a i = normalized N b i.
  Proof.
    intros (H1 & H2 & H3 & H4). unfold normalized, convolved, instrument_response. rewrite <- H1, <- H2. destruct (dhas a); [rewrite (H3 eq_refl); reflexivity|]. destruct (H4 eq_refl) as (-> & -> & -> & ->). reflexivity.
  Qed.
  Lemma alike_fill a b zs m i : alike a b -> fill_rows N a zs m i = fill_rows N b zs m i.
  Proof.
    intros A. revert i. induction m as [|m IH]; intros i; [reflexivity|]. cbn [fill_rows]. unfold density_row. rewrite (alike_normalized a b i A). destruct A as (H1 & _). rewrite H1, IH. reflexivity.
  Qed.
  Lemma alike_evaluate a b zs : alike a b -> dready a = true -> dready b = true -> dniz (fst (evaluate N zs a)) = dniz (fst (evaluate N zs b)) /\ snd (evaluate N zs a) = snd (evaluate N zs b).
  Proof.
    intros A Ra Rb. unfold evaluate. rewrite Ra, Rb. cbn [negb]. assert (A' : alike (with_values a (Some zs) (dniz a)) (with_values b (Some zs) (dniz b))) by exact A.
    rewrite (alike_fill _ _ zs _ 0 A'). replace (n_bins (with_values a (Some zs) (dniz a))) with (n_bins (with_values b (Some zs) (dniz b))) by (rewrite !n_bins_eq; cbn [with_values dedges]; destruct A as (_ & -> & _); reflexivity).
    destruct (fill_rows _ _ _ _ _) as [rows e]. split; reflexivity.
  Qed.
  (** Setting up after reloading gives the values of the data just loaded,
      whatever the object was before. *)
  Theorem C90_set_up_after_reload n d b zs : set_up N n = (b, Ok tt) ->
    exists a, set_up N (load_into n d) = (a, Ok tt) /\ dniz (fst (evaluate N zs a)) = dniz (fst (evaluate N zs b)) /\ snd (evaluate N zs a) = snd (evaluate N zs b).
  Proof.
    assert (G : set_up N n = (b, Ok tt) -> exists a, set_up N (load_into n d) = (a, Ok tt) /\ alike a b /\ dready a = true /\ dready b = true).
    { unfold set_up, interpolate_input. change (dhas (load_into n d)) with (dhas n). destruct (dhas n) eqn:Eh.
      - replace (diniz (load_into n d)) with (diniz n) by (unfold load_into; rewrite Eh; reflexivity). change (ddom (load_into n d)) with (ddom n).
        destruct (diniz n) as [rows|]; [|discriminate]. destruct (rmapM _ _) as [ss|]; [|discriminate]. cbn [with_splines dhas]. change (dhas (load_into n d)) with (dhas n). rewrite Eh. intros H. apply (f_equal fst) in H. cbn [fst] in H. subst b.
        eexists. split; [reflexivity|]. unfold alike. cbn. rewrite Eh. repeat split; auto; discriminate.
      - replace (dinput (load_into n d)) with (dinput n) by (unfold load_into; rewrite Eh; reflexivity). change (ddom (load_into n d)) with (ddom n).
        destruct (dinput n) as [y|]; [|discriminate]. destruct (make_spline _ _ _) as [s|]; [|discriminate]. cbn [with_splines dhas]. change (dhas (load_into n d)) with (dhas n). rewrite Eh.
        unfold resp_params. cbn [with_splines with_params dresp]. replace (dresp (load_into n d)) with (dresp n) by (unfold load_into; rewrite Eh; reflexivity).
        destruct (f <- dget_str (dresp n) "f_out" ;; _) as [g|]; [|discriminate]. cbv zeta. cbn [with_params with_splines dresp]. replace (dresp (load_into n d)) with (dresp n) by (unfold load_into; rewrite Eh; reflexivity).
        destruct (f <- dget_str (dresp n) "f_out" ;; _) as [c|]; [|discriminate]. cbn [with_params with_splines dgood dcat]. unfold evaluate_norms.
        match goal with |- context [rmapM (norm_factor N ?e) (seq 0 (n_bins ?e))] => match goal with |- context [load_into] => idtac end; set (e1 := e) end.
        match goal with |- _ -> exists a, match match rmapM (norm_factor N ?e) _ with _ => _ end with _ => _ end = _ /\ _ => set (e2 := e) end.
        assert (Q : rmapM (norm_factor N e2) (seq 0 (n_bins e2)) = rmapM (norm_factor N e1) (seq 0 (n_bins e1))).
        { change (n_bins e2) with (n_bins e1). assert (X : forall l, rmapM (norm_factor N e2) l = rmapM (norm_factor N e1) l); [|apply X]. induction l as [|i l IH]; [reflexivity|]. cbn [rmapM]. rewrite IH. f_equal. }
        rewrite Q. destruct (rmapM (norm_factor N e1) _) as [l|]; [|discriminate]. intros H. apply (f_equal fst) in H. cbn [fst] in H. subst b. eexists. split; [reflexivity|].
        unfold alike. cbn. rewrite Eh. repeat split; auto; discriminate. }
    intros H. destruct (G H) as (a & E & A & Ra & Rb). exists a. split; [exact E|]. apply alike_evaluate; assumption.
  Qed.
  (** A new object must be set up first. *)
  Theorem C90_loaded_not_ready n d zs : dready d = false -> evaluate N zs (load_into n d) = (load_into n d, Err EDomain).
  Proof. intros H. unfold evaluate. change (dready (load_into n d)) with (dready d). rewrite H. reflexivity. Qed.
End Reload.

(** ** Instances (rational numbers) *)
From Coq Require Import QArith Qcanon.
Close Scope Qc_scope. Close Scope Q_scope.
Definition exN : numerics Qc := model_numerics [(qq 1 2, qz 1); (qz 1, qz 1); (qq 3 2, qz 1); (qq 5 2, qz 1)].
Lemma exN_ideal : ideal exN.
Proof. apply model_ideal. intros t w H. cbn in H. repeat (destruct H as [H|H]; [assert (w = qz 1) by congruence; subst w; vm_compute; discriminate|]). destruct H. Qed.
Lemma exN_cubic : cubic exN.
Proof.
  intros x y z a b Lx Ly S Ha Hb [B1 B2]. cbn [exN model_numerics spline]. unfold poly_spline. destruct x as [|a0 [|x1 [|x2 [|x3 [|? ?]]]]]; try discriminate Lx. cbn in Ha, Hb. assert (a0 = a) by congruence. assert (x3 = b) by congruence. subst.
  cbn [last]. rewrite (proj2 (fltb_false z a) B1), (proj2 (fltb_false b z) B2). reflexivity.
Qed.
Definition ex_dom : list Qc := [qz 0; qz 1; qz 2; qz 3].
Definition ex_resp : dict string Qc := [("f_out", qq 1 10); ("z_b", qz 0); ("sigma_b", qq 1 20); ("c_b", qz 1); ("z_o", qq 1 10); ("sigma_o", qq 1 20); ("c_o", qz 1)].
Definition ex_sp : density Qc := mkDens "SpectroscopicGalaxy" None None ex_dom None None [qz 0; qz 1; qz 3] ex_resp None None false (Some [qz 1; qz 2; qz 2; qz 1]) None None None (qz 1) false.
Definition ex_ph : density Qc := mkDens "PhotometricGalaxy" None None ex_dom None (Some [qz 5; qz 7]) [qz 0; qz 2; qz 4] ex_resp None None false (Some [qz 1; qz 2; qz 2; qz 1]) None None None (qz 1) false.
Definition ex_r : response Qc := mkResp (qq 1 10) (qz 0) (qq 1 20) (qz 1) (qq 1 10) (qq 1 20) (qz 1).
Example C87_instance : counts ex_sp [qz 1; qz 2; qz 2; qz 1] (qz 0) (qz 3) ex_r /\ r_sb ex_r <> fz /\ r_so ex_r <> fz /\ flt (fopp fo) (qz 0) /\ increasing (dedges ex_sp) /\
  number_in exN ex_sp [qz 1; qz 2; qz 2; qz 1] ex_r (qz 0) (qz 3) (edge ex_sp 0) (edge ex_sp 1) <> fz /\ ideal exN /\ cubic exN.
Proof.
  split; [constructor; try reflexivity; [cbn; lia|apply increasingb_iff; vm_compute; reflexivity]|]. split; [vm_compute; discriminate|]. split; [vm_compute; discriminate|]. split; [split; vm_compute; discriminate|].
  split; [apply increasingb_iff; vm_compute; reflexivity|]. split; [vm_compute; discriminate|]. split; [apply exN_ideal|apply exN_cubic].
Qed.
(** Two photometric bins over the spectroscopic bin between 1 and 3. *)
Definition ex_nbins : list Qc := [quad exN (spline exN ex_dom [qz 1; qz 2; qz 2; qz 1]) (qz 0) (qz 1); quad exN (spline exN ex_dom [qz 1; qz 2; qz 2; qz 1]) (qz 1) (qz 3)].
Definition ex_rows := match snd (phsp_noise exN ex_ph (with_bins ex_sp (Some ex_nbins))) with Ok r => r | Err _ => [] end.
Example C89_instance : let nsp := with_bins ex_sp (Some ex_nbins) in exists nsp',
  (forall j, (j < 2)%nat -> nth j ex_nbins fz = quad exN (spline exN ex_dom [qz 1; qz 2; qz 2; qz 1]) (edge nsp j) (edge nsp (j + 1))) /\
  phsp_noise exN ex_ph nsp = (nsp', Ok ex_rows) /\ match ex_rows with [[Some _; Some a]; [Some b; Some c]] => fadd (fmul a (qz 5)) (fmul c (qz 7)) = qz 1 /\ b = qz 0 | _ => False end.
Proof.
  eexists. split; [|split].
  - intros [|[|j]] H; [reflexivity|reflexivity|lia].
  - rewrite (surjective_pairing (phsp_noise exN ex_ph _)). f_equal.
  - vm_compute. repeat split; apply Qc_is_canon; reflexivity.
Qed.
(** Given directly on the same domain: reloaded without setting up again, the
    object returns the values of the data loaded first. *)
Definition ex_given (v : Qc) : density Qc := mkDens "Lensing" None None ex_dom None (Some [qz 1]) [qz 0; qz 3] [] None None true None None None (Some [[v; v; v; v]]) (qz 1) false.
Theorem C90_reload_refuted : exists n d zs d' vals, snd (set_up exN d) = Ok tt /\ evaluate exN zs (load_into n (fst (set_up exN d))) = (d', Ok tt) /\ dniz d' = Some vals /\
  snd (set_up exN n) = Ok tt /\ Some vals <> dniz (fst (evaluate exN zs (fst (set_up exN n)))).
Proof.
  exists (ex_given (qz 2)), (ex_given (qz 1)), [qz 1], (fst (evaluate exN [qz 1] (load_into (ex_given (qz 2)) (fst (set_up exN (ex_given (qz 1))))))), [[Some (qz 1)]].
  split; [vm_compute; reflexivity|]. split.
  - assert (E : snd (evaluate exN [qz 1] (load_into (ex_given (qz 2)) (fst (set_up exN (ex_given (qz 1)))))) = Ok tt) by (vm_compute; reflexivity). rewrite <- E. apply surjective_pairing.
  - split; [vm_compute; reflexivity|]. split; [vm_compute; reflexivity|]. vm_compute. discriminate.
Qed.

Print Assumptions C87_values.
Print Assumptions C87_unit_integral.
Print Assumptions C87_outside.
Print Assumptions C87_nonnegative.
Print Assumptions C87_scale_free.
Print Assumptions C87_bins_add_up.
Print Assumptions C87_outliers.
Print Assumptions C87_given.
Print Assumptions C87_undershoot.
Print Assumptions C88_bins.
Print Assumptions C88_given.
Print Assumptions C88_given_without_numbers.
Print Assumptions C88_shot_noise.
Print Assumptions C88_total.
Print Assumptions C88_total_refused.
Print Assumptions C89_entries.
Print Assumptions C89_covered.
Print Assumptions C89_probes.
Print Assumptions C90_not_set_up.
Print Assumptions C90_set_up_keeps.
Print Assumptions C90_set_up_iff.
Print Assumptions C90_evaluate_keeps.
Print Assumptions C90_evaluate_again.
Print Assumptions C90_stage.
Print Assumptions C90_set_up_after_reload.
Print Assumptions C90_loaded_not_ready.
Print Assumptions C90_reload_refuted.
