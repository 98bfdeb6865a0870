(** Concrete objects for the refutations, over any ordered field with roots. *)
From Verif Require Import Base SortLib MatInv LabLin FrameModel FrameLemmas FisherModel FisherHistory FisherSpec
  FisherLemmas FisherLemmas2 FisherLemmas3 FisherLemmas4.
From Coq Require Import Permutation Field.

Section Wit.
  Context {F : Type} {K : Fld F} {O : OFld (F := F)}.
  Add Field FldWit : (fth (F := F)).
  Open Scope fld_scope.

  Definition f2 : F := 1 + 1.
  Definition f3 : F := 1 + 1 + 1.
  Definition f4 : F := f2 * f2.

  Lemma pos_add (a b : F) : flt 0 a -> fle 0 b -> flt 0 (a + b).
  Proof. apply flt_add_l. Qed.
  Lemma one_pos : flt 0 (1 : F).
  Proof. split; [apply fle_0_1|]. intros C. exact (F_1_neq_0 fth (eq_sym C)). Qed.
  Lemma f2_pos : flt 0 f2.
  Proof. apply pos_add; [apply one_pos|apply fle_0_1]. Qed.
  Lemma f3_pos : flt 0 f3.
  Proof. apply pos_add; [apply f2_pos|apply fle_0_1]. Qed.
  Lemma f2_nz : f2 <> 0. Proof. destruct f2_pos; congruence. Qed.
  Lemma f3_nz : f3 <> 0. Proof. destruct f3_pos; congruence. Qed.
  Lemma one_nz : (1 : F) <> 0. Proof. destruct one_pos; congruence. Qed.
  Lemma mul_nz (a b : F) : a <> 0 -> b <> 0 -> a * b <> 0.
  Proof. intros Ha Hb C. apply Hb. transitivity (a * b / a); [field; exact Ha|]. rewrite C. field. exact Ha. Qed.
  Lemma f4_pos : flt 0 f4.
  Proof. split; [apply fle_sq|]. intros C. apply (mul_nz f2 f2 f2_nz f2_nz). symmetry; exact C. Qed.
  Lemma f4_nz : f4 <> 0. Proof. apply mul_nz; apply f2_nz. Qed.
  Lemma sum_sq_pos (u v : F) : u <> 0 \/ v <> 0 -> flt 0 (u * u + v * v).
  Proof.
    assert (P : forall w : F, w <> 0 -> flt 0 (w * w)).
    { intros w Hw. split; [apply fle_sq|]. intros C. apply (mul_nz w w Hw Hw). symmetry; exact C. }
    intros [H|H].
    - apply pos_add; [apply P; exact H|apply fle_sq].
    - replace (u * u + v * v) with (v * v + u * u) by ring. apply pos_add; [apply P; exact H|apply fle_sq].
  Qed.

  (** ** A 2 x 2 object. *)
  Definition mat2 (p q r s : F) (x y : string) : frame F :=
    mkF [x; y] [x; y] (fun a b => Some (if String.eqb a x then (if String.eqb b x then p else q)
                                        else (if String.eqb b x then r else s))).
  Definition fish2 (p q r s : F) (x y : string) : fisher F :=
    mkFisher (mat2 p q r s x y) "F" [x] [y] None None true.

  Lemma fish2_wf p q r s x y : x <> y -> wf (fish2 p q r s x y).
  Proof.
    intros H. split; [|split; [|split]].
    - split; [|split].
      + constructor; [intros [C|[]]; congruence|]. constructor; [intros []|constructor].
      + reflexivity.
      + intros a b _ _. discriminate.
    - constructor; [intros []|constructor].
    - constructor; [intros []|constructor].
    - intros z. cbn. tauto.
  Qed.

  Definition inv2 (p q r s : F) (x : string) : string -> string -> F :=
    let d := p * s - q * r in
    fun a b => if String.eqb a x then (if String.eqb b x then s / d else - q / d)
               else (if String.eqb b x then - r / d else p / d).

  Lemma fish2_inv p q r s x y : x <> y -> p * s - q * r <> 0 ->
    covariance (fish2 p q r s x y) (inv2 p q r s x).
  Proof.
    intros Hne Hd. assert (Ny : String.eqb y x = false) by (apply String.eqb_neq; congruence).
    intros a b Ha Hb. unfold mm, labels. cbn [fish2 mat2 fmat ix Fsum] in *.
    unfold fval, fv. cbn [fish2 mat2 fmat ce]. unfold inv2.
    destruct Ha as [<-|[<-|[]]], Hb as [<-|[<-|[]]]; rewrite ?String.eqb_refl, ?Ny, ?String.eqb_refl, ?Ny;
      rewrite ?dl_refl; try rewrite dl_neq by congruence; split; field; exact Hd.
  Qed.

  Lemma fish2_pd p q s x y : x <> y -> flt 0 p -> flt 0 (p * s - q * q) -> posdef (fish2 p q q s x y).
  Proof.
    intros Hne Hp Hd. assert (Ny : String.eqb y x = false) by (apply String.eqb_neq; congruence).
    assert (Np : p <> 0) by (destruct Hp; congruence).
    split.
    - intros a b Ha Hb. unfold labels in Ha, Hb. cbn [fish2 mat2 fmat ix] in Ha, Hb.
      unfold fval, fv. cbn [fish2 mat2 fmat ce].
      destruct Ha as [<-|[<-|[]]], Hb as [<-|[<-|[]]]; rewrite ?String.eqb_refl, ?Ny, ?String.eqb_refl, ?Ny; reflexivity.
    - intros v (a & Ha & Hv). unfold bil, labels in *. cbn [fish2 mat2 fmat ix Fsum] in *. unfold fval, fv. cbn [fish2 mat2 fmat ce].
      rewrite !String.eqb_refl, !Ny. 
      set (d := p * s - q * q) in *.
      assert (E : v x * p * v x + (v x * q * v y + 0) + (v y * q * v x + (v y * s * v y + 0) + 0)
                  = (1 / p) * ((p * v x + q * v y) * (p * v x + q * v y) + d * (v y * v y))).
      { unfold d. field. exact Np. }
      rewrite E. clear E.
      assert (Q : flt 0 ((p * v x + q * v y) * (p * v x + q * v y) + d * (v y * v y))).
      { destruct (fdec (v y) 0) as [e|n].
        - rewrite e. replace ((p * v x + q * 0) * (p * v x + q * 0) + d * (0 * 0)) with ((p * v x) * (p * v x) + 0 * 0) by ring.
          apply sum_sq_pos. left. apply mul_nz; [exact Np|]. destruct Ha as [<-|[<-|[]]]; congruence.
        - replace ((p * v x + q * v y) * (p * v x + q * v y) + d * (v y * v y))
            with (d * (v y * v y) + (p * v x + q * v y) * (p * v x + q * v y)) by ring.
          apply pos_add; [|apply fle_sq].
          split; [apply fle_mul; [apply Hd|apply fle_sq]|]. intros C. symmetry in C. revert C.
          apply mul_nz; [destruct Hd; congruence|]. apply mul_nz; exact n. }
      split.
      + apply fle_mul; [apply finv_pos; exact Hp|apply Q].
      + intros C. symmetry in C. revert C. apply mul_nz.
        * destruct (finv_pos p Hp); congruence.
        * destruct Q; congruence.
  Qed.
End Wit.

(** ** Refutations. *)
Section Refute.
  Context {F : Type} {K : Fld F} {O : OFld (F := F)} {S : SqrtFld F}.
  Add Field FldRef : (fth (F := F)).
  Open Scope fld_scope.

  (** [[4,3],[3,3]]: C_aa = 1 although 1/F_aa = 1/4. *)
  Definition wit : fisher F := fish2 f4 f3 f3 f3 "a" "b".

  Lemma wit_det : (f4 : F) * f3 - f3 * f3 = f3.
  Proof. unfold f4, f3, f2. ring. Qed.

  Lemma fsqrt_one : fsqrt (1 : F) = 1.
  Proof. apply fsqrt_unique; [apply fle_0_1|ring]. Qed.
  Lemma np_sqrt_one : np_sqrt (1 : F) = Some 1.
  Proof. rewrite np_sqrt_pos by apply fle_0_1. rewrite fsqrt_one. reflexivity. Qed.

  Lemma one_ne_half : (1 : F) <> 1 / f2.
  Proof.
    intros C. apply one_nz. transitivity (f2 * 1 - 1); [unfold f2; ring|]. rewrite C at 1. field_simplify; [|apply f2_nz].
    unfold f2. field. 
  Qed.

  Lemma half_pos : flt 0 (1 / f2 : F).
  Proof. apply finv_pos, f2_pos. Qed.

  Section WithOrder.
    Context {SO : SetOrder}.

    Lemma wit_wf : wf wit.
    Proof. apply fish2_wf. discriminate. Qed.

    Lemma wit_invert : exists i, invert_dataframe (fmat wit) = Ok i /\ fv i "a" "a" = 1.
    Proof.
      assert (HI : covariance wit (inv2 f4 f3 f3 f3 "a")).
      { apply fish2_inv; [discriminate|]. rewrite wit_det. apply f3_nz. }
      pose proof wit_wf as (Ow & _).
      destruct (invert_complete (fmat wit) _ Ow HI) as (i & Ei). exists i. split; [exact Ei|].
      destruct (invert_ok _ _ Ow Ei) as (_ & _ & Vi).
      rewrite (inv_unique string_dec (labels wit) (fval wit) (fv i) (inv2 f4 f3 f3 f3 "a")).
      - unfold inv2. rewrite wit_det. cbn. field. apply f3_nz.
      - apply wf_NoDup, wit_wf.
      - exact Vi.
      - exact HI.
      - left; reflexivity.
      - left; reflexivity.
    Qed.

    Lemma wit_det_pos i : invert_dataframe (fmat wit) = Ok i ->
      flt 0 (fv i "a" "a" * fv i "b" "b" - fv i "a" "b" * fv i "b" "a").
    Proof.
      intros Ei.
      assert (HI : covariance wit (inv2 f4 f3 f3 f3 "a")).
      { apply fish2_inv; [discriminate|]. rewrite wit_det. apply f3_nz. }
      pose proof wit_wf as (Ow & _). destruct (invert_ok _ _ Ow Ei) as (_ & _ & Vi).
      assert (E : forall x y, In x (labels wit) -> In y (labels wit) -> fv i x y = inv2 f4 f3 f3 f3 "a" x y).
      { apply (inv_unique string_dec (labels wit) (fval wit)); [apply wf_NoDup, wit_wf|exact Vi|exact HI]. }
      rewrite !E by (cbn; tauto). unfold inv2. rewrite wit_det. cbn.
      replace (_ - _) with (1 / f3 : F); [apply finv_pos, f3_pos|].
      transitivity (((f4 : F) * f3 - f3 * f3) / (f3 * f3)); [rewrite wit_det|]; field; apply f3_nz.
    Qed.

    Lemma stale_errors : exists (f0 f : fisher F) s f' e g e',
      wf f0 /\ reach f0 f s /\
      marginalized_errors false true f = (f', Ok e) /\ marginalized_errors false true (fcopy f) = (g, Ok e') /\
      s_get e "a" = Some (Some 1) /\ s_get e' "a" = Some (Some (1 / f2)) /\ e <> e'.
    Proof.
      destruct wit_invert as (i & Ei & Va). pose proof wit_wf as Ww. pose proof Ww as (Ow & _).
      destruct (invert_ok _ _ Ow Ei) as (Ii & Oi & _).
      destruct (held_inv wit i Ww Ei) as [Hh Wh].
      destruct (fix_spec ["b"%string] (with_inv wit i) Wh) as (t & Et & Wt & Lt & Ct & Cot & _ & _ & It).
      { intros x [<-|[]]. right; left; reflexivity. }
      assert (Ltv : labels t = ["a"%string]) by (rewrite Lt; reflexivity).
      assert (Hht : held t i).
      { split; [rewrite It; reflexivity|]. split; [exact Oi|]. rewrite Ltv. intros x [<-|[]]. rewrite Ii. left; reflexivity. }
      assert (Ia : In "a"%string (fcosmo t)) by (apply Cot; split; [left; reflexivity|intros [C|[]]; discriminate]).
      destruct (errors_get false true t i "a" Wt Hht) as (e & Ee & Ge); [discriminate|].
      rewrite (proj2 (smem_In _ _) Ia), Va, np_sqrt_one in Ge.
      (* the fresh copy *)
      assert (Wc := fcopy_wf t Wt). pose proof Wc as (Oc & _).
      assert (Vc : fval (fcopy t) "a" "a" = f4) by (unfold fval, fv; cbn [fcopy new_fisher fmat]; rewrite Ct; reflexivity).
      assert (HIc : covariance (fcopy t) (fun _ _ => 1 / fval (fcopy t) "a" "a")).
      { unfold covariance. change (labels (fcopy t)) with (labels t). rewrite Ltv. apply inv_single. rewrite Vc. apply f4_nz. }
      destruct (invert_complete (fmat (fcopy t)) _ Oc HIc) as (j & Ej).
      destruct (invert_ok _ _ Oc Ej) as (_ & _ & Vj).
      assert (Vja : fv j "a" "a" = 1 / f4).
      { rewrite (inv_unique string_dec (labels (fcopy t)) (fval (fcopy t)) (fv j) _ (wf_NoDup _ Wc) Vj HIc).
        - rewrite Vc. reflexivity.
        - change (labels (fcopy t)) with (labels t). rewrite Ltv. left; reflexivity.
        - change (labels (fcopy t)) with (labels t). rewrite Ltv. left; reflexivity. }
      destruct (held_inv (fcopy t) j Wc Ej) as [Hj Wj].
      destruct (errors_get false true (with_inv (fcopy t) j) j "a" Wj Hj) as (e' & Ee' & Ge'); [discriminate|].
      change (fcosmo (with_inv (fcopy t) j)) with (set_of (fcosmo t)) in Ge'.
      rewrite (proj2 (smem_In _ _)) in Ge' by (apply set_of_In; exact Ia). rewrite Vja in Ge'.
      assert (Sq : np_sqrt (1 / f4 : F) = Some (1 / f2)).
      { rewrite np_sqrt_pos.
        - f_equal. apply fsqrt_unique; [apply half_pos|]. unfold f4. field. apply f2_nz.
        - replace (1 / f4 : F) with ((1 / f2) * (1 / f2) : F) by (unfold f4; field; apply f2_nz). apply fle_sq. }
      rewrite Sq in Ge'.
      exists wit, t, IStale, t, e, (with_inv (fcopy t) j), e'.
      split; [exact Ww|]. split; [|split; [exact Ee|split; [|split; [exact Ge|split; [exact Ge'|]]]]].
      - apply (r_fix wit (with_inv wit i) IFresh ["b"%string] t); [|exact Et].
        apply (r_inverse wit wit INone); [apply r_init; reflexivity|]. apply eval_inverse_spec. exact Ei.
      - rewrite (errors_none false true (fcopy t) j eq_refl Ej). exact Ee'.
      - intros C. subst e'. rewrite Ge in Ge'. injection Ge' as Ge'. exact (one_ne_half Ge').
    Qed.

    Lemma wit_margd rc : exists t, margd ["b"%string] rc wit t.
    Proof.
      assert (HI : covariance wit (inv2 f4 f3 f3 f3 "a")).
      { apply fish2_inv; [discriminate|]. rewrite wit_det. apply f3_nz. }
      apply (margd_complete ["b"%string] rc wit (inv2 f4 f3 f3 f3 "a") (fun _ _ => 1 / inv2 f4 f3 f3 f3 "a" "a" "a") ["a"%string]).
      - apply wit_wf.
      - intros x [<-|[]]. right; left; reflexivity.
      - exact HI.
      - constructor; [intros []|constructor].
      - intros x. cbn. split.
        + intros [<-|[]]. split; [auto|]. intros [C|[]]; discriminate.
        + intros [[H|[H|[]]] H']; [auto|]. exfalso. apply H'. auto.
      - apply (inv_single "a"). unfold inv2. rewrite wit_det. cbn.
        intros C. apply one_nz. transitivity (f3 / f3 : F); [field; apply f3_nz|exact C].
    Qed.

    Lemma copy_marg_mutates : exists (f : fisher F) ps f' t,
      wf f /\ marginalize ps true f = (f', Ok (Some t)) /\
      parameter_sigma "a" f = Err EValueError /\ parameter_sigma "a" f' = Ok (Some 1).
    Proof.
      destruct (wit_margd true) as (t & f' & r & E & _).
      destruct (marg_ok _ _ _ _ _ wit_wf E) as (i & t' & s & Ei & -> & -> & _).
      exists wit, ["b"%string], (with_inv wit i), t'. split; [exact wit_wf|]. split; [exact E|]. split; [reflexivity|].
      destruct wit_invert as (i' & Ei' & Va). rewrite Ei in Ei'. injection Ei' as <-.
      pose proof wit_wf as (Ow & _). destruct (invert_ok _ _ Ow Ei) as (Ii & Oi & _).
      unfold parameter_sigma. cbn [with_inv finverse]. destruct Oi as (N & C & H). rewrite C, Ii. cbn [fmat wit fish2 mat2 ix].
      cbn [smem existsb String.eqb]. cbn [Ascii.eqb Bool.eqb andb orb].
      rewrite (ce_fv i "a" "a") by (try (split; [exact N|split; [exact C|exact H]]); rewrite Ii; left; reflexivity).
      rewrite Va, np_sqrt_one. reflexivity.
    Qed.
  End WithOrder.

  (** ** The correlation matrix after marginalising (sets iterated in insertion order). *)
  Definition id_order : SetOrder := {| ord := fun l => l; ord_perm := fun l => Permutation_refl l |}.

  Definition mat3 : frame F :=
    mkF ["b"; "a"; "x"]%string ["b"; "a"; "x"]%string
        (fun p q => Some (if String.eqb p q then (if String.eqb p "a" then f4 else 1) else 0)).
  Definition wit3 : fisher F := mkFisher mat3 "F" ["b"; "a"]%string ["x"%string] None None true.
  Definition inv3 : string -> string -> F :=
    fun p q => if String.eqb p q then (if String.eqb p "a" then 1 / f4 else 1) else 0.

  Lemma wit3_wf : wf wit3.
  Proof.
    split; [|split; [|split]].
    - split; [|split; [reflexivity|intros a b _ _; discriminate]].
      repeat constructor; cbn; intuition discriminate.
    - repeat constructor; cbn; intuition discriminate.
    - repeat constructor; cbn; intuition discriminate.
    - intros z. cbn. tauto.
  Qed.

  Lemma diag_inv (l : list string) : NoDup l ->
    isinv string_dec l (fun p q => fv mat3 p q) inv3.
  Proof.
    intros Hnd a b Ha Hb.
    assert (E : forall x y, fv mat3 x y = (if String.eqb x y then (if String.eqb x "a" then f4 else 1) else 0)) by reflexivity.
    assert (N4 := f4_nz (F := F)).
    split; unfold mm.
    - rewrite (@Fsum_single _ _ _ _ l a Hnd Ha).
      + rewrite E. unfold inv3. rewrite String.eqb_refl. unfold dl. destruct (string_dec a b) as [->|n].
        * rewrite String.eqb_refl. destruct (String.eqb b "a"); [field; exact N4|ring].
        * rewrite (proj2 (String.eqb_neq a b) n). ring.
      + intros x _ Hx. rewrite E. rewrite (proj2 (String.eqb_neq a x)) by congruence. ring.
    - rewrite (@Fsum_single _ _ _ _ l a Hnd Ha).
      + rewrite E. unfold inv3. rewrite String.eqb_refl. unfold dl. destruct (string_dec a b) as [->|n].
        * rewrite String.eqb_refl. destruct (String.eqb b "a"); [field; exact N4|ring].
        * rewrite (proj2 (String.eqb_neq a b) n). ring.
      + intros x _ Hx. unfold inv3. rewrite (proj2 (String.eqb_neq a x)) by congruence. ring.
  Qed.

  Lemma correlation_wrong : exists (SO : SetOrder) (f : fisher F) t t' c,
    wf f /\ margd ["x"%string] true f t /\ eval_correlation t = (t', Ok tt) /\ fcorr t' = Some c /\
    In "a"%string (ix c) /\ In "a"%string (cx c) /\ ce c "a" "a" <> Some 1.
  Proof.
    exists id_order, wit3.
    assert (Hk : forall x, In x ["b"; "a"]%string <-> In x (labels wit3) /\ ~ In x ["x"%string]).
    { intros x. cbn. split.
      - intros [<-|[<-|[]]]; (split; [auto|]); intros [C|[]]; discriminate.
      - intros [[H|[H|[H|[]]]] H']; auto. }
    assert (N2 : NoDup ["b"; "a"]%string) by (repeat constructor; cbn; intuition discriminate).
    destruct (@margd_complete F K id_order ["x"%string] true wit3 inv3 (fval wit3) ["b"; "a"]%string) as (t & M).
    - apply wit3_wf.
    - intros x [<-|[]]. right; right; left; reflexivity.
    - apply diag_inv. apply (wf_NoDup wit3), wit3_wf.
    - exact N2.
    - exact Hk.
    - apply isinv_swap. apply diag_inv. exact N2.
    - destruct M as (f' & r & E & Et).
      destruct (@marg_ok F K id_order _ _ _ _ _ wit3_wf E)
        as (i & t0 & s & Ei & Er & Ef & Wt & Lt & St & Is & Os & Ps & Vs & Inv & Ct & Nt & _ & _ & _ & Ixs & _).
      rewrite Er in Et. subst t0.
      assert (Ixv : ix s = ["b"; "a"]%string) by (rewrite Ixs; reflexivity).
      assert (Ltv : labels t = ["a"; "b"]%string).
      { rewrite St. rewrite Ixv in Ps. rewrite <- (ssort_unique _ _ Ps). reflexivity. }
      pose proof wit3_wf as (Ow & _). destruct (invert_ok _ _ Ow Ei) as (_ & _ & Vi).
      assert (Vi' : forall p q, In p (labels wit3) -> In q (labels wit3) -> fv i p q = inv3 p q).
      { intros p q Hp Hq. apply (inv_unique string_dec (labels wit3) (fval wit3)); auto.
        - apply (wf_NoDup wit3), wit3_wf.
        - apply diag_inv. apply (wf_NoDup wit3), wit3_wf. }
      assert (Va : fv s "a" "a" = 1 / f4).
      { rewrite Vs by (rewrite Ltv; left; reflexivity). rewrite Vi' by (right; left; reflexivity). reflexivity. }
      assert (Vb : fv s "b" "b" = 1).
      { rewrite Vs by (rewrite Ltv; right; left; reflexivity). rewrite Vi' by (left; reflexivity). reflexivity. }
      pose proof Os as (_ & Cs & _). pose proof Wt as ((_ & Cxt & _) & _ & _ & Ltp).
      unfold labels in Ltv. rewrite Ltv in Cxt.
      assert (Ia : In "a"%string (fcosmo t)) by (apply Ct; split; [right; left; reflexivity|intros [C|[]]; discriminate]).
      assert (Hsub : subsetb (fcosmo t) ["a"; "b"]%string = true).
      { apply subsetb_spec. intros x Hx. rewrite <- Ltv. apply Ltp. auto. }
      eexists t. eexists. eexists. split; [exact wit3_wf|]. split; [exists f', r; split; [exact E|rewrite Er; reflexivity]|].
      unfold eval_correlation. rewrite Is. cbn zeta. rewrite Cs, Ixv, Cxt, Ltv. cbn [length Nat.eqb andb negb].
      unfold f_loc. cbn [f_op ix cx].
      change (ijoin ["a"; "b"]%string ["a"; "b"]%string) with ["a"; "b"]%string.
      change (ijoin ["b"; "a"]%string ["a"; "b"]%string) with ["a"; "b"]%string.
      rewrite Hsub. cbn [andb].
      split; [reflexivity|]. split; [reflexivity|]. cbn [f_sort0 f_sort1 ix cx ce].
      split; [apply ssort_In; exact Ia|]. split; [apply ssort_In; exact Ia|].
      unfold f_get. cbn [f_op ix cx ce]. rewrite Cs, Ixv.
      change (smem "a" ["b"; "a"]%string) with true. cbn [andb].
      rewrite (ce_fv s "a" "a" Os) by (rewrite Ixv; right; left; reflexivity). rewrite Va.
      change (ijoin ["a"; "b"]%string ["a"; "b"]%string) with ["a"; "b"]%string.
      change (smem "a" ["a"; "b"]%string) with true. cbn [andb].
      unfold f_get. cbn [ix cx ce]. change (smem "a" ["a"; "b"]%string) with true. cbn [andb].
      change (pos "a" ["a"; "b"]%string) with 0%nat. cbn [nth].
      rewrite (ce_fv s "b" "b" Os) by (rewrite Ixv; left; reflexivity). rewrite Vb, np_sqrt_one. cbn [lift2 corr_div].
      destruct (fdec (1 * 1) 0) as [e|n]; [discriminate|]. intros C. injection C as C.
      apply one_ne_half.
      assert (f3 = (0 : F)) as Z; [|exfalso; exact (f3_nz Z)].
      transitivity (f4 * (1 - 1 / f4 / (1 * 1)) : F); [|rewrite C; ring].
      transitivity (f4 - 1 : F); [unfold f4, f3, f2; ring|]. field. split; [exact f4_nz|exact one_nz].
  Qed.
End Refute.

Section FomMarg.
  Context {F : Type} {K : Fld F} {O : OFld (F := F)} {S : SqrtFld F} {SO : SetOrder}.
  Add Field FldFM : (fth (F := F)).
  Open Scope fld_scope.

  Lemma fom_ok p q (f : fisher F) i : finverse f = Some i -> frame_ok i ->
    (forall x, In x (labels f) -> In x (ix i)) -> p <> q -> In p (labels f) -> In q (labels f) ->
    flt 0 (fv i p p * fv i q q - fv i p q * fv i q p) ->
    figure_of_merit p q f = Ok (Some (1 / fsqrt (fv i p p * fv i q q - fv i p q * fv i q p))) /\
    figure_of_merit q p f = figure_of_merit p q f.
  Proof.
    intros E Oi L Hne Hp Hq Hd. assert (H : held f i) by (split; [exact E|split; assumption]).
    rewrite (fom_value p q f i H Hne Hp Hq), (fom_value q p f i H) by auto. split.
    - unfold fom_of. rewrite np_sqrt_pos by apply Hd. destruct (fsqrt_pos _ Hd) as [_ Hs].
      destruct (fdec (fsqrt (fv i p p * fv i q q - fv i p q * fv i q p)) 0); [congruence|reflexivity].
    - do 2 f_equal. ring.
  Qed.

  Lemma fom_marg p q ps rc (f f1 t : fisher F) : wf f -> eval_inverse f = (f1, Ok tt) -> margd ps rc f t ->
    p <> q -> In p (labels t) -> In q (labels t) -> figure_of_merit p q t = figure_of_merit p q f1.
  Proof.
    intros Wf E M Hne Hp Hq. unfold eval_inverse in E.
    destruct (invert_dataframe (fmat f)) as [i|] eqn:Ei; [|discriminate]. injection E as <-.
    destruct (held_inv f i Wf Ei) as [Hh _]. pose proof Wf as (Of & _). destruct (invert_ok _ _ Of Ei) as (_ & _ & Vi).
    destruct (margd_spec ps rc f t Wf M) as (C & HI & Wt & Lt & _ & _ & (s & Es & Os & Ps & Vs) & _).
    assert (Ht : held t s).
    { split; [exact Es|]. split; [exact Os|]. intros x. apply Permutation_in, Permutation_sym; exact Ps. }
    assert (Hpf : In p (labels f)) by (apply Lt in Hp; tauto). assert (Hqf : In q (labels f)) by (apply Lt in Hq; tauto).
    rewrite (fom_value p q t s Ht Hne Hp Hq), (fom_value p q (with_inv f i) i Hh Hne Hpf Hqf).
    assert (EC : forall a b, In a (labels f) -> In b (labels f) -> C a b = fv i a b).
    { apply (inv_unique string_dec (labels f) (fval f)); [apply wf_NoDup; exact Wf|exact HI|exact Vi]. }
    rewrite !Vs, !EC by assumption. reflexivity.
  Qed.

  Lemma correlation_pd (f f1 : fisher F) : wf f -> posdef f -> eval_inverse f = (f1, Ok tt) ->
    exists f' c C, covariance f C /\ eval_correlation f1 = (f', Ok tt) /\ fcorr f' = Some c /\
      ix c = ssort (fcosmo f) /\ cx c = ssort (fcosmo f) /\
      forall a b, In a (fcosmo f) -> In b (fcosmo f) ->
        ce c a b = Some (C a b / (fsqrt (C a a) * fsqrt (C b b))) /\ ce c a a = Some 1 /\ ce c b a = ce c a b.
  Proof.
    intros Wf Hp E. unfold eval_inverse in E.
    destruct (invert_dataframe (fmat f)) as [i|] eqn:Ei; [|discriminate]. injection E as <-.
    pose proof Wf as (Of & _ & _ & L). destruct (invert_ok _ _ Of Ei) as (Li & Oi & Vi).
    assert (W1 : wf (with_inv f i)) by exact Wf.
    destruct (correlation_ok (with_inv f i) i W1 eq_refl Oi Li) as (f' & c & E1 & E2 & _ & _ & I1 & I2 & V).
    exists f', c, (fv i). split; [exact Vi|]. split; [exact E1|]. split; [exact E2|]. split; [exact I1|]. split; [exact I2|].
    pose proof (pd_inv string_dec (labels f) (fval f) (fv i) (wf_NoDup f Wf) Vi Hp) as Pi.
    assert (D : forall a, In a (fcosmo f) -> flt 0 (fv i a a)).
    { intros a Ha. apply (pd_diag_pos string_dec (labels f)); [apply wf_NoDup; exact Wf|exact Pi|]. apply L. left; exact Ha. }
    assert (V' : forall a b, In a (fcosmo f) -> In b (fcosmo f) ->
              ce c a b = Some (fv i a b / (fsqrt (fv i a a) * fsqrt (fv i b b)))).
    { intros a b Ha Hb. rewrite (V a b Ha Hb). rewrite !np_sqrt_pos by (apply D; assumption). unfold corr_div, lift2.
      destruct (fsqrt_pos _ (D a Ha)) as [_ Na]. destruct (fsqrt_pos _ (D b Hb)) as [_ Nb].
      destruct (fdec _ 0) as [e|n].
      - exfalso. revert e. apply mul_nz; congruence.
      - f_equal. field. split; congruence. }
    intros a b Ha Hb. split; [apply V'; assumption|]. split.
    - rewrite V' by assumption. rewrite fsqrt_sq by (apply D; exact Ha). f_equal. destruct (D a Ha) as [_ N]. field. congruence.
    - rewrite !V' by assumption. destruct Pi as [Si _]. rewrite (Si b a) by (apply L; left; assumption).
      destruct (fsqrt_pos _ (D a Ha)) as [_ Na]. destruct (fsqrt_pos _ (D b Hb)) as [_ Nb]. f_equal. field. split; congruence.
  Qed.
End FomMarg.

(** Witnesses over the rationals. *)
From Coq Require Import Qcanon.
Close Scope Qc_scope.

Lemma marg_half : exists f f' : fisher Qc,
  wf f /\ @marginalize _ _ id_order ["y"%string] false f = (f', Err ELinAlg) /\ ~ wf f'.
Proof.
  set (f := fish2 (qz 0) (qz 1) (qz 1) (qz 0) "x" "y"). set (m := @marginalize _ _ id_order ["y"%string] false f).
  exists f, (fst m). split; [apply fish2_wf; discriminate|]. split.
  - assert (E : snd m = Err ELinAlg) by (vm_compute; reflexivity). rewrite <- E. apply surjective_pairing.
  - intros (_ & _ & _ & L). destruct (L "y"%string) as [H _].
    assert (Y : In "y"%string (labels (fst m))) by (vm_compute; tauto). apply H in Y. vm_compute in Y.
    destruct Y as [[C|[]]|[]]. discriminate.
Qed.

Lemma prior_unknown : exists (f t : fisher Qc) fid frac,
  wf f /\ add_prior fid frac f = (t, Ok tt) /\ In "z"%string (labels t) /\ In "x"%string (labels t) /\
  ce (fmat t) "z" "x" = None.
Proof.
  destruct (@add_prior_spec Qc _ [("z"%string, qz 1)] (qz 1) (fish2 (qz 1) (qz 0) (qz 0) (qz 1) "x" "y"))
    as (t & E & L & _ & _ & _ & U & _).
  - apply fish2_wf; discriminate.
  - repeat constructor. intros [].
  - intros n v [H|[]]. injection H as _ <-. intros C. vm_compute in C. discriminate C.
  - exists (fish2 (qz 1) (qz 0) (qz 0) (qz 1) "x" "y"), t, [("z"%string, qz 1)], (qz 1).
    split; [apply fish2_wf; discriminate|]. split; [exact E|]. split; [apply L; right; left; reflexivity|].
    split; [apply L; left; left; reflexivity|].
    destruct (U "z"%string (qz 1)) as [_ H]; [left; reflexivity|intros [C|[C|[]]]; discriminate|].
    destruct (H "x"%string) as [H1 _]; [discriminate|exact H1].
Qed.

Ltac qpos := split; [vm_compute; discriminate|let C := fresh in intros C; vm_compute in C; discriminate C].

(** The copy returned by a marginalisation. *)
Definition marg_copy {F} {K : Fld F} (ps : list string) (f : fisher F) : fisher F :=
  match snd (@marginalize _ _ id_order ps true f) with Ok (Some u) => u | _ => f end.
Lemma marg_copy_ok {F} {K : Fld F} ps (f : fisher F) :
  match snd (@marginalize _ _ id_order ps true f) with Ok (Some _) => true | _ => false end = true ->
  @margd _ _ id_order ps true f (marg_copy ps f).
Proof.
  unfold margd, marg_copy. destruct (marginalize ps true f) as [f' [[u|]|e]]; cbn; try discriminate.
  intros _. exists f', (Some u). auto.
Qed.

Lemma shared_differs : exists f g t u v : fisher Qc,
  wf f /\ wf g /\ posdef f /\ posdef g /\
  @margd _ _ id_order ["n"%string] true f t /\ @margd _ _ id_order ["n"%string] true g u /\
  @margd _ _ id_order ["n"%string] true (@fisher_add _ _ id_order f g) v /\
  fval (@fisher_add _ _ id_order t u) "a" "a" <> fval v "a" "a".
Proof.
  set (f := fish2 (qz 2) (qz 1) (qz 1) (qz 1) "a" "n"). set (g := fish2 (qz 2) (qz 0) (qz 0) (qz 1) "a" "n").
  exists f, g, (marg_copy ["n"%string] f), (marg_copy ["n"%string] g),
    (marg_copy ["n"%string] (@fisher_add _ _ id_order f g)).
  split; [apply fish2_wf; discriminate|]. split; [apply fish2_wf; discriminate|].
  split; [apply fish2_pd; [discriminate|qpos|qpos]|]. split; [apply fish2_pd; [discriminate|qpos|qpos]|].
  split; [apply marg_copy_ok; vm_compute; reflexivity|]. split; [apply marg_copy_ok; vm_compute; reflexivity|].
  split; [apply marg_copy_ok; vm_compute; reflexivity|].
  intros C. vm_compute in C. discriminate C.
Qed.
