(** Property C101: confidence ranges and ellipses. *)
From Coq Require Import Reals Lra Psatz.
From Verif Require Import Base MatInv LabLin SortLib StrLib FrameModel FrameLemmas FisherModel FisherSpec FisherLemmas FisherLemmas2 FisherLemmas3 FisherLemmas4 FisherLemmas5 RealInst
  HeapModel ResultsModel ResultsSpec HeapLemmas ResultsLemmas ResultsLemmas2 ResultsLemmas3 ResultsLemmas4 EvalModel EllipseModel EllipseLemmas ErfLib.
Open Scope list_scope.
Open Scope R_scope.

Section View.
  Context {F : Type} {K : Fld F} {O : OFld (F := F)} {S : SqrtFld F} {SO : SetOrder}.
  (** The objects after the errors have been evaluated. *)
  Lemma map_rows_view (d : odict) : forall h h' (t : table), NoDup (map snd d) ->
    map_each (fun ka => bind (h_errors true true (snd ka)) (fun r => ret (fst ka, r))) d h = (h', Ok t) ->
    (forall k a f, In (k, a) d -> view h a = Some f -> view h' a = Some (with_mat (fst (marginalized_errors true true f)) (fmat f))) /\
    (forall a f, ~ In a (map snd d) -> view h a = Some f -> view h' a = Some f).
  Proof.
    induction d as [|[k a] d IH]; intros h h' t N E.
    - cbn in E. injection E as <- <-. split; [intros ? ? ? []|auto].
    - inversion N as [|? ? Na N']; subst. cbn [map_each snd fst] in E. unfold bind at 1 2 in E. unfold h_errors, h_method in E.
      destruct (hget h a) as [f|] eqn:G; [|discriminate E]. apply hget_view in G. destruct (marginalized_errors true true f) as [f' r] eqn:Em.
      destruct r as [r|]; [|discriminate E]. cbn [ret] in E. unfold bind in E at 1.
      destruct (map_each _ d (h_assign false a f' h)) as [h1 [t1|]] eqn:E1; [|discriminate E]. cbn in E. injection E as <- <-.
      destruct (IH _ _ _ N' E1) as (A & B). split.
      + intros k' a2 f2 [Hin|Hin] V.
        * injection Hin as <- <-. assert (f2 = f) by congruence. subst f2. apply B; [exact Na|]. rewrite Em. exact (assign_same false a f' h f G).
        * apply (A k' a2 f2 Hin). apply assign_other; [|exact V]. intros ->. apply Na. apply in_map_iff. exists (k', a); auto.
      + intros a2 f2 Ni V. apply B; [intros H; apply Ni; right; exact H|]. apply assign_other; [|exact V]. intros ->. apply Ni. left. reflexivity.
  Qed.
End View.

Section Props.
  Context {SO : SetOrder}.
  Variable erfinv : R -> R.
  Let k CL := sqrt 2 * erfinv CL.

  (** No inverse has been evaluated, or it is that of the matrix. *)
  Definition fresh_inverse (f : fisher R) : Prop := finverse f = None \/ exists i, finverse f = Some i /\ invert_dataframe (fmat f) = Ok i.
  (** Squared distance in units of the covariance of two parameters. *)
  Definition distance2 (C : string -> string -> R) (x y : string) (dx dy : R) : R :=
    (C y y * (dx * dx) - 2 * C x y * (dx * dy) + C x x * (dy * dy)) / (C x x * C y y - C x y * C x y).

  Lemma flt_R (x y : R) : flt x y <-> x < y.
  Proof. unfold flt. cbn. split; [intros [A B]; lra|intros A; split; lra]. Qed.
  Lemma pd2 (l : list string) C x y : NoDup l -> pd (F := R) l C -> In x l -> In y l -> x <> y -> 0 < C x x /\ C x y * C x y < C x x * C y y /\ C x y = C y x.
  Proof.
    intros N P Ix Iy Nxy. pose proof (pd_diag_pos string_dec l C x N P Ix) as Dx. pose proof (pd_diag_pos string_dec l C y N P Iy) as Dy.
    assert (Sy : C x y = C y x) by (apply (proj1 P); assumption).
    apply flt_R in Dx. apply flt_R in Dy. change (0 < C x x) in Dx. change (0 < C y y) in Dy. split; [exact Dx|]. split; [|exact Sy].
    destruct (in_split _ _ Ix) as (l1 & l2 & El).
    assert (Pe : exists s, Permutation.Permutation l ([x; y] ++ s)).
    { assert (Iy' : In y (l1 ++ l2)) by (rewrite El in Iy; apply in_app_iff in Iy as [?|[?|?]]; [apply in_or_app; auto|congruence|apply in_or_app; auto]).
      destruct (in_split _ _ Iy') as (m1 & m2 & Em). exists (m1 ++ m2). rewrite El.
      transitivity (x :: l1 ++ l2); [symmetry; apply Permutation.Permutation_middle|]. cbn. constructor. rewrite Em. symmetry. apply Permutation.Permutation_middle. }
    destruct Pe as (s & Pe). assert (P2 : pd [x; y] C).
    { apply (pd_restrict string_dec _ s); [eapply Permutation.Permutation_NoDup; eassumption|]. eapply pd_perm; eassumption. }
    destruct P2 as [_ H]. specialize (H (fun z => if string_dec z x then C x y else if string_dec z y then - C x x else 0)).
    assert (Hn : exists a, In a [x; y] /\ (fun z => if string_dec z x then C x y else if string_dec z y then - C x x else 0) a <> 0).
    { exists y. split; [right; left; reflexivity|]. cbv beta. destruct (string_dec y x); [congruence|]. destruct (string_dec y y); [change (- C x x <> 0); lra|congruence]. }
    specialize (H Hn). apply flt_R in H. unfold bil in H. cbn in H. destruct (string_dec x x); [|congruence]. destruct (string_dec y x); [congruence|]. destruct (string_dec y y); [|congruence].
    rewrite <- Sy in H. assert (H' : 0 < C x x * (C x x * C y y - C x y * C x y)) by lra. assert (0 < C x x * C y y - C x y * C x y); [|lra].
    apply (Rmult_lt_reg_l (C x x)); lra.
  Qed.

  (** After the errors of an analysis have been evaluated, for every matrix that
      is positive definite: the range of a parameter is its fiducial value plus
      or minus [k] standard deviations; the ellipse of two parameters covers
      exactly the points at a distance of at most [k]; its shadows on the axes
      are the two ranges. *)
  Theorem C101_regions an h h' an' obs a f :
    NoDup (map snd (an_fishers an)) -> NoDup (dkeys (an_fishers an)) -> eval_errors an h = (h', Ok an') ->
    In (obs, a) (an_fishers an) -> view h a = Some f -> wf f -> posdef f -> fresh_inverse f ->
    exists C, covariance f C /\ forall CL x y mx my, In x (fcosmo f) -> In y (fcosmo f) -> x <> y -> ~ In "FoM"%string [x; y] ->
      dget String.eqb (an_fid an) x = Some mx -> dget String.eqb (an_fid an) y = Some my ->
      0 < C x x /\ C x y = C y x /\ C x y * C x y < C x x * C y y /\
      parameter_range erfinv an' x obs CL = Ok (Some (mx - k CL * sqrt (C x x), mx + k CL * sqrt (C x x))) /\
      exists e, ellipse_of erfinv h' an' x y obs CL = Ok (Some e) /\
        (forall px py, covers e px py <-> distance2 C x y (px - mx) (py - my) <= k CL * k CL) /\
        (0 <= erfinv CL -> forall px, (exists py, covers e px py) <-> mx - k CL * sqrt (C x x) <= px <= mx + k CL * sqrt (C x x)) /\
        (0 <= erfinv CL -> forall py, (exists px, covers e px py) <-> my - k CL * sqrt (C y y) <= py <= my + k CL * sqrt (C y y)).
  Proof.
    intros Ns Nk E Hin V W P Fr. pose proof W as (Of & _).
    destruct (invert_pd (fmat f) Of P) as (i & Ei). destruct (invert_ok _ _ Of Ei) as (Ii & Oi & Vi).
    destruct (errors_spec an h h' an' Ns E) as (t & Et & _ & Ef & Efid & Kt & Rows).
    destruct (Rows obs a f Hin V) as (r & Er & Inr).
    assert (Dt : dget String.eqb t obs = Some r) by (apply (dget_NoDup_In _ String.eqb_spec); [unfold dkeys in *; rewrite Kt; exact Nk|exact Inr]).
    assert (Df : dget String.eqb (an_fishers an) obs = Some a) by (apply (dget_NoDup_In _ String.eqb_spec); assumption).
    (* the object afterwards holds the inverse of the matrix *)
    set (g := with_inv f i).
    assert (Em : marginalized_errors true true f = marginalized_errors true true g \/ finverse f = Some i).
    { destruct Fr as [N|(j & Ej & Ij)]; [left|right; congruence]. unfold marginalized_errors. rewrite N. unfold eval_inverse. rewrite Ei. reflexivity. }
    destruct (held_inv f i W Ei) as [Hh Wh]. fold g in Hh, Wh.
    assert (Vh : exists g', view h' a = Some g' /\ finverse g' = Some i).
    { unfold eval_errors in E. destruct (an_fishers an) as [|p d] eqn:Efs; [destruct Hin|]. rewrite <- Efs in *.
      unfold bind at 1 in E. destruct (map_each _ (an_fishers an) h) as [h1 [t1|e1]] eqn:Eme; [|discriminate E]. cbn in E. injection E as -> _.
      destruct (map_rows_view (an_fishers an) h h' t1 Ns Eme) as [A _]. specialize (A obs a f Hin V). eexists. split; [exact A|].
      cbn [with_mat finverse]. destruct Em as [-> | Ej].
      - destruct (errors_held true true g i Wh Hh) as (v & _ & ->). reflexivity.
      - unfold marginalized_errors. rewrite Ej. exact Ej. }
    destruct Vh as (g' & Vg & Eg).
    assert (Gt : forall x, In x (fcosmo f) -> x <> "FoM"%string -> dget String.eqb r x = Some (np_sqrt (fv i x x))).
    { intros x Hx Nx. assert (Hr : snd (marginalized_errors true true g) = Ok r).
      { destruct Em as [<- | Ej]; [exact Er|]. assert (Fg : g = f) by (destruct f; cbn in Ej |- *; unfold g, with_inv; cbn; rewrite Ej; reflexivity). rewrite Fg. exact Er. }
      destruct (errors_get true true g i x Wh Hh Nx) as (e & Ee & Ge). rewrite Ee in Hr. cbn in Hr. injection Hr as ->. unfold s_get in Ge. rewrite Ge.
      change (fcosmo g) with (fcosmo f). cbv iota. rewrite (proj2 (smem_In x (fcosmo f)) Hx). reflexivity. }
    assert (Pi : pd (labels f) (fv i)) by (apply (pd_inv string_dec _ (fval f)); [apply wf_NoDup; exact W|exact Vi|exact P]).
    exists (fv i). split; [exact Vi|]. intros CL x y mx my Hx Hy Nxy NF Dx Dy.
    assert (NFx : x <> "FoM"%string) by (intros ->; apply NF; left; reflexivity).
    assert (Lx : In x (labels f)) by (apply W; left; exact Hx). assert (Ly : In y (labels f)) by (apply W; left; exact Hy).
    destruct (pd2 (labels f) (fv i) x y (wf_NoDup f W) Pi Lx Ly Nxy) as (Px & Pxy & Sxy).
    split; [exact Px|]. split; [exact Sxy|]. split; [exact Pxy|]. split.
    - unfold parameter_range, fiducial_value, dget_str. rewrite Efid, Dx. cbn [rbind]. unfold error_cell. rewrite Et, Dt, (Gt x Hx NFx). cbn [rbind].
      unfold np_sqrt. destruct (fle_dec 0%F (fv i x x)) as [L|L]; [reflexivity|]. exfalso. apply L. apply Rlt_le. exact Px.
    - assert (Cell : forall u v, In u (labels f) -> In v (labels f) -> inverse_cell h' an' obs u v = Ok (Some (fv i u v))).
      { intros u v Hu Hv. unfold inverse_cell. rewrite Ef, Df. rewrite (proj2 (hget_view h' a g') Vg). cbn [rbind]. rewrite Eg. pose proof Oi as (_ & Hc & _). rewrite Hc, Ii.
        change (ix (fmat f)) with (labels f). rewrite (proj2 (smem_In u (labels f)) Hu), (proj2 (smem_In v (labels f)) Hv). cbn [andb].
        rewrite (ce_fv i u v Oi); [reflexivity| |]; rewrite Ii; assumption. }
      unfold ellipse_of, fiducial_value, dget_str. rewrite Efid, Dx, Dy. cbn [rbind]. rewrite !Cell by assumption. cbn [rbind].
      set (xx := fv i x x) in *. set (yy := fv i y y) in *. set (xy := fv i x y) in *.
      pose proof (l1_pos xx yy xy Px Pxy) as L1. pose proof (l2_pos xx yy xy Px Pxy) as L2.
      unfold np_sqrt_R. destruct (Rle_dec 0 ((xx + yy) / 2 + sqrt ((xx - yy) * (xx - yy) / 4 + xy * xy))) as [G1|G1]; [|lra].
      destruct (Rle_dec 0 ((xx + yy) / 2 - sqrt ((xx - yy) * (xx - yy) / 4 + xy * xy))) as [G2|G2]; [|lra].
      eexists. split; [reflexivity|]. unfold cl_factor. fold (k CL).
      pose proof (fun px py => ellipse_form xx yy xy Px Pxy (k CL) mx my px py) as EF.
      set (e := mkEllipse _ _ _ _ _) in *.
      assert (Kp : 0 <= erfinv CL -> 0 <= k CL) by (intros Z; apply Rmult_le_pos; [apply sqrt_pos|exact Z]).
      split; [|split].
      + intros px py. rewrite EF. unfold distance2. fold xx yy xy. set (q := yy * _ - _ + _). assert (D : 0 < xx * yy - xy * xy) by lra. split; intros H.
        * apply (Rmult_le_reg_r (xx * yy - xy * xy)); [exact D|]. unfold Rdiv. rewrite Rmult_assoc, Rinv_l by lra. lra.
        * apply (Rmult_le_compat_r (xx * yy - xy * xy)) in H; [|lra]. unfold Rdiv in H. rewrite Rmult_assoc, Rinv_l in H by lra. lra.
      + intros Z px. transitivity (exists dy, yy * ((px - mx) * (px - mx)) - 2 * xy * ((px - mx) * dy) + xx * (dy * dy) <= k CL * k CL * (xx * yy - xy * xy)).
        * split; [intros (py & Hc); exists (py - my); apply EF; exact Hc|]. intros (dy & Hd). exists (my + dy). apply EF. replace (my + dy - my) with dy by ring. exact Hd.
        * rewrite (shadow_x xx yy xy Px Pxy (k CL) (px - mx)), (abs_range (k CL) xx (px - mx) (Kp Z) (Rlt_le _ _ Px)). lra.
      + intros Z py. assert (Py : 0 < yy) by (apply (yy_pos xx yy xy); assumption).
        transitivity (exists dx, yy * (dx * dx) - 2 * xy * (dx * (py - my)) + xx * ((py - my) * (py - my)) <= k CL * k CL * (xx * yy - xy * xy)).
        * split; [intros (px & Hc); exists (px - mx); apply EF; exact Hc|]. intros (dx & Hd). exists (mx + dx). apply EF. replace (mx + dx - mx) with dx by ring. exact Hd.
        * rewrite (shadow_y xx yy xy (k CL) (py - my) Px Pxy), (abs_range (k CL) yy (py - my) (Kp Z) (Rlt_le _ _ Py)). lra.
  Qed.

  (** The errors can be evaluated whenever every matrix is positive definite. *)
  Lemma rows_available (d : odict) : forall h, NoDup (map snd d) ->
    (forall n a, In (n, a) d -> exists f, view h a = Some f /\ wf f /\ posdef f /\ fresh_inverse f) ->
    exists h' t, map_each (fun ka => bind (h_errors true true (snd ka)) (fun r => ret (fst ka, r))) d h = (h', Ok t).
  Proof.
    induction d as [|[n a] d IH]; intros h N H; [exists h, []; reflexivity|]. inversion N as [|? ? Na N']; subst.
    destruct (H n a (or_introl eq_refl)) as (f & V & W & P & Fr). pose proof W as (Of & _).
    destruct (invert_pd (fmat f) Of P) as (i & Ei). destruct (held_inv f i W Ei) as [Hh Wh].
    destruct (errors_held true true (with_inv f i) i Wh Hh) as (v0 & _ & Ev). set (v := s_sort _) in Ev.
    assert (E : marginalized_errors true true f = (with_inv f i, Ok v)).
    { destruct Fr as [Fn|(j & Ej & Ij)]; [rewrite (errors_none true true f i Fn Ei); exact Ev|]. assert (j = i) by congruence. subst j.
      replace (with_inv f i) with f in * by (destruct f; cbn in Ej; unfold with_inv; cbn; rewrite Ej; reflexivity). exact Ev. }
    destruct (IH (h_assign false a (with_inv f i) h) N') as (h' & t & Et).
    { intros n' b Hb. destruct (H n' b (or_intror Hb)) as (g & Vg & R). exists g. split; [|exact R]. apply assign_other; [|exact Vg]. intros ->. apply Na. apply in_map_iff. exists (n', a). auto. }
    exists h', ((n, v) :: t). set (g := fun ka : string * nat => _) in *. cbn [map_each].
    assert (Eg : g (n, a) h = (h_assign false a (with_inv f i) h, Ok (n, v))).
    { unfold g, bind, h_errors, h_method. cbn [snd fst]. rewrite (proj2 (hget_view h a f) V), E. reflexivity. }
    unfold bind. rewrite Eg, Et. reflexivity.
  Qed.
  Theorem C101_available an h : an_fishers an <> [] -> NoDup (map snd (an_fishers an)) ->
    (forall n a, In (n, a) (an_fishers an) -> exists f, view h a = Some f /\ wf f /\ posdef f /\ fresh_inverse f) ->
    exists h' an', eval_errors an h = (h', Ok an').
  Proof.
    intros Ne N H. destruct (rows_available _ h N H) as (h' & t & E). unfold eval_errors. destruct (an_fishers an) as [|q d]; [contradiction|].
    unfold bind at 1. rewrite E. cbn [of_res]. unfold of_res. cbn. eexists. eexists. reflexivity.
  Qed.

  (** What has to be there: otherwise a range or an ellipse raises. *)
  Theorem C101_needs an h x y obs CL :
    (forall r, parameter_range erfinv an x obs CL = Ok r ->
      dmem String.eqb (an_fid an) x = true /\ exists t row, an_errs an = Some t /\ dget String.eqb t obs = Some row) /\
    (forall r, ellipse_of erfinv h an x y obs CL = Ok r ->
      dmem String.eqb (an_fid an) x = true /\ dmem String.eqb (an_fid an) y = true /\
      exists a f i, dget String.eqb (an_fishers an) obs = Some a /\ view h a = Some f /\ finverse f = Some i /\ In x (ix i) /\ In y (ix i) /\ In x (cx i) /\ In y (cx i)).
  Proof.
    split; intros r E.
    - unfold parameter_range, fiducial_value, dget_str in E. unfold dmem. destruct (dget String.eqb (an_fid an) x); [|discriminate E]. split; [reflexivity|]. cbn [rbind] in E.
      unfold error_cell in E. destruct (an_errs an) as [t|]; [|discriminate E]. destruct (dget String.eqb t obs) as [row|] eqn:D; [|discriminate E]. eauto.
    - unfold ellipse_of, fiducial_value, dget_str in E. unfold dmem. destruct (dget String.eqb (an_fid an) x); [|discriminate E]. destruct (dget String.eqb (an_fid an) y); [|discriminate E].
      split; [reflexivity|]. split; [reflexivity|]. cbn [rbind] in E. unfold inverse_cell in E. destruct (dget String.eqb (an_fishers an) obs) as [a|] eqn:D; [|discriminate E].
      destruct (hget h a) as [f|] eqn:V; [|discriminate E]. cbn [rbind] in E. destruct (finverse f) as [i|] eqn:I; [|discriminate E]. exists a, f, i. apply hget_view in V.
      destruct (smem x (ix i) && smem x (cx i)) eqn:B1; [|discriminate E]. cbn [rbind] in E. destruct (smem y (ix i) && smem y (cx i)) eqn:B2; [|discriminate E].
      apply andb_true_iff in B1 as [B1 B1']. apply andb_true_iff in B2 as [B2 B2']. rewrite !smem_In in *. repeat split; assumption.
  Qed.

  (** A larger level gives a region that contains the smaller one, and the order of
      the two parameters only turns the picture. *)
  Theorem C101_consistent an h h' an' obs a f :
    NoDup (map snd (an_fishers an)) -> NoDup (dkeys (an_fishers an)) -> eval_errors an h = (h', Ok an') ->
    In (obs, a) (an_fishers an) -> view h a = Some f -> wf f -> posdef f -> fresh_inverse f ->
    forall x y mx my CL, In x (fcosmo f) -> In y (fcosmo f) -> x <> y -> ~ In "FoM"%string [x; y] ->
      dget String.eqb (an_fid an) x = Some mx -> dget String.eqb (an_fid an) y = Some my ->
      exists e, ellipse_of erfinv h' an' x y obs CL = Ok (Some e) /\ covers e mx my /\
        (exists e', ellipse_of erfinv h' an' y x obs CL = Ok (Some e') /\ forall px py, covers e' py px <-> covers e px py) /\
        (forall CL', 0 <= erfinv CL <= erfinv CL' ->
          exists e', ellipse_of erfinv h' an' x y obs CL' = Ok (Some e') /\ forall px py, covers e px py -> covers e' px py).
  Proof.
    intros Ns Nk E Hin V W P Fr x y mx my CL Hx Hy Nxy NF Dx Dy.
    destruct (C101_regions an h h' an' obs a f Ns Nk E Hin V W P Fr) as (C & _ & H).
    destruct (H CL x y mx my Hx Hy Nxy NF Dx Dy) as (Px & Sy & Det & _ & e & Ee & Ce & _). exists e. split; [exact Ee|]. split; [|split].
    - apply Ce. unfold distance2. replace (mx - mx) with 0 by ring. replace (my - my) with 0 by ring. replace (_ / _) with 0 by (field; lra). apply Rle_0_sqr.
    - destruct (H CL y x my mx Hy Hx (not_eq_sym Nxy)) as (_ & _ & _ & _ & e' & Ee' & Ce' & _); [intros [B|[B|[]]]; apply NF; cbn; auto|exact Dy|exact Dx|].
      exists e'. split; [exact Ee'|]. intros px py. rewrite Ce', Ce. unfold distance2. rewrite <- Sy.
      replace (C y y * C x x - C x y * C x y) with (C x x * C y y - C x y * C x y) by ring.
      replace (C x x * ((py - my) * (py - my)) - 2 * C x y * ((py - my) * (px - mx)) + C y y * ((px - mx) * (px - mx)))
        with (C y y * ((px - mx) * (px - mx)) - 2 * C x y * ((px - mx) * (py - my)) + C x x * ((py - my) * (py - my))) by ring. reflexivity.
    - intros CL' [L0 L1]. destruct (H CL' x y mx my Hx Hy Nxy NF Dx Dy) as (_ & _ & _ & _ & e' & Ee' & Ce' & _). exists e'. split; [exact Ee'|].
      intros px py Hc. apply Ce'. apply Ce in Hc. eapply Rle_trans; [exact Hc|]. pose proof (sqrt_pos 2) as S2.
      assert (K0 : 0 <= k CL) by (apply Rmult_le_pos; assumption). assert (K1 : k CL <= k CL') by (apply Rmult_le_compat_l; assumption). apply Rmult_le_compat; assumption.
  Qed.

  (** The range holds the probability of its level: for a normal variable of
      standard deviation [s], the probability of a distance of at most [d] from
      the mean is erf (d / (s sqrt 2)). *)
  Theorem C101_range_level erf an x obs CL m s lo hi : erf (erfinv CL) = CL ->
    dget String.eqb (an_fid an) x = Some m -> error_cell an obs x = Ok (Some s) -> 0 < s ->
    parameter_range erfinv an x obs CL = Ok (Some (lo, hi)) -> m - lo = hi - m /\ erf ((hi - m) / (s * sqrt 2)) = CL.
  Proof.
    intros He Dm Es Ps E. unfold parameter_range, fiducial_value, dget_str in E. rewrite Dm, Es in E. cbn in E. injection E as <- <-. unfold cl_factor. split; [ring|].
    pose proof (sqrt_lt_R0 2 ltac:(lra)) as S2. replace ((m + sqrt 2 * erfinv CL * s - m) / (s * sqrt 2)) with (erfinv CL) by (field; lra). exact He.
  Qed.
  (** The points shaded under a Gaussian are those within [k] errors of the mean. *)
  Theorem C101_mask an x obs CL m s range xs n p : 0 <= s -> 0 <= erfinv CL ->
    dget String.eqb (an_fid an) x = Some m -> error_cell an obs x = Ok (Some s) -> parameter_range erfinv an x obs CL = Ok (Some range) ->
    nth_error xs n = Some p -> exists b, nth_error (cl_mask range xs) n = Some b /\ (b = true <-> Rabs (p - m) <= k CL * s).
  Proof.
    intros Ps Pe Dm Es E Hn. unfold parameter_range, fiducial_value, dget_str in E. rewrite Dm, Es in E. cbn in E. injection E as <-. unfold cl_factor. fold (k CL).
    unfold cl_mask. rewrite (map_nth_error _ _ _ Hn). eexists. split; [reflexivity|]. cbn [fst snd].
    destruct (Rle_dec (m - k CL * s) p) as [A|A]; [destruct (Rle_dec p (m + k CL * s)) as [B|B]|]; (split; [intros H|intros H; try reflexivity]); try discriminate H.
    - apply Rabs_le. lra.
    - exfalso. apply B. pose proof (Rle_abs (p - m)). lra.
    - exfalso. apply A. pose proof (Rle_abs (- (p - m))) as Z. rewrite Rabs_Ropp in Z. lra.
  Qed.
  (** The ellipse holds less than its level, at every level: two normal variables
      are within a distance [r] in units of their covariance with probability
      1 - exp (- r^2 / 2), and the ellipse is drawn at [r = k CL]
      (C101_regions). *)
  Theorem C101_ellipse_below_level erf c CL : is_erf erf c -> 0 < CL < 1 -> 0 <= erfinv CL -> erf (erfinv CL) = CL ->
    1 - exp (- (k CL * k CL) / 2) < CL.
  Proof.
    intros He Hc Pe Ee. assert (Z : 0 < erfinv CL) by (destruct Pe as [|E0]; [assumption|]; rewrite <- E0, (erf_0 _ _ He) in Ee; lra).
    pose proof (disc_below erf c He (erfinv CL) Z) as D. rewrite Ee in D. replace (- (k CL * k CL) / 2) with (- (erfinv CL * erfinv CL)); [exact D|].
    unfold k. replace (sqrt 2 * erfinv CL * (sqrt 2 * erfinv CL)) with ((sqrt 2 * sqrt 2) * (erfinv CL * erfinv CL)) by ring. rewrite sqrt_sqrt by lra. field.
  Qed.

  (** The plot range of a parameter: around the fiducial value, with the mean of
      the half widths of the 99 % ranges.  So it shows all of them only if all
      the matrices have the same error. *)
  Lemma sequence_some {A} (l : list A) : sequence (map Some l) = Some l.
  Proof. induction l as [|q l IH]; [reflexivity|]. cbn. rewrite IH. reflexivity. Qed.
  Definition total (l : list R) := fold_right Rplus 0 l.
  Lemma total_line (m b : R) (l : list R) : total (map (fun s => m + b * s) l) = INR (length l) * m + b * total l.
  Proof. induction l as [|q l IH]; [cbn; ring|]. cbn [map total fold_right length]. fold (total (map (fun s => m + b * s) l)) (total l). rewrite IH, S_INR. ring. Qed.
  Theorem C101_plot_range an order x m (sd : string -> R) : order <> [] -> dget String.eqb (an_fid an) x = Some m ->
    (forall obs, In obs order -> error_cell an obs x = Ok (Some (sd obs))) ->
    let w := k (99 / 100) * (total (map sd order) / INR (length order)) in
    plot_range erfinv an order x = Ok (Some (m - w), Some (m + w)).
  Proof.
    intros Ne Dm Es w. unfold plot_range.
    assert (E : rmapM (fun obs => parameter_range erfinv an x obs (99 / 100)) order = Ok (map Some (map (fun s => (m - k (99 / 100) * s, m + k (99 / 100) * s)) (map sd order)))).
    { clear w Ne. induction order as [|q l IH]; [reflexivity|]. cbn [rmapM map]. unfold parameter_range at 1, fiducial_value, dget_str. rewrite Dm, (Es q (or_introl eq_refl)). cbn [rbind option_map].
      rewrite IH by (intros o Ho; apply Es; right; exact Ho). reflexivity. }
    rewrite E. cbn [rbind]. rewrite sequence_some. rewrite !map_map. cbn [fst snd].
    assert (M : forall b, mean (map (fun o => m + b * sd o) order) = Some (m + b * (total (map sd order) / INR (length order)))).
    { intros b. unfold mean. destruct order as [|q l] eqn:Eo; [contradiction|]. rewrite <- Eo. pose proof (total_line m b (map sd order)) as T. rewrite map_map, map_length in T.
      assert (NZ : INR (length order) <> 0) by (apply not_0_INR; rewrite Eo; discriminate).
      destruct (map (fun o => m + b * sd o) order) as [|u v] eqn:Em; [rewrite Eo in Em; discriminate|]. rewrite <- Em in *. f_equal. unfold total in T. rewrite T, map_length. unfold total. field. exact NZ. }
    rewrite (M (k (99 / 100))). replace (map (fun o => m - k (99 / 100) * sd o) order) with (map (fun o => m + - k (99 / 100) * sd o) order) by (apply map_ext; intros; ring). rewrite (M (- k (99 / 100))).
    unfold w. f_equal. f_equal. f_equal. ring.
  Qed.
  Theorem C101_plot_range_shows an order x m (sd : string -> R) lo hi : 0 < erfinv (99 / 100) -> dget String.eqb (an_fid an) x = Some m ->
    (forall obs, In obs order -> error_cell an obs x = Ok (Some (sd obs))) ->
    plot_range erfinv an order x = Ok (Some lo, Some hi) ->
    ((forall obs a b, In obs order -> parameter_range erfinv an x obs (99 / 100) = Ok (Some (a, b)) -> lo <= a /\ b <= hi) <->
     (forall o o', In o order -> In o' order -> sd o = sd o')).
  Proof.
    intros Pe Dm Es E. destruct order as [|q l] eqn:Eo; [split; intros H; intros; contradiction|]. rewrite <- Eo in *.
    assert (Ne : order <> []) by (rewrite Eo; discriminate). pose proof (C101_plot_range an order x m sd Ne Dm Es) as Ep. cbv zeta in Ep. rewrite Ep in E. injection E as <- <-.
    set (mu := total (map sd order) / INR (length order)). assert (LP : 0 < INR (length order)) by (apply lt_0_INR; rewrite Eo; cbn; apply PeanoNat.Nat.lt_0_succ).
    assert (Kp : 0 < k (99 / 100)) by (apply Rmult_lt_0_compat; [apply sqrt_lt_R0; lra|exact Pe]).
    assert (Rg : forall obs, In obs order -> parameter_range erfinv an x obs (99 / 100) = Ok (Some (m - k (99 / 100) * sd obs, m + k (99 / 100) * sd obs))).
    { intros o Ho. unfold parameter_range, fiducial_value, dget_str. rewrite Dm, (Es o Ho). reflexivity. }
    assert (Tm : total (map sd order) = INR (length order) * mu) by (unfold mu; field; lra).
    assert (Le : forall (g : string -> R) n c, (forall o, In o n -> g o <= c) -> total (map g n) <= INR (length n) * c).
    { clear. intros g n c H. induction n as [|q n IH]; [cbn; lra|]. cbn [map total fold_right length]. fold (total (map g n)). rewrite S_INR. pose proof (H q (or_introl eq_refl)). assert (total (map g n) <= INR (length n) * c) by (apply IH; intros; apply H; right; assumption). lra. }
    split.
    - intros H. assert (U : forall o, In o order -> sd o <= mu).
      { intros o Ho. destruct (H o _ _ Ho (Rg o Ho)) as [_ B]. apply (Rmult_le_reg_l (k (99 / 100))); [exact Kp|]. fold mu in B. lra. }
      assert (Q : forall o, In o order -> sd o = mu).
      { intros o Ho. apply Rle_antisym; [apply U; exact Ho|]. destruct (in_split _ _ Ho) as (n1 & n2 & En). pose proof (Le sd (n1 ++ n2) mu) as T.
        assert (T' : total (map sd order) = sd o + total (map sd (n1 ++ n2))).
        { rewrite En. clear. induction n1 as [|q n IH]; [reflexivity|]. cbn [app map total fold_right]. fold (total (map sd (n ++ o :: n2))) (total (map sd (n ++ n2))). rewrite IH. ring. }
        assert (L' : INR (length order) = 1 + INR (length (n1 ++ n2))) by (rewrite En, !app_length; cbn [length]; rewrite PeanoNat.Nat.add_succ_r, S_INR; ring).
        rewrite T', L' in Tm. assert (total (map sd (n1 ++ n2)) <= INR (length (n1 ++ n2)) * mu) by (apply T; intros o' Ho'; apply U; rewrite En; apply in_app_iff in Ho' as []; apply in_or_app; [left|right; right]; assumption). lra. }
      intros o o' Ho Ho'. rewrite (Q o Ho), (Q o' Ho'). reflexivity.
    - intros H obs a b Ho Er. rewrite (Rg obs Ho) in Er. injection Er as <- <-.
      assert (Em : sd obs = mu).
      { assert (A : total (map sd order) = INR (length order) * sd obs).
        { apply Rle_antisym; [apply Le; intros o' Ho'; rewrite (H o' obs Ho' Ho); lra|]. pose proof (Le (fun o => - sd o) order (- sd obs)) as T.
          assert (B : total (map (fun o => - sd o) order) = - total (map sd order)) by (clear; induction order as [|q n IH]; [cbn; ring|]; cbn [map total fold_right]; fold (total (map (fun o => - sd o) n)) (total (map sd n)); rewrite IH; ring).
          rewrite B in T. assert (- total (map sd order) <= INR (length order) * - sd obs) by (apply T; intros o' Ho'; rewrite (H o' obs Ho' Ho); lra). lra. }
        unfold mu. rewrite A. field. lra. }
      fold mu. rewrite Em. lra.
  Qed.
End Props.

(** A matrix of two correlated parameters, its analysis, and an error function. *)
Definition ex_f : fisher R := mkFisher (mat2 4 3 3 3 "a" "b") "[WL]" ["a"; "b"]%string [] None None true.
Definition ex_an : analysis R := mkAn None [("[WL]", 0%nat)]%string None [("a", 2); ("b", - 1)]%string None None true.
Definition ex_h : heap R := fst (h_alloc ex_f (mkHeap [] [])).
Example C101_instance : an_fishers ex_an <> [] /\ NoDup (map snd (an_fishers ex_an)) /\ NoDup (dkeys (an_fishers ex_an)) /\
  In ("[WL]"%string, 0%nat) (an_fishers ex_an) /\ view ex_h 0 = Some ex_f /\ wf ex_f /\ posdef ex_f /\ fresh_inverse ex_f /\
  In "a"%string (fcosmo ex_f) /\ In "b"%string (fcosmo ex_f) /\ ~ In "FoM"%string ["a"; "b"]%string /\
  (exists (SO : SetOrder) h' an', eval_errors ex_an ex_h = (h', Ok an')) /\
  exists erf c, is_erf erf c /\ forall CL, 0 < CL < 1 -> exists erfinv : R -> R, 0 <= erfinv CL /\ erf (erfinv CL) = CL.
Proof.
  assert (P : posdef ex_f) by (apply (fish2_pd 4 3 3 "a"%string "b"%string); [discriminate| |]; apply flt_R; cbn; lra). assert (W : wf ex_f) by (destruct (fish2_wf 4 3 3 3 "a" "b" ltac:(discriminate)) as (A & _); split; [exact A|]; split; [constructor; [intros [C|[]]; discriminate C|constructor; [intros []|constructor]]|]; split; [constructor|]; intros z; cbn; tauto).
  assert (Fr : fresh_inverse ex_f) by (left; reflexivity).
  split; [discriminate|]. split; [repeat constructor; intros []|]. split; [repeat constructor; intros []|]. split; [left; reflexivity|]. split; [reflexivity|].
  split; [exact W|]. split; [exact P|]. split; [exact Fr|]. split; [left; reflexivity|]. split; [right; left; reflexivity|]. split; [intros [H|[H|[]]]; discriminate H|]. split.
  - exists id_order. apply C101_available; [discriminate|repeat constructor; intros []|]. intros n a [H|[]]. injection H as <- <-. exists ex_f. split; [reflexivity|]. split; [exact W|]. split; [exact P|exact Fr].
  - destruct erf_exists as (erf & c & He). exists erf, c.
    split; [exact He|]. intros CL B. destruct (erf_onto erf c CL He B) as (z & Z & E). exists (fun _ => z). split; [lra|exact E].
Qed.
(** Two matrices with different errors. *)
Definition ex_an2 : analysis R := mkAn None [("A", 0%nat); ("B", 1%nat)]%string None [("a", 2)]%string (Some [("A", [("a", Some 1)]); ("B", [("a", Some 3)])]%string) None true.
Example C101_plot_instance : dget String.eqb (an_fid ex_an2) "a" = Some 2 /\
  error_cell ex_an2 "A" "a" = Ok (Some 1) /\ error_cell ex_an2 "B" "a" = Ok (Some 3).
Proof. repeat split. Qed.

Print Assumptions C101_regions.
Print Assumptions C101_available.
Print Assumptions C101_needs.
Print Assumptions C101_consistent.
Print Assumptions C101_range_level.
Print Assumptions C101_mask.
Print Assumptions C101_ellipse_below_level.
Print Assumptions C101_plot_range.
Print Assumptions C101_plot_range_shows.
