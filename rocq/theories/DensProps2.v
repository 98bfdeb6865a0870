(** C88: surface densities.  C89: shot noise between photometric and
    spectroscopic galaxies. *)
From Verif Require Import Base SortLib ParamModel OrdLib EvalModel EvalSpec NumModel DensModel DensSpec DensLemmas.
From Coq Require Import Field Sorted.
Open Scope string_scope.
Open Scope list_scope.

Section Props.
  Context {F : Type} {K : Fld F} {O : OFld (F := F)}.
  Add Field DensProps2F : (fth (F := F)).
  Open Scope fld_scope.
  Context (N : numerics F) (I : ideal N).
  Implicit Types d : density F.

  Lemma surface_ok d s : dhas d = false -> dspl d = Some s ->
    evaluate_surface N d = (with_bins d (Some (map (fun i => quad N s (edge d i) (edge d (i + 1))) (seq 0 (n_bins d)))), Ok tt).
  Proof.
    intros H E. unfold evaluate_surface. rewrite (rmapM_pure _ (fun i => quad N s (edge d i) (edge d (i + 1)))); [reflexivity|].
    intros i Hi. apply in_seq in Hi. rewrite n_bins_eq in Hi. unfold surface_at. rewrite H, E, !index_nth by lia. reflexivity.
  Qed.
  (** The number of galaxies of a bin is the integral of the counts over it; the
      bins make up the integral between the first and the last edge. *)
  Theorem C88_bins d y zlo zhi r : counts d y zlo zhi r -> r_sb r <> 0 -> r_so r <> 0 ->
    exists d1 d2 l, set_up N d = (d1, Ok tt) /\ evaluate_surface N d1 = (d2, Ok tt) /\ dbins d2 = Some l /\ length l = n_bins d /\
      (forall i, (i < n_bins d)%nat -> nth_error l i = Some (quad N (spline N (ddom d) y) (edge d i) (edge d (i + 1)))) /\
      (increasing (dedges d) -> dedges d <> [] -> Fsum (fun x => x) l = quad N (spline N (ddom d) y) (edge d 0) (edge d (n_bins d))).
  Proof.
    intros C Hb Ho. eexists. eexists. eexists. split; [apply (set_up_ok N C Hb Ho)|]. split; [apply surface_ok; [exact (co_has _ _ _ _ _ C)|reflexivity]|].
    split; [reflexivity|]. split; [rewrite map_length, seq_length; reflexivity|]. split.
    - intros i L. change (n_bins _) with (n_bins d) at 1. rewrite (map_nth_error _ i _ (nth_error_nth' _ 0%nat ltac:(rewrite seq_length; exact L))), seq_nth by exact L. reflexivity.
    - intros S H. rewrite Fsum_map. apply (quad_bins N I _ d S H).
  Qed.
  (** Given directly, the numbers of the bins are kept. *)
  Theorem C88_given d b : dhas d = true -> dbins d = Some b -> length b = n_bins d -> evaluate_surface N d = (d, Ok tt).
  Proof.
    intros H E L. unfold evaluate_surface. rewrite (rmapM_pure _ (fun i => nth i b 0)).
    - rewrite <- L. assert (M : map (fun i => nth i b 0) (seq 0 (length b)) = b).
      { clear. induction b as [|x b IH]; [reflexivity|]. cbn [length seq map nth]. f_equal. rewrite <- seq_shift, map_map. exact IH. }
      rewrite M. destruct d; cbn in *. subst. reflexivity.
    - intros i Hi. apply in_seq in Hi. unfold surface_at. rewrite H, E. cbn [attr rbind]. apply index_nth. lia.
  Qed.
  Theorem C88_given_without_numbers d : dhas d = true -> dbins d = None -> (0 < n_bins d)%nat -> evaluate_surface N d = (d, Err ETypeError).
  Proof. intros H E L. unfold evaluate_surface. destruct (n_bins d); [lia|]. cbn [seq rmapM]. unfold surface_at at 1. rewrite H, E. reflexivity. Qed.
  (** The shot noise is the reciprocal of the number. *)
  Theorem C88_shot_noise d b : dbins d = Some b -> exists s, shot_noise d = Ok s /\ length s = length b /\
    forall i x, nth_error b i = Some x -> (x <> 0 -> exists v, nth_error s i = Some (Some v) /\ v * x = 1) /\ (x = 0 -> nth_error s i = Some None).
  Proof.
    intros E. unfold shot_noise. rewrite E. cbn [attr rbind]. eexists. split; [reflexivity|]. split; [apply map_length|]. intros i x Hx. rewrite (map_nth_error _ i b Hx). destruct (fdec x 0); split; intros H; try congruence.
    exists (1 / x). split; [reflexivity|]. field. exact H.
  Qed.
  (** The total number of galaxies is that of the bins times the solid angle,
      when the bins span the domain. *)
  Theorem C88_total d y zlo zhi r d1 d2 l : counts d y zlo zhi r -> r_sb r <> 0 -> r_so r <> 0 -> increasing (dedges d) -> dedges d <> [] -> edge d 0 = zlo -> edge d (n_bins d) = zhi ->
    set_up N d = (d1, Ok tt) -> evaluate_surface N d1 = (d2, Ok tt) -> dbins d2 = Some l ->
    total_number N "quad" d1 = Ok (Fsum (fun x => x) l * (fnat 4 * npi N * dfsky d)) /\ total_number N "simps" d1 = Ok (simps N (ddom d) y * (fnat 4 * npi N * dfsky d)).
  Proof.
    intros C Hb Ho S Ne E0 En Su Es El. rewrite (set_up_ok N C Hb Ho) in Su.
    assert (D1 : d1 = ready_density N (d := d) (y := y) (zlo := zlo) (zhi := zhi) (r := r)) by congruence. subst d1.
    rewrite (surface_ok _ (spline N (ddom d) y)) in Es; [|exact (co_has _ _ _ _ _ C)|reflexivity].
    assert (D2 := f_equal fst Es). cbn [fst] in D2. subst d2. cbn [with_bins dbins] in El.
    assert (Lq : l = map (fun i => quad N (spline N (ddom d) y) (edge d i) (edge d (i + 1))) (seq 0 (n_bins d))) by (apply (f_equal (fun o => match o with Some x => x | None => [] end)) in El; symmetry; exact El).
    assert (Q : Fsum (fun x => x) l = quad N (spline N (ddom d) y) zlo zhi) by (rewrite Lq, Fsum_map, <- E0, <- En; apply (quad_bins N I _ d S Ne)).
    set (D := ready_density N (d := d) (y := y) (zlo := zlo) (zhi := zhi) (r := r)).
    assert (Z0 : z_min D = Ok zlo) by (apply z_min_iff; exact (co_lo _ _ _ _ _ C)). assert (Z1 : z_max D = Ok zhi) by (apply z_max_iff; exact (co_hi _ _ _ _ _ C)).
    unfold total_number. change (dready D) with true. cbn [negb String.eqb Ascii.eqb Bool.eqb]. rewrite Z0, Z1.
    change (dinput D) with (dinput d). rewrite (co_input _ _ _ _ _ C). change (dspl D) with (Some (spline N (ddom d) y)). change (ddom D) with (ddom d). change (dfsky D) with (dfsky d). cbn [rbind attr]. rewrite Q.
    split; f_equal; ring.
  Qed.
  Theorem C88_total_refused d m : (dready d = false -> total_number N m d = Err EDomain) /\
    (dready d = true -> m <> "simps" -> m <> "quad" -> total_number N m d = Err EKeyError).
  Proof.
    unfold total_number. split; intros H; rewrite H; cbn [negb]; [reflexivity|]. intros H1 H2. apply String.eqb_neq in H1, H2. rewrite H1, H2. reflexivity.
  Qed.

  (** ** Photometric times spectroscopic shot noise *)
  Definition clamp (a b x : F) : F := if fle_dec x a then a else if fle_dec b x then b else x.
  Lemma clamp_le a b x y : fle a b -> fle x y -> fle (clamp a b x) (clamp a b y).
  Proof.
    intros Hab H. unfold clamp. destruct (fle_dec x a), (fle_dec y a); try apply fle_refl.
    - destruct (fle_dec b y); [exact Hab|]. apply flt_le, not_le_lt. assumption.
    - exfalso. apply n. eapply fle_trans; eassumption.
    - destruct (fle_dec b x), (fle_dec b y); try apply fle_refl; auto.
      + exfalso. apply n1. eapply fle_trans; eassumption.
      + apply flt_le, not_le_lt. assumption.
  Qed.
  Lemma quad_steps f (g : nat -> F) n : (forall i j, (i <= j <= n)%nat -> fle (g i) (g j)) -> Fsum (fun i => quad N f (g i) (g (i + 1)%nat)) (seq 0 n) = quad N f (g 0%nat) (g n).
  Proof.
    induction n as [|n IH]; intros M; [cbn; symmetry; apply (quad_point N I)|]. rewrite seq_S, Fsum_app, IH by (intros; apply M; lia). cbn [Fsum Nat.add]. rewrite Nat.add_1_r.
    rewrite (quad_split _ I f (g 0%nat) (g n) (g (Datatypes.S n))); [ring| |]; apply M; lia.
  Qed.
  (** The part of the integral over [a, b] that lies in [p, q]. *)
  Lemma overlap_quad f p q a b : flt p q -> flt a b ->
    exists o, bins_overlap p q a b = Ok o /\ match o with None => 0 | Some (l, r) => quad N f l r end = quad N f (clamp a b p) (clamp a b q).
  Proof.
    intros Hpq Hab. unfold bins_overlap, fleb'. destruct (fle_dec q p) as [H|_]; [destruct (flt_not_le _ _ Hpq H)|]. destruct (fle_dec b a) as [H|_]; [destruct (flt_not_le _ _ Hab H)|].
    destruct (fle_dec q a) as [H1|H1].
    - eexists. split; [reflexivity|]. cbn. unfold clamp. destruct (fle_dec q a); [|contradiction]. destruct (fle_dec p a) as [_|C]; [symmetry; apply (quad_point N I)|]. exfalso. apply C. eapply fle_trans; [apply flt_le; exact Hpq|exact H1].
    - destruct (fle_dec b p) as [H2|H2].
      + eexists. split; [reflexivity|]. cbn. unfold clamp. destruct (fle_dec q a); [contradiction|]. destruct (fle_dec p a) as [C|_].
        * exfalso. apply (flt_not_le _ _ Hab). eapply fle_trans; eassumption.
        * destruct (fle_dec b p); [|contradiction]. destruct (fle_dec b q) as [_|C]; [symmetry; apply (quad_point N I)|]. exfalso. apply C. eapply fle_trans; [exact H2|apply flt_le; exact Hpq].
      + eexists. split; [reflexivity|]. cbn. f_equal.
        * unfold fmax, clamp. destruct (fle_dec a p) as [A|A], (fle_dec p a) as [B|B].
          -- apply fle_antisym; assumption.
          -- destruct (fle_dec b p); [contradiction|reflexivity].
          -- reflexivity.
          -- destruct (fle_total a p); contradiction.
        * unfold fmin, clamp. destruct (fle_dec q a); [contradiction|]. destruct (fle_dec b q) as [A|A]; reflexivity.
  Qed.

  (** Every entry: the number of spectroscopic galaxies in the overlap of the two
      bins over the product of the numbers of the bins; 0 without overlap. *)
  Theorem C89_entries nph nsp y bp bs : dprobe nph = "PhotometricGalaxy" -> dprobe nsp = "SpectroscopicGalaxy" ->
    dhas nsp = false -> dinput nsp = Some y -> increasing (ddom nsp) -> (3 < length (ddom nsp))%nat -> length y = length (ddom nsp) ->
    dbins nph = Some bp -> length bp = n_bins nph -> dbins nsp = Some bs -> length bs = n_bins nsp ->
    increasing (dedges nph) -> increasing (dedges nsp) ->
    exists nsp' rows, phsp_noise N nph nsp = (nsp', Ok rows) /\ nsp' = with_splines nsp (Some (spline N (ddom nsp) y)) (dnspl nsp) /\ length rows = n_bins nph /\
      forall i row, nth_error rows i = Some row -> length row = n_bins nsp /\
        forall j, (j < n_bins nsp)%nat -> nth i bp 0 * nth j bs 0 <> 0 ->
          exists v, nth_error row j = Some (Some v) /\
            v * (nth i bp 0 * nth j bs 0) = quad N (spline N (ddom nsp) y) (clamp (edge nsp j) (edge nsp (j + 1)) (edge nph i)) (clamp (edge nsp j) (edge nsp (j + 1)) (edge nph (i + 1))).
  Proof.
    intros P1 P2 H Ey S M Ly Ebp Lbp Ebs Lbs Sp Ss.
    set (nsp' := with_splines nsp (Some (spline N (ddom nsp) y)) (dnspl nsp)).
    assert (EI : interpolate_input N nsp = (nsp', Ok tt)).
    { unfold interpolate_input. rewrite H, Ey. rewrite (proj2 (make_spline_iff N (ddom nsp) y (spline N (ddom nsp) y))) by auto. reflexivity. }
    set (s := spline N (ddom nsp) y) in *.
    set (cell := fun i j => match bins_overlap (edge nph i) (edge nph (i + 1)) (edge nsp j) (edge nsp (j + 1)) with
                            | Ok (Some (l, r)) => if fdec (nth i bp 0 * nth j bs 0) 0 then None else Some (quad N s l r / (nth i bp 0 * nth j bs 0))
                            | _ => Some 0 end).
    assert (EC : forall i j, (i < n_bins nph)%nat -> (j < n_bins nsp)%nat -> phsp_cell N nph nsp' i j = Ok (cell i j)).
    { intros i j Hi Hj. pose proof Hi as Hi'. pose proof Hj as Hj'. rewrite n_bins_eq in Hi', Hj'. unfold phsp_cell. change (dedges nsp') with (dedges nsp). rewrite !index_nth by lia. cbn [rbind].
      destruct (overlap_quad s (edge nph i) (edge nph (i + 1)) (edge nsp j) (edge nsp (j + 1))) as (o & Eo & _); [apply increasing_nth; [exact Sp|lia]|apply increasing_nth; [exact Ss|lia]|].
      unfold cell. unfold edge in *. rewrite Eo. cbn [rbind]. destruct o as [[l r]|]; [|reflexivity]. change (dspl nsp') with (Some s). change (dbins nsp') with (dbins nsp). rewrite Ebp, Ebs. cbn [attr rbind]. rewrite !index_nth by lia. reflexivity. }
    exists nsp', (map (fun i => map (cell i) (seq 0 (n_bins nsp))) (seq 0 (n_bins nph))).
    split.
    - unfold phsp_noise. rewrite P1, P2, !String.eqb_refl. cbn [negb]. rewrite EI. f_equal. apply rmapM_pure. intros i Hi. apply in_seq in Hi. apply rmapM_pure. intros j Hj. apply in_seq in Hj. apply EC; [lia|]. change (n_bins nsp') with (n_bins nsp) in Hj. lia.
    - split; [reflexivity|]. split; [rewrite map_length, seq_length; reflexivity|]. intros i row Hr.
      destruct (Nat.lt_ge_cases i (n_bins nph)) as [L|L]; [|rewrite (proj2 (nth_error_None _ _)) in Hr by (rewrite map_length, seq_length; exact L); discriminate].
      rewrite (map_nth_error _ i _ (nth_error_nth' _ 0%nat ltac:(rewrite seq_length; exact L))), seq_nth in Hr by exact L. cbn [Nat.add] in Hr.
      assert (row = map (cell i) (seq 0 (n_bins nsp))) by congruence. subst row. split; [rewrite map_length, seq_length; reflexivity|]. intros j Hj Nz.
      exists (match bins_overlap (edge nph i) (edge nph (i + 1)) (edge nsp j) (edge nsp (j + 1)) with Ok (Some (l, r)) => quad N s l r / (nth i bp 0 * nth j bs 0) | _ => 0 end).
      rewrite (map_nth_error _ j _ (nth_error_nth' _ 0%nat ltac:(rewrite seq_length; exact Hj))), seq_nth by exact Hj. cbn [Nat.add]. unfold cell.
      pose proof L as Li. pose proof Hj as Lj. rewrite n_bins_eq in Li, Lj.
      destruct (overlap_quad s (edge nph i) (edge nph (i + 1)) (edge nsp j) (edge nsp (j + 1))) as (o & Eo & Vo); [apply increasing_nth; [exact Sp|lia]|apply increasing_nth; [exact Ss|lia]|].
      rewrite Eo. rewrite <- Vo. destruct o as [[l r]|]; [|split; [reflexivity|ring]]. destruct (fdec (nth i bp 0 * nth j bs 0) 0) as [C|_]; [contradiction|]. split; [reflexivity|]. field.
      split; intros C; apply Nz; rewrite C; ring.
  Qed.
  (** Photometric bins that cover a spectroscopic bin share out its galaxies:
      the entries weighted by the photometric numbers sum to one. *)
  Theorem C89_covered nph nsp y bp bs nsp' rows j : dprobe nph = "PhotometricGalaxy" -> dprobe nsp = "SpectroscopicGalaxy" ->
    dhas nsp = false -> dinput nsp = Some y -> increasing (ddom nsp) -> (3 < length (ddom nsp))%nat -> length y = length (ddom nsp) ->
    dbins nph = Some bp -> length bp = n_bins nph -> dbins nsp = Some bs -> length bs = n_bins nsp ->
    increasing (dedges nph) -> increasing (dedges nsp) -> phsp_noise N nph nsp = (nsp', Ok rows) ->
    (j < n_bins nsp)%nat -> nth j bs 0 = quad N (spline N (ddom nsp) y) (edge nsp j) (edge nsp (j + 1)) -> nth j bs 0 <> 0 -> (forall x, In x bp -> x <> 0) ->
    fle (edge nph 0) (edge nsp j) -> fle (edge nsp (j + 1)) (edge nph (n_bins nph)) ->
    Fsum (fun i => match nth_error rows i with Some row => match nth_error row j with Some (Some v) => v * nth i bp 0 | _ => 0 end | None => 0 end) (seq 0 (n_bins nph)) = 1.
  Proof.
    intros P1 P2 H Ey S M Ly Ebp Lbp Ebs Lbs Sp Ss E Hj Vj Nj Np C0 Cn.
    destruct (C89_entries nph nsp y bp bs P1 P2 H Ey S M Ly Ebp Lbp Ebs Lbs Sp Ss) as (nsp1 & rows1 & E1 & _ & L1 & V1).
    assert (rows1 = rows) by congruence. subst rows1. set (s := spline N (ddom nsp) y) in *. set (a := edge nsp j) in *. set (b := edge nsp (j + 1)) in *.
    assert (Hab : flt a b) by (rewrite n_bins_eq in Hj; apply increasing_nth; [exact Ss|lia]).
    rewrite (Fsum_ext _ (fun i => 1 / nth j bs 0 * quad N s (clamp a b (edge nph i)) (clamp a b (edge nph (i + 1))))).
    - rewrite Fsum_scale. rewrite (quad_steps s (fun i => clamp a b (edge nph i)) (n_bins nph)).
      + assert (K0 : clamp a b (edge nph 0) = a) by (unfold clamp; destruct (fle_dec (edge nph 0) a); [reflexivity|contradiction]).
        assert (Kn : clamp a b (edge nph (n_bins nph)) = b).
        { unfold clamp. destruct (fle_dec (edge nph (n_bins nph)) a) as [C|_]; [exfalso; apply (flt_not_le _ _ Hab); eapply fle_trans; eassumption|]. destruct (fle_dec b (edge nph (n_bins nph))); [reflexivity|contradiction]. }
        rewrite K0, Kn, <- Vj. field. exact Nj.
      + intros i k L. apply clamp_le; [apply flt_le; exact Hab|]. destruct (Nat.eq_dec (n_bins nph) 0) as [Z|Z].
        * replace k with i by lia. apply fle_refl.
        * apply increasing_nth_le; [exact Sp|]. rewrite n_bins_eq in *. lia.
    - intros i Hi. apply in_seq in Hi. assert (Hr : exists row, nth_error rows i = Some row) by (destruct (nth_error rows i) eqn:Er; [eauto|apply nth_error_None in Er; lia]).
      destruct Hr as (row & Hr). rewrite Hr. destruct (V1 i row Hr) as (_ & V2). assert (Ni : nth i bp 0 <> 0) by (apply Np, nth_In; lia).
      destruct (V2 j Hj) as (v & Ev & Vv). { intros C. destruct (f_zero_prod _ _ C); contradiction. }
      fold a b in Vv. rewrite Ev, <- Vv. field. exact Nj.
  Qed.
  (** Other probes are refused. *)
  Theorem C89_probes nph nsp : dprobe nph <> "PhotometricGalaxy" \/ dprobe nsp <> "SpectroscopicGalaxy" -> phsp_noise N nph nsp = (nsp, Err EAssertion).
  Proof.
    unfold phsp_noise. intros H. destruct (String.eqb (dprobe nph) "PhotometricGalaxy") eqn:E1; [|reflexivity]. destruct (String.eqb (dprobe nsp) "SpectroscopicGalaxy") eqn:E2; [|reflexivity].
    apply String.eqb_eq in E1, E2. destruct H; contradiction.
  Qed.
End Props.
