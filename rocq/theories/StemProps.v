(** Properties C39-C44: numerical derivatives and the names of the files they
    are computed from. *)
From Verif Require Import Base SortLib StrLib KeyModel ParamModel EvalModel EvalSpec EllLemmas OrdLib ParamFileModel StemModel NameModel
  ParamLemmas ParamLemmas2 StemLemmas StemLemmas2 StemLemmas3 NameLemmas CovLemmas ParamProps.
From Coq Require Import Field Sorted Permutation Qcanon.
Close Scope Qc_scope.
Open Scope list_scope.

Section Props.
  Context {F : Type} {K : Fld F} {O : OFld (F := F)}.
  Add Field FldSP : (fth (F := F)).
  Open Scope fld_scope.
  Context (degen : list F -> list F -> F * F).

  (** ** C39 *)
  (** From files: up to nine displacements the k-th file is the one of the k-th
      value. *)
  Theorem C39_files L (p : param F) base : alnum (pp_name p) -> (1 <= length base <= 9)%nat -> complete_listing L (pp_name p) (length base) ->
    exists files, collect_files L (pp_name p) = Ok files /\ length files = length (stem_values p (disps_of base)) /\
      forall k file v, nth_error files k = Some file -> nth_error (stem_values p (disps_of base)) k = Some v ->
        In file L /\
        ((fst file = jobdir_name "central" 0 /\ v = fiducial p) \/
         exists s eps, fst file = jobdir_name (pp_name p) s /\
           dget Z.eqb (combine (steps_of (length base)) (disps_of base)) s = Some eps /\ v = value_for p eps).
  Proof.
    intros Ha Hn Hc. destruct (collect_aligned L (pp_name p) (length base) Ha) as (files & E & Le & Hi & Hf); [lia|lia|exact Hc|].
    exists files. split; [exact E|]. split; [rewrite stem_length; exact Le|]. intros k file v Ek Ev. split; [apply Hi; eapply nth_error_In; exact Ek|].
    assert (Hk : (k < 2 * length base + 1)%nat) by (rewrite <- Le; apply nth_error_Some; rewrite Ek; discriminate).
    pose proof (zrange_nth _ _ Hk) as Hz. destruct (Hf k _ Hz) as (f & Ef). assert (G : file = ((if Z.eqb (Z.of_nat k - Z.of_nat (length base)) 0 then jobdir_name "central" 0 else jobdir_name (pp_name p) (Z.of_nat k - Z.of_nat (length base)))%Z, f)) by congruence.
    destruct (stem_aligned p base k _ v Hz Ev) as [[Z1 Z2]|[Z1 (eps & Z2 & Z3)]].
    - left. rewrite G, Z1. split; [reflexivity|exact Z2].
    - right. exists (Z.of_nat k - Z.of_nat (length base))%Z, eps. split; [|split; [exact Z2|exact Z3]]. rewrite G. cbn [fst].
      destruct (Z.eqb_spec (Z.of_nat k - Z.of_nat (length base)) 0); [contradiction|reflexivity].
  Qed.
  (** In memory: whenever a derivative comes out, there were seven
      displacements and the k-th of the stacked spectra was computed with the
      parameter at the k-th value. *)
  Theorem C39_pipeline compute dvar (fid : collector) (c c' : coll F) r base : NoDup (dkeys (params c)) ->
    (forall n p, pget c n = Some p -> current p = fiducial p) -> dvar <> "central"%string -> loaded_from base c ->
    derivatives_wrt degen compute dvar fid c = (c', Ok r) ->
    c' = c /\ dkeys r = dkeys fid /\ forall k cb, In (k, cb) r ->
    exists p cs, pget c dvar = Some p /\ length base = 7%nat /\
      do_derivative degen true (stem_values p (disps_of base)) cs = Ok cb /\ length cs = length (stem_values p (disps_of base)) /\
      forall n v y, nth_error (stem_values p (disps_of base)) n = Some v -> nth_error cs n = Some y ->
        (n = 7%nat /\ v = fiducial p /\ cget fid k = Ok y) \/
        (n <> 7%nat /\ exists c1 src d p1, pget c1 dvar = Some p1 /\ current p1 = v /\
           pmm_source dvar (Z.of_nat n - 7) c1 = Ok src /\ compute src c1 = Ok d /\ cget d k = Ok y).
  Proof.
    intros N Hf Hd Hl H. destruct (derivatives_aligned degen compute dvar fid c c' r base N Hf Hd Hl H) as (E & Ek & G).
    split; [exact E|]. split; [exact Ek|]. intros k cb Hk. destruct (G k cb Hk) as (p & cs & A & B & C & D & _ & H').
    exists p, cs. repeat (split; [assumption|]). intros n v y Hv Hy. destruct (H' n v y Hv Hy) as [Q|(Q & eps & c1 & src & d & Dd & Ev & R1 & R2 & R3)]; [left; exact Q|right].
    split; [exact Q|]. destruct Dd as (_ & _ & _ & p0 & P0 & P1). exists c1, src, d, (with_current p0 (value_for p0 eps)).
    rewrite (P1 dvar), String.eqb_refl. split; [reflexivity|]. assert (p0 = p) by congruence. subst p0. split; [symmetry; exact Ev|]. split; [exact R1|]. split; [exact R2|exact R3].
  Qed.

  (** ** C40 *)
  Theorem C40_scalar a b x : NoDup x -> (2 <= length x)%nat -> stem_derivative degen x (map (fun v => a * v + b) x) = Ok a.
  Proof. exact (stem_line degen a b x). Qed.
  (** One column of a block is linear, the others are arbitrary. *)
  Theorem C40_vectorised {I} (cols : list I) (c : I) a b x Y : In c cols -> NoDup x -> (2 <= length x)%nat ->
    map (fun row => row c) Y = map (fun v => a * v + b) x -> exists r, vec_stem degen cols x Y = Ok r /\ r c = a.
  Proof.
    intros Hc N L E. assert (Le : length x = length Y) by (rewrite <- (map_length (fun row => row c) Y), E, map_length; reflexivity).
    destruct (vec_total degen cols x Y Le) as (r & Er); [intros ->; cbn in L; lia|intros ->; destruct Hc|].
    exists r. split; [exact Er|]. exact (vec_line degen cols c a b x Y r Hc N L E Er).
  Qed.
  (** End to end: if the spectra are linear in the parameter at some multipole
      and bins, the derivative there is the slope. *)
  Theorem C40_pipeline compute dvar (fid : collector) (c c' : coll F) r base p a b k cb t : NoDup (dkeys (params c)) ->
    (forall n p, pget c n = Some p -> current p = fiducial p) -> dvar <> "central"%string -> loaded_from base c ->
    (forall x, In x base -> x <> 0) -> NoDup (map fabs base) -> pget c dvar = Some p -> stem_factor p <> 0 ->
    derivatives_wrt degen compute dvar fid c = (c', Ok r) -> In (k, cb) r ->
    (forall y, cget fid k = Ok y -> centry y t = a * fiducial p + b) ->
    (forall src c1 d y p1, compute src c1 = Ok d -> pget c1 dvar = Some p1 -> cget d k = Ok y -> In t (indices y) /\ centry y t = a * current p1 + b) ->
    centry cb t = a.
  Proof.
    intros N Hf Hd Hl Nz Nd Ep Hs H Hk Hc Hv.
    destruct (derivatives_aligned degen compute dvar fid c c' r base N Hf Hd Hl H) as (_ & _ & G).
    destruct (G k cb Hk) as (p' & cs & A & B & C & D & E & H'). assert (p' = p) by congruence. subst p'.
    assert (Lx : length (stem_values p (disps_of base)) = 15%nat) by (rewrite stem_length, B; reflexivity).
    assert (Pr : forall n v y, n <> 7%nat -> nth_error (stem_values p (disps_of base)) n = Some v -> nth_error cs n = Some y ->
              In t (indices y) /\ centry y t = a * v + b).
    { intros n v y Hn Ev Ey. destruct (H' n v y Ev Ey) as [(Q & _)|(_ & eps & c1 & src & d & Dd & Ex & _ & R2 & R3)]; [contradiction|].
      destruct Dd as (_ & _ & _ & p0 & P0 & P1). assert (p0 = p) by congruence. subst p0. specialize (P1 dvar). rewrite String.eqb_refl in P1.
      destruct (Hv src c1 d y _ R2 P1 R3) as [I1 I2]. split; [exact I1|]. rewrite I2, Ex. reflexivity. }
    apply (vec_derivative_line degen a b (stem_values p (disps_of base)) cs cb t).
    - apply stem_NoDup; assumption.
    - rewrite Lx. lia.
    - exact C.
    - destruct cs as [|c0 cs]; [cbn in D; lia|]. exists c0. split; [reflexivity|].
      destruct (stem_values p (disps_of base)) as [|v0 vs] eqn:Ev; [cbn in Lx; lia|]. destruct (Pr 0%nat v0 c0) as [I1 _]; [lia|reflexivity|reflexivity|exact I1].
    - intros n v y Ev Ey. destruct (Nat.eq_dec n 7) as [En|Nn]; [|apply (Pr n v y Nn Ev Ey)].
      destruct (H' n v y Ev Ey) as [(_ & Q & R)|(Q & _)]; [|contradiction]. rewrite Q. apply Hc, R.
  Qed.

  (** ** C41 *)
  (** Termination: the model runs the loops with a bounded number of rounds and
      the bound is never reached; and on well-shaped data there is a result. *)
  Theorem C41_terminates : (forall x y, stem_derivative degen x y <> Err EOutOfFuel) /\
    (forall I (cols : list I) x Y, vec_stem degen cols x Y <> Err EOutOfFuel).
  Proof. exact (conj (stem_ends degen) (fun I cols x Y => vec_ends degen cols x Y)). Qed.
  Theorem C41_succeeds : (forall x y, length x = length y -> y <> [] -> exists s, stem_derivative degen x y = Ok s) /\
    (forall I (cols : list I) x Y, length x = length Y -> x <> [] -> cols <> [] -> exists r, vec_stem degen cols x Y = Ok r).
  Proof. exact (conj (stem_total degen) (fun I cols x Y => vec_total degen cols x Y)). Qed.
  (** What is computed: the slope of the widest symmetric window whose points
      are all less than one percent off its fitted line, or else of the last
      window - of at most three points in one implementation, at most five in
      the other. *)
  Theorem C41_scalar_window x y : length x = length y -> y <> [] -> (exists w, In w y /\ w <> 0) -> ndet x <> 0 ->
    exists s, stem_derivative degen x y = Ok s /\ window degen 3 x y s.
  Proof. exact (stem_window degen x y). Qed.
  Theorem C41_vectorised_window {I} (cols : list I) (c : I) x Y r : In c cols -> ndet x <> 0 ->
    (forall w, In w (column Y c) -> flt 0 w) -> unambiguous degen x (column Y c) ->
    vec_stem degen cols x Y = Ok r -> window degen 5 x (column Y c) (r c).
  Proof. exact (fun Hc => vec_window degen cols c Hc x Y r). Qed.
  (** They agree on positive data that becomes linear before the window has
      three points, unless a point is exactly one percent off. *)
  Theorem C41_agree {I} (cols : list I) (c : I) x Y r s : In c cols -> NoDup x -> (2 <= length x)%nat ->
    (forall w, In w (column Y c) -> flt 0 w) -> unambiguous degen x (column Y c) -> settles degen x (column Y c) ->
    vec_stem degen cols x Y = Ok r -> stem_derivative degen x (column Y c) = Ok s -> r c = s.
  Proof. intros Hc N L. exact (stems_agree degen cols c x Y r s Hc (ndet_neq x N L)). Qed.

  (** ** C42 *)
  Theorem C42_zero (p : param F) probe1 probe2 fid inner q : is_cosmo p = false -> pprobe p = Some q -> q <> probe1 -> q <> probe2 ->
    exists r, compute_derivative p probe1 probe2 fid inner = Ok r /\ same_shape fid r = true /\
      (forall t, In t (indices r) -> centry r t = 0) /\ indices r = indices fid.
  Proof.
    intros Hk Eq N1 N2. unfold compute_derivative, is_nuis. rewrite Hk, Eq. cbn [negb andb opt_eqb].
    destruct (String.eqb_spec q probe1); [contradiction|]. destruct (String.eqb_spec q probe2); [contradiction|]. cbn [orb negb].
    assert (E : indices (zeros_like fid) = indices fid) by (unfold indices, zeros_like, cube_of; cbn [crows cnc cnr]; rewrite map_length, seq_length; reflexivity).
    eexists. split; [reflexivity|]. split; [|split; [|exact E]].
    - unfold same_shape, zeros_like, cube_of. cbn [crows cnc cnr]. rewrite map_length, seq_length, !Nat.eqb_refl. reflexivity.
    - intros t Ht. rewrite E in Ht. apply (centry_of fid (fun _ => 0) t Ht).
  Qed.
  (** Otherwise the derivative is the one of the method. *)
  Theorem C42_related (p : param F) probe1 probe2 fid inner : is_cosmo p = true \/ pprobe p = Some probe1 \/ pprobe p = Some probe2 ->
    compute_derivative p probe1 probe2 fid inner = inner tt.
  Proof.
    unfold compute_derivative, is_nuis. intros [->|[->| ->]]; cbn [negb andb opt_eqb]; [reflexivity| |]; rewrite String.eqb_refl; [|rewrite orb_true_r];
      cbn; rewrite andb_false_r; reflexivity.
  Qed.
  (** The pipeline does not test for this case; it computes the derivative,
      which is zero where the spectra do not move. *)
  Theorem C42_pipeline compute dvar (fid : collector) (c c' : coll F) r base p v k cb t : NoDup (dkeys (params c)) ->
    (forall n p, pget c n = Some p -> current p = fiducial p) -> dvar <> "central"%string -> loaded_from base c ->
    (forall x, In x base -> x <> 0) -> NoDup (map fabs base) -> pget c dvar = Some p -> stem_factor p <> 0 ->
    derivatives_wrt degen compute dvar fid c = (c', Ok r) -> In (k, cb) r ->
    (forall y, cget fid k = Ok y -> centry y t = v) ->
    (forall src c1 d y, compute src c1 = Ok d -> cget d k = Ok y -> In t (indices y) /\ centry y t = v) ->
    centry cb t = 0.
  Proof.
    intros N Hf Hd Hl Nz Nd Ep Hs H Hk Hc Hv.
    apply (C40_pipeline compute dvar fid c c' r base p 0 v k cb t N Hf Hd Hl Nz Nd Ep Hs H Hk).
    - intros y E. rewrite (Hc y E). ring.
    - intros src c1 d y p1 E1 _ E2. destruct (Hv src c1 d y E1 E2) as [A B]. split; [exact A|]. rewrite B. ring.
  Qed.
End Props.

(** ** C43 *)
Theorem C43_round_trip dvar step : alnum dvar -> (parse_jobdir (jobdir_name dvar step) = Ok (dvar, step) <-> (Z.abs step <= 9)%Z).
Proof.
  intros Ha. split.
  - intros E. destruct (Z_le_gt_dec 10 (Z.abs step)) as [H|H]; [|lia]. destruct (parse_large dvar step Ha H) as (s & E' & Hs & _). congruence.
  - intros H. apply parse_small; [exact Ha|lia].
Qed.
Theorem C43_two_digits_refuted dvar step : alnum dvar -> (10 <= Z.abs step)%Z ->
  exists s, parse_jobdir (jobdir_name dvar step) = Ok (dvar, s) /\ s <> step /\ (Z.abs s < 10)%Z.
Proof. exact (parse_large dvar step). Qed.
Theorem C43_distinct_names d1 s1 d2 s2 : alnum d1 -> alnum d2 -> (Z.abs s1 <= 9)%Z -> (Z.abs s2 <= 9)%Z ->
  jobdir_name d1 s1 = jobdir_name d2 s2 -> d1 = d2 /\ s1 = s2.
Proof. intros A B C D. apply jobdir_inj; [exact A|exact B|lia|lia]. Qed.

(** ** C44 *)
Theorem C44_fisher_directories a b : alnum a -> alnum b -> parse_fisher_dir (fisher_dir a b) = Ok (a, b).
Proof. exact (parse_fisher_name a b). Qed.
Theorem C44_combination_keys p1 p2 : has "_" p1 = false -> has "_" p2 = false ->
  comb_probes (comb_key p1 p2) = [p1; p2] /\ reverse_comb (comb_key p1 p2) = Ok (comb_key p2 p1).
Proof. intros A B. exact (conj (comb_probes_key p1 p2 A B) (reverse_key p1 p2 A B)). Qed.
Theorem C44_reverse_involutive k k' : reverse_comb k = Ok k' -> reverse_comb k' = Ok k.
Proof. exact (reverse_ok k k'). Qed.

Section Examples.
  Definition none : list Qc -> list Qc -> Qc * Qc := fun _ _ => (qz 0, qz 0).

  (** C39, from files. *)
  Definition dirs (par : string) (n : nat) : listing :=
    (jobdir_name "central" 0, "cls.h5"%string) :: map (fun s => (jobdir_name par s, "cls.h5"%string)) (rev (steps_of n)) ++
      [("dvar_h_step_p_1"%string, "cls.h5"%string); ("dvar_central_step_0"%string, "log.txt"%string)].
  Example C39_ex : complete_listing (dirs "Omm" 3) "Omm" 3 /\
    option_map (map fst) (match collect_files (dirs "Omm" 3) "Omm" with Ok l => Some l | Err _ => None end) =
      Some ["dvar_Omm_step_m_3"; "dvar_Omm_step_m_2"; "dvar_Omm_step_m_1"; "dvar_central_step_0"; "dvar_Omm_step_p_1"; "dvar_Omm_step_p_2"; "dvar_Omm_step_p_3"]%string.
  Proof.
    split; [|vm_compute; reflexivity]. split; [|exists "cls.h5"%string; vm_compute; reflexivity].
    match goal with |- Permutation ?l _ => let l' := eval vm_compute in l in change l with l' end.
    change (Permutation (rev (map (jobdir_name "Omm") (steps_of 3))) (map (jobdir_name "Omm") (steps_of 3))). symmetry. apply Permutation_rev.
  Qed.
  (** With ten displacements the steps +-10 are read as +-1 and the first file
      is the one of step -9. *)
  Theorem C39_ten_displacements_refuted : exists L par files, complete_listing L par 10 /\ collect_files L par = Ok files /\
    exists s f, nth_error files 0 = Some (jobdir_name par s, f) /\ nth_error (zrange 10) 0 = Some (-10)%Z /\ s = (-9)%Z.
  Proof.
    exists (dirs "Omm" 10), "Omm"%string. eexists. split; [|split; [vm_compute; reflexivity|]].
    - split; [|exists "cls.h5"%string; vm_compute; reflexivity].
      match goal with |- Permutation ?l _ => let l' := eval vm_compute in l in change l with l' end.
      change (Permutation (rev (map (jobdir_name "Omm") (steps_of 10))) (map (jobdir_name "Omm") (steps_of 10))). symmetry. apply Permutation_rev.
    - exists (-9)%Z, "cls.h5"%string. repeat split; reflexivity.
  Qed.

  (** C39, C40 in memory: a spectrum with one multipole and a 1x2 bin block,
      linear in Omm in the first pair of bins, quadratic in the second. *)
  Definition lin_cube (v : Qc) : cube Qc := mkCube 1 2 [fun i j => if Nat.eqb j 0 then fadd (fmul (qz 3) v) (qz 5) else fmul v v].
  Definition lin_compute (src : string * Z) (c : coll Qc) : res (dict string (cube Qc)) :=
    match pget c "Omm" with Some p => Ok [("WL_WL"%string, lin_cube (current p))] | None => Err EKeyError end.
  Example C40_ex : loaded_from seven_base ex_coll7 /\
    match derivatives_wrt none lin_compute "Omm" [("WL_WL"%string, lin_cube (qq 3 10))] ex_coll7 with
    | (_, Ok [(k, cb)]) => Some (k, cnc cb, this (centry cb (0, 0, 0)))
    | _ => None
    end = Some ("WL_WL"%string, 2, this (qz 3)).
  Proof. split; [split; reflexivity|]. vm_compute. reflexivity. Qed.
  (** The pipeline needs exactly seven displacements. *)
  Theorem C39_only_seven_displacements_refuted : exists (c6 c8 : coll Qc) base6 base8 e6 e8,
    loaded_from base6 c6 /\ loaded_from base8 c8 /\ length base6 = 6 /\ length base8 = 8 /\
    snd (derivatives_wrt none lin_compute "Omm" [("WL_WL"%string, lin_cube (qq 3 10))] c6) = Err e6 /\
    snd (derivatives_wrt none lin_compute "Omm" [("WL_WL"%string, lin_cube (qq 3 10))] c8) = Err e8.
  Proof.
    exists (load_stem (removelast seven_base) ex_coll), (load_stem (seven_base ++ [qq 8 100]) ex_coll), (removelast seven_base), (seven_base ++ [qq 8 100]).
    do 2 eexists. split; [split; reflexivity|]. split; [split; reflexivity|]. split; [reflexivity|]. split; [reflexivity|]. split; vm_compute; reflexivity.
  Qed.

  (** C41: the implementations differ on negative data, on data with a zero,
      and when the data is not linear before three points are left. *)
  Definition xs7 : list Qc := map qz [-3; -2; -1; 0; 1; 2; 3]%Z.
  Definition both (x y : list Qc) : option (QArith_base.Q * QArith_base.Q) :=
    match stem_derivative none x y, vec_stem none [tt] x (map (fun v _ => v) y) with
    | Ok s, Ok r => Some (this s, this (r tt))
    | _, _ => None
    end.
  Lemma both_differ x y a b : both x y = Some (a, b) -> a <> b -> exists s r,
    stem_derivative none x y = Ok s /\ vec_stem none [tt] x (map (fun v _ => v) y) = Ok r /\ s <> r tt.
  Proof.
    unfold both. destruct (stem_derivative none x y) as [s|]; [|discriminate]. destruct (vec_stem none [tt] x _) as [r|]; [|discriminate].
    intros E N. exists s, r. split; [reflexivity|]. split; [reflexivity|]. intros C. apply N. injection E as <- <-. rewrite C. reflexivity.
  Qed.
  Ltac differ := match goal with |- exists s r, stem_derivative _ ?x ?y = _ /\ _ =>
    let v := eval vm_compute in (both x y) in match v with Some (?a, ?b) => apply (both_differ x y a b); [vm_compute; reflexivity|discriminate] end end.
  Ltac nodup := repeat constructor; cbn; intros C; repeat destruct C as [C|C]; try discriminate C; exact C.
  Definition y_neg : list Qc := map qz [-20; -8; -9; -10; -11; -12; -30]%Z.
  Definition y_zero : list Qc := [qz (-330); qz (-200); qz (-100); qz 0; qz 100; qz 200; qz 330].
  Definition y_cubic : list Qc := map qz [2; 9; 10; 11; 18]%Z.
  Theorem C41_negative_data_refuted : exists (x y : list Qc), NoDup x /\ (forall w, In w y -> flt w fz) /\
    exists s r, stem_derivative none x y = Ok s /\ vec_stem none [tt] x (map (fun v _ => v) y) = Ok r /\ s <> r tt.
  Proof.
    exists xs7, y_neg.  split; [nodup|].
    split; [|differ].
    intros w H. split; [|intros C; subst; cbn in H; repeat destruct H as [H|H]; try discriminate H; exact H].
    cbn in H. repeat destruct H as [<-|H]; try (intros C; vm_compute in C; discriminate C). destruct H.
  Qed.
  Theorem C41_zero_entry_refuted : exists (x y : list Qc), NoDup x /\ In fz y /\
    exists s r, stem_derivative none x y = Ok s /\ vec_stem none [tt] x (map (fun v _ => v) y) = Ok r /\ s <> r tt.
  Proof.
    exists xs7, (map qz [-300; -200; -101; 0; 101; 200; 300]%Z).  split; [nodup|].
    split; [right; right; right; left; apply Qc_is_canon; reflexivity|]. differ.
  Qed.
  Theorem C41_last_window_refuted : exists (x y : list Qc), NoDup x /\ (forall w, In w y -> flt fz w) /\
    exists s r, stem_derivative none x y = Ok s /\ vec_stem none [tt] x (map (fun v _ => v) y) = Ok r /\ s <> r tt.
  Proof.
    exists (map qz [-2; -1; 0; 1; 2]%Z), y_cubic.  split; [nodup|].
    split; [|differ].
    intros w H. split; [|intros C; subst; cbn in H; repeat destruct H as [H|H]; try discriminate H; exact H].
    cbn in H. repeat destruct H as [<-|H]; try (intros C; vm_compute in C; discriminate C). destruct H.
  Qed.
  (** They agree here: linear in the five middle points only. *)
  Definition y_good : list Qc := map qz [2; 8; 9; 10; 11; 12; 30]%Z.
  Example C41_ex : (both xs7 y_good) = Some (this (qz 1), this (qz 1)) /\ settles none xs7 y_good /\ (forall w, In w y_good -> flt fz w).
  Proof.
    split; [vm_compute; reflexivity|]. split.
    - right. exists 1. split; [vm_compute; repeat constructor|]. apply near_line_iff. vm_compute. reflexivity.
    - intros w H. split; [|intros C; subst; cbn in H; repeat destruct H as [H|H]; try discriminate H; exact H].
      cbn in H. repeat destruct H as [<-|H]; try (intros C; vm_compute in C; discriminate C). destruct H.
  Qed.
  Example C42_ex : exists p, pget ex_coll7 "b0" = Some p /\ is_cosmo p = false /\ pprobe p = Some "PhotometricGalaxy"%string /\
    exists r, compute_derivative p "WL" "SpectroscopicGalaxy" (lin_cube (qz 1)) (fun _ => Err EException) = Ok r /\ indices r = [(0, 0, 0); (0, 0, 1)].
  Proof. eexists. split; [reflexivity|]. split; [reflexivity|]. split; [reflexivity|]. eexists. split; reflexivity. Qed.
  Example C43_ex : alnum "Omm" /\ jobdir_name "Omm" (-7) = "dvar_Omm_step_m_7"%string /\ parse_jobdir "dvar_Omm_step_m_7" = Ok ("Omm"%string, (-7)%Z).
  Proof. split; [split; [discriminate|reflexivity]|]. split; reflexivity. Qed.
  Example C44_ex : has "_" "PhotometricGalaxy" = false /\ reverse_comb "WL_PhotometricGalaxy" = Ok "PhotometricGalaxy_WL"%string /\ alnum "bgph10".
  Proof. split; [reflexivity|]. split; [reflexivity|]. split; [discriminate|reflexivity]. Qed.
End Examples.

Print Assumptions C39_files.
Print Assumptions C39_pipeline.
Print Assumptions C40_scalar.
Print Assumptions C40_vectorised.
Print Assumptions C40_pipeline.
Print Assumptions C41_terminates.
Print Assumptions C41_succeeds.
Print Assumptions C41_scalar_window.
Print Assumptions C41_vectorised_window.
Print Assumptions C41_agree.
Print Assumptions C42_zero.
Print Assumptions C42_related.
Print Assumptions C42_pipeline.
Print Assumptions C43_round_trip.
Print Assumptions C43_two_digits_refuted.
Print Assumptions C43_distinct_names.
Print Assumptions C44_fisher_directories.
Print Assumptions C44_combination_keys.
Print Assumptions C44_reverse_involutive.
Print Assumptions C39_ten_displacements_refuted.
Print Assumptions C39_only_seven_displacements_refuted.
Print Assumptions C41_negative_data_refuted.
Print Assumptions C41_zero_entry_refuted.
Print Assumptions C41_last_window_refuted.
