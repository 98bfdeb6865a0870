(** Kernels, power spectra, bias functions and Delta C_l blocks (C69). *)
From Verif Require Import Base SortLib StrLib FrameModel FrameLemmas FsModel ParamModel ParamFileModel KeyModel H5Model H5Lemmas H5Lemmas2 H5Lemmas3 H5Props.
Open Scope list_scope.

Section Props.
  Context {F : Type} {K : Fld F}.
  Implicit Types (o : obj F) (h : hfile F) (r : path) (st : option (hfile F)).

  (** The value read back: the same one, or a dictionary with the same content. *)
  Definition kept (v v' : pv F) : Prop := v' = v \/ exists d d', v = VNums d /\ v' = VNums d' /\ NoDup (dkeys d') /\ same_dict d d'.
  (** No NaN in a value. *)
  Definition no_nan (v : pv F) : Prop := forall a, v = VArr a -> ~ In None (items a).
  Lemma opt_read h r l o n v : stored h r l -> (v <> VNone -> In (OData (r ++ [n]) v) l) ->
    (v = VNone -> forall (x : op F) q, In x l -> target x = Some q -> ~ prefix (r ++ [n]) q) ->
    optional h (r ++ [n]) o n = Ok (if is_none v then o else setattr o n v).
  Proof.
    intros S A B. unfold optional. destruct (is_none v) eqn:E.
    - assert (v = VNone) by (destruct v; cbn in E; congruence). unfold present. rewrite (st_absent _ _ _ S [n]); [reflexivity|discriminate|exact (B H)].
    - apply is_none_false in E. destruct (st_data _ _ _ S [n] v (A E)) as [R P]. rewrite R, P. reflexivity.
  Qed.
  Lemma get_if o n m v : getattr o n = VNone -> getattr (if is_none v then o else setattr o n v) m = if String.eqb n m then v else getattr o m.
  Proof. intros E. destruct (is_none v) eqn:X; [destruct v; try discriminate X; destruct (String.eqb_spec n m) as [->|]; auto|apply getattr_set]. Qed.
  Lemma has_if o n m v : has_attr o m -> has_attr (if is_none v then o else setattr o n v) m.
  Proof. intros H. destruct (is_none v); [exact H|apply has_attr_set, H]. Qed.
  Lemma attr_read h r l s n v : stored h r l -> In (OAttr (r ++ s) n v) l -> (forall w, In (OAttr (r ++ s) n w) l -> w = v) -> smem n meta_names = false ->
    rd_attr h (r ++ s) n = Ok v.
  Proof. intros S I U M. apply (st_attr _ _ _ S); auto. apply not_meta, M. Qed.
  Lemma veq_err (v w : pv F) e : veq v w = Err e -> e = EAttributeError.
  Proof. destruct v, w; cbn; congruence. Qed.
  Lemma self_iff v d : to_data v = Ok d -> (veq v v = Ok true <-> no_nan v).
  Proof. intros T. exact (self_saved _ _ T). Qed.
  Lemma self_kept v d : to_data v = Ok d -> no_nan v -> veq v v = Ok true.
  Proof. intros T N. apply (self_saved _ _ T), N. Qed.

  (** ** KernelFunction *)
  Lemma kernel_stored h o r : stored h r (kernel_ops o r) -> exists o', load kernel_rd r (Some h) = Ok o' /\
    (forall n, In n kernel_fields -> has_attr o' n) /\
    (forall n, In n ["probe1"; "probe2"; "z_grid"; "k_ijz"]%string -> getattr o' n = getattr o n) /\
    (forall n, In n ["weight1"; "weight2"; "cosmology"]%string -> getattr o' n = VNone).
  Proof.
    intros S. rewrite (load_open _ _ _ (st_root _ _ _ S)). unfold kernel_rd.
    assert (A : forall n, In n ["probe1"; "probe2"]%string -> rd_attr h r n = Ok (getattr o n)).
    { intros n I. rewrite <- (app_nil_r r) at 1. eapply attr_read; [exact S|..].
      - rewrite app_nil_r. cbn [In] in I. destruct I as [<-|[<-|[]]]; cbn; tauto.
      - rewrite app_nil_r. intros w J. unfold kernel_ops in J. cbv beta zeta in J. inv_in J; op_eq J; subst; reflexivity.
      - cbn [In] in I. destruct I as [<-|[<-|[]]]; reflexivity. }
    rewrite !A by (cbn; tauto). cbn [rbind].
    destruct (st_data _ _ _ S ["z_grid"%string] (getattr o "z_grid")) as [-> _]; [cbn; tauto|]. cbn [rbind].
    destruct (st_data _ _ _ S ["k_ijz"%string] (getattr o "k_ijz")) as [-> _]; [cbn; tauto|]. cbn [rbind].
    eexists. split; [reflexivity|]. split; [|split].
    - intros n I. repeat apply has_attr_set. apply has_attr_keys. exact I.
    - intros n I. cbn [In] in I. rewrite !getattr_set. destruct I as [<-|[<-|[<-|[<-|[]]]]]; reflexivity.
    - intros n I. cbn [In] in I. rewrite !getattr_set. destruct I as [<-|[<-|[<-|[]]]]; reflexivity.
  Qed.
  Section Kernel.
    Context (meta : string * string) o r st h (FR : fresh r st) (SV : save meta (kernel_ops o) r st = (Some h, Ok tt)).
    Theorem C69_kernel_round_trip : exists o', load kernel_rd r (Some h) = Ok o' /\
      (forall n, In n ["probe1"; "probe2"; "z_grid"; "k_ijz"]%string -> getattr o' n = getattr o n) /\
      (forall n, In n ["weight1"; "weight2"; "cosmology"]%string -> getattr o' n = VNone).
    Proof. destruct (kernel_stored h o r (save_stored _ _ _ _ _ FR SV)) as (o' & L & _ & H). eauto. Qed.
    (** A kernel that still knows its weight functions cannot be compared with
        what is loaded: the comparison raises. *)
    Theorem C69_kernel_equality_raises m : In (getattr o "weight1") [VRef m] \/ In (getattr o "weight2") [VRef m] \/ In (getattr o "cosmology") [VRef m] ->
      exists o', load kernel_rd r (Some h) = Ok o' /\ kernel_eq o o' = Err EAttributeError.
    Proof.
      intros W. destruct (kernel_stored h o r (save_stored _ _ _ _ _ FR SV)) as (o' & L & A & _ & N). exists o'. split; [exact L|].
      assert (X : exists n, In n ["weight1"; "weight2"; "cosmology"]%string /\ getattr o n = VRef m) by
        (destruct W as [[W|[]]|[[W|[]]|[W|[]]]]; symmetry in W; eexists; (split; [|exact W]); cbn; tauto).
      destruct X as (n & I & E). specialize (N n I).
      assert (I' : In n kernel_fields) by (cbn [In] in I; destruct I as [<-|[<-|[<-|[]]]]; cbn; tauto). specialize (A n I').
      unfold kernel_eq, compare_objects.
      assert (D : In (n, VRef m) o).
      { unfold getattr in E. destruct (dget String.eqb o n) as [v|] eqn:G; [|discriminate E]. subst v. apply (dget_In _ String.eqb_spec), G. }
      assert (J : In (n, VRef m) (filter (fun kv : string * pv F => negb (smem (fst kv) [])) o)) by (apply filter_In; auto).
      revert J. generalize (filter (fun kv : string * pv F => negb (smem (fst kv) [])) o). intros l J. induction l as [|[k v] l IH]; [destruct J|].
      cbn [rmapM fst snd]. destruct (dget String.eqb o' k) as [w|] eqn:G; [|reflexivity].
      destruct (veq v w) as [b|e] eqn:V; [|rewrite (veq_err _ _ _ V); reflexivity]. cbn [rbind].
      destruct J as [J|J].
      - exfalso. assert (k = n /\ v = VRef m) as [-> ->] by (split; congruence). apply has_attr_get in A. rewrite A, N in G. injection G as <-. discriminate V.
      - specialize (IH J). destruct (rmapM _ l) as [c|e]; [discriminate IH|exact IH].
    Qed.
    Theorem C69_kernel_equal : dkeys o = kernel_fields -> (forall n, In n ["weight1"; "weight2"; "cosmology"]%string -> getattr o n = VNone) ->
      exists o', load kernel_rd r (Some h) = Ok o' /\ (kernel_eq o o' = Ok true <-> no_nan (getattr o "z_grid") /\ no_nan (getattr o "k_ijz")).
    Proof.
      intros DK W. pose proof (save_stored _ _ _ _ _ FR SV) as S. destruct (kernel_stored h o r S) as (o' & L & A & G & N). exists o'. split; [exact L|].
      assert (T : forall n, In n ["z_grid"; "k_ijz"]%string -> exists d, to_data (getattr o n) = Ok d).
      { intros n I. destruct (st_dat _ _ _ S [n] (getattr o n)) as (d & T & _); [cbn [In] in I; destruct I as [<-|[<-|[]]]; cbn; tauto|eauto]. }
      assert (P : forall n, In n ["probe1"; "probe2"]%string -> veq (getattr o n) (getattr o n) = Ok true).
      { intros n I. apply (@self_attr F K) with (d := match to_attr (getattr o n) with Ok a => a | Err _ => AStr "" end).
        assert (R : rd_attr h r n = Ok (getattr o n)); [|destruct (rd_attr_ok _ _ _ _ R) as (a & ->); reflexivity].
        rewrite <- (app_nil_r r) at 1. eapply attr_read; [exact S|..].
        - rewrite app_nil_r. cbn [In] in I. destruct I as [<-|[<-|[]]]; cbn; tauto.
        - rewrite app_nil_r. intros w J. unfold kernel_ops in J. cbv beta zeta in J. inv_in J; op_eq J; subst; reflexivity.
        - cbn [In] in I. destruct I as [<-|[<-|[]]]; reflexivity. }
      unfold kernel_eq. rewrite compare_iff; [|rewrite DK; repeat constructor; cbn; intuition discriminate|rewrite DK; exact A]. rewrite DK. split.
      - intros C. destruct (T "z_grid"%string) as (d & Td); [cbn; tauto|]. destruct (T "k_ijz"%string) as (e & Te); [cbn; tauto|]. split.
        + apply (proj1 (self_iff _ _ Td)). rewrite <- (G "z_grid"%string) at 2 by (cbn; tauto). apply C; cbn; tauto.
        + apply (proj1 (self_iff _ _ Te)). rewrite <- (G "k_ijz"%string) at 2 by (cbn; tauto). apply C; cbn; tauto.
      - intros [Z Y] n I _. cbn [kernel_fields In] in I.
        destruct (T "z_grid"%string) as (d & Td); [cbn; tauto|]. destruct (T "k_ijz"%string) as (e & Te); [cbn; tauto|].
        destruct I as [<-|[<-|[<-|[<-|[<-|[<-|[<-|[]]]]]]]];
          first [rewrite G by (cbn; tauto); apply P; cbn; tauto | rewrite W, N by (cbn; tauto); reflexivity | rewrite G by (cbn; tauto); eapply self_kept; eassumption].
    Qed.
  End Kernel.

  (** ** PowerSpectrum *)
  Definition power_arrays : list string := ["z_grid"; "k_grid"; "lin_p_mm_z_k"; "nonlin_p_mm_z_k"]%string.
  Lemma power_stored h o r : stored h r (power_ops o r) -> exists o', load power_rd r (Some h) = Ok o' /\
    (forall n, In n ("boltzmann_code" :: "transfer_function" :: power_arrays)%string -> getattr o' n = getattr o n) /\
    (forall n, In n ["cosmological_parameters"; "power_spectrum_config"; "boltzmann_solver"]%string -> getattr o' n = VNone) /\
    (forall n, In n power_arrays -> exists d, to_data (getattr o n) = Ok d) /\ (getattr o "transfer_function" <> VNone -> exists d, to_data (getattr o "transfer_function") = Ok d).
  Proof.
    intros S. rewrite (load_open _ _ _ (st_root _ _ _ S)). unfold power_rd. set (p := r ++ ["power_spectrum"%string]).
    assert (G : grp h p = true) by (apply (st_grp _ _ _ S); left; reflexivity). pose proof G as G0. unfold grp in G0. destruct (hget h p) as [[a|]|] eqn:Hp; try discriminate G0. clear G0.
    assert (D : forall n, In n power_arrays -> exists d, to_data (getattr o n) = Ok d /\ dat h (p ++ [n]) = Some d).
    { intros n I. unfold p. rewrite <- app_assoc. apply (st_dat _ _ _ S). rewrite app_assoc. unfold power_ops. cbv beta zeta. apply in_or_app. right. apply in_or_app. left.
      apply in_map_iff. exists n. auto. }
    assert (D0 : forall n, ~ In n power_arrays -> dat h (p ++ [n]) = None).
    { intros n I. unfold p. rewrite <- app_assoc. apply (st_no_dat _ _ _ S); [discriminate|]. intros v J. unfold power_ops in J. cbv beta zeta in J.
      apply in_app_or in J as [J|J]; [inv_in J; discriminate J|]. apply in_app_or in J as [J|J].
      - apply in_map_iff in J as (m & J & Im). op_eq J. match goal with X : _ = ["power_spectrum"%string; n] |- _ => cbn in X; injection X as -> end. exact (I Im).
      - inv_in J. op_eq J. }
    assert (C : rd_attr h p "boltzmann_code" = Ok (getattr o "boltzmann_code")).
    { unfold p. eapply attr_read; [exact S|right; left; reflexivity| |reflexivity]. intros w J. unfold power_ops in J. cbv beta zeta in J.
      apply in_app_or in J as [J|J]; [inv_in J; op_eq J; subst; reflexivity|]. apply in_app_or in J as [J|J]; [apply in_map_iff in J as (m & J & _); discriminate J|inv_in J; discriminate J]. }
    rewrite C. cbn [rbind]. rewrite (opt_read h r (power_ops o r) _ _ (getattr o "transfer_function") S).
    - eexists. split; [reflexivity|]. assert (X : getattr (setattr (populate h p new_power) "boltzmann_code" (getattr o "boltzmann_code")) "transfer_function" = VNone).
      { rewrite getattr_set. cbn [String.eqb Ascii.eqb Bool.eqb]. rewrite populate_get, D0; [reflexivity|]. cbn. intuition discriminate. }
      split; [|split; [|split]].
      + intros n I. rewrite (get_if _ _ _ _ X), getattr_set, populate_get. cbn [In] in I. destruct I as [<-|[<-|I]]; [reflexivity|reflexivity|].
        destruct (D n I) as (d & T & ->). rewrite (of_to_data _ _ T). cbn [power_arrays In] in I. destruct I as [<-|[<-|[<-|[<-|[]]]]]; reflexivity.
      + intros n I. rewrite (get_if _ _ _ _ X), getattr_set, populate_get. cbn [In] in I. rewrite D0 by (intros J; cbn [power_arrays In] in J; destruct I as [<-|[<-|[<-|[]]]]; intuition discriminate).
        destruct I as [<-|[<-|[<-|[]]]]; reflexivity.
      + intros n I. destruct (D n I) as (d & T & _). eauto.
      + intros N. destruct (st_dat _ _ _ S ["transfer_function"%string] (getattr o "transfer_function")) as (d & T & _); [|eauto].
        unfold power_ops. cbv beta zeta. rewrite !in_app_iff, in_data_if. auto.
    - intros N. unfold power_ops. cbv beta zeta. rewrite !in_app_iff, in_data_if. auto.
    - intros N x q J Q (t & P). subst q. unfold power_ops in J. cbv beta zeta in J. rewrite N in J. apply in_app_or in J as [J|J].
      + inv_in J; subst x; cbn [target] in Q; try discriminate Q; injection Q as Q; paths.
      + apply in_app_or in J as [J|J]; [|destruct J]. apply in_map_iff in J as (m & <- & _). cbn [target] in Q. injection Q as Q. paths.
  Qed.
  Theorem C69_power_round_trip meta o r st h : fresh r st -> save meta (power_ops o) r st = (Some h, Ok tt) ->
    exists o', load power_rd r (Some h) = Ok o' /\
    (forall n, In n ("boltzmann_code" :: "transfer_function" :: power_arrays)%string -> getattr o' n = getattr o n) /\
    (forall n, In n ["cosmological_parameters"; "power_spectrum_config"; "boltzmann_solver"]%string -> getattr o' n = VNone) /\
    (power_eq o o' = Ok true <-> forall n, In n ("transfer_function"%string :: power_arrays) -> no_nan (getattr o n)).
  Proof.
    intros FR SV. destruct (power_stored h o r (save_stored _ _ _ _ _ FR SV)) as (o' & L & A & B & T & TT). exists o'. split; [exact L|]. split; [exact A|]. split; [exact B|].
    assert (TN : forall n, In n ("transfer_function"%string :: power_arrays) -> (veq (getattr o n) (getattr o n) = Ok true <-> no_nan (getattr o n))).
    { intros n I. cbn [In] in I. destruct I as [<-|I]; [|destruct (T n I) as (d & Td); exact (self_saved _ _ Td)].
      destruct (getattr o "transfer_function") as [| | | | | |] eqn:E; try (destruct TT as (dd & Td); [discriminate|]; exact (self_iff _ _ Td)).
      split; [intros _ a X; discriminate X|reflexivity]. }
    unfold power_eq. rewrite compare_attrs_iff. split.
    - intros C n I. apply TN; [exact I|]. rewrite <- (A n) at 2 by (right; exact I). apply C. cbn [power_arrays In] in I |- *. tauto.
    - intros C n I. assert (I' : In n ("transfer_function"%string :: power_arrays)) by (cbn [power_arrays In] in I |- *; tauto).
      rewrite (A n) by (right; exact I'). apply TN; auto.
  Qed.
End Props.
