(** Weight functions, several densities in one file, and second saves that mix
    contents (C69). *)
From Coq Require Import Field.
From Verif Require Import Base SortLib StrLib FrameModel FrameLemmas FsModel ParamModel ParamFileModel KeyModel H5Model H5Lemmas H5Lemmas2 H5Lemmas3 H5Props H5Props2 H5Props3 H5Props4.
Open Scope list_scope.

Section Props.
  Context {F : Type} {K : Fld F}.
  Implicit Types (o : obj F) (h : hfile F) (r : path) (st : option (hfile F)).

  Definition bias_kept o o' : Prop :=
    (forall n, In n ["probe"; "model_name"; "z_bin_edges"; "z_grid"]%string -> getattr o' n = getattr o n) /\
    (forall n, In n ["additional_parameters"; "nuisance_parameters"]%string -> kept (getattr o n) (getattr o' n)) /\
    getattr o' "b_i_z" = (if is_none (getattr o "z_grid") then VNone else getattr o "b_i_z").
  Definition opt_rel (R : obj F -> obj F -> Prop) (a b : option (obj F)) : Prop :=
    match a, b with None, None => True | Some o, Some o' => R o o' | _, _ => False end.

  Lemma apart_data r n m v : n <> m -> Forall (apart (r ++ [m])) (data_if (r ++ [n]) v : list (op F)).
  Proof.
    intros N. apply (within_apart r _ n m [] []); [|exact N]. intros x p I P. inv_in I. subst x. injection P as <-. exists []. rewrite app_nil_r. reflexivity.
  Qed.
  Lemma apart_nested r n m f oo : n <> m -> (forall o r, within r (f o r)) -> Forall (apart (r ++ [m])) (nested (r ++ [n]) f oo : list (op F)).
  Proof.
    intros N W. apply (within_apart r _ n m [] []); [|exact N]. rewrite <- (app_nil_r (r ++ [n])) at 2. apply (within_open (r ++ [n]) [] f oo W).
  Qed.
  Lemma apart_attr r m n v : Forall (apart (r ++ [m])) [OAttr r n v : op F].
  Proof. constructor; [|constructor]. intros s P. injection P as P. rewrite <- app_assoc in P. apply app_self_nil in P. discriminate P. Qed.
  (** A member that is an object of its own. *)
  Lemma sub_read h r l n f (g : hfile F -> path -> res (obj F)) R oo a c : stored h r l -> l = a ++ nested (r ++ [n]) f oo ++ c -> Forall (apart (r ++ [n])) a -> Forall (apart (r ++ [n])) c ->
    (forall o, oo = Some o -> forall h r, stored h r (f o r) -> exists o', load g r (Some h) = Ok o' /\ R o o') ->
    exists oo', sub h (r ++ [n]) g = Ok oo' /\ opt_rel R oo oo'.
  Proof.
    intros S -> A C LD. unfold sub. destruct oo as [o|].
    - assert (S1 : stored h (r ++ [n]) (f o (r ++ [n]))) by (eapply nested_stored; [|exact S|reflexivity|exact A|exact C]; discriminate).
      assert (P : present h (r ++ [n]) = true) by (pose proof (st_root _ _ _ S1) as G; unfold grp in G; unfold present; destruct (hget h (r ++ [n])); [reflexivity|discriminate G]).
      destruct (LD o eq_refl h _ S1) as (o' & L & Ro). rewrite P, L. exists (Some o'). split; [reflexivity|exact Ro].
    - unfold present. rewrite (st_absent _ _ _ S [n]); [exists None; split; [reflexivity|exact I]|discriminate|]. intros x q J T P. cbn [nested app] in J.
      rewrite Forall_forall in A, C. rewrite <- (app_nil_r (r ++ [n])) in P. apply in_app_or in J as [J|J]; [exact (apart_target _ _ _ _ (A x J) T P)|exact (apart_target _ _ _ _ (C x J) T P)].
  Qed.

  Lemma weight_stored w h r : In (w_probe w) weight_classes -> (forall o, w_density w = Some o -> nums_ok o) -> stored h r (weight_ops w r) ->
    exists w', load weight_rd r (Some h) = Ok w' /\ w_probe w' = w_probe w /\ w_z w' = w_z w /\ w_bin w' = (if is_none (w_z w) then VNone else w_bin w) /\
      opt_rel (fun o o' => forall n, density_kept o o' n) (w_density w) (w_density w') /\
      opt_rel bias_kept (if with_bias (w_probe w) then w_bias w else None) (w_bias w') /\
      (forall v, In v [w_z w; w_bin w] -> v <> VNone -> exists d, to_data v = Ok d).
  Proof.
    intros CL NO S. rewrite (load_open _ _ _ (st_root _ _ _ S)). unfold weight_rd.
    assert (A : rd_attr h r "probe" = Ok (VStr (w_probe w))).
    { rewrite <- (app_nil_r r) at 1. eapply attr_read; [exact S|rewrite app_nil_r; left; reflexivity| |reflexivity]. rewrite app_nil_r. intros v I. unfold weight_ops in I.
      apply in_app_or in I as [I|I]; [destruct I as [I|[]]; congruence|]. apply in_app_or in I as [I|I]; [inv_in I; discriminate I|]. apply in_app_or in I as [I|I]; [inv_in I; discriminate I|].
      exfalso. assert (X : forall n f oo, (forall o r, within r (f o r)) -> ~ In (OAttr r "probe" v) (nested (r ++ [n]) f oo : list (op F))).
      { intros n f oo W J. pose proof (within_open (r ++ [n]) [] f oo W) as W1. rewrite app_nil_r in W1. destruct (W1 _ _ J eq_refl) as (t & E). rewrite <- app_assoc in E. apply app_self_nil in E. discriminate E. }
      apply in_app_or in I as [I|I]; [exact (X _ _ _ within_density I)|]. destruct (with_bias (w_probe w)); [exact (X _ _ _ within_bias I)|destruct I]. }
    rewrite A. cbn [rbind]. assert (SM : smem (w_probe w) weight_classes = true) by (apply smem_In, CL). rewrite SM. cbn [negb].
    set (bi := if with_bias (w_probe w) then nested (r ++ ["bias"%string]) bias_ops (w_bias w) else []).
    assert (AB : forall m, m <> "bias"%string -> Forall (apart (r ++ [m])) bi) by (intros m N; unfold bi; destruct (with_bias (w_probe w)); [apply apart_nested; [congruence|apply within_bias]|constructor]).
    assert (RD : forall n v, In (n, v) [("z_grid"%string, w_z w); ("w_bin_z"%string, w_bin w)] -> rd_data h (r ++ [n]) = if is_none v then Err EKeyError else Ok v).
    { intros n v I. destruct (is_none v) eqn:Z.
      - assert (V : v = VNone) by (destruct v; cbn in Z; congruence). subst v. unfold rd_data. rewrite (st_absent _ _ _ S [n]); [reflexivity|discriminate|]. intros x q J T P.
        assert (AP : forall m, In m (weight_ops w r) -> apart (r ++ [n]) m).
        { assert (Forall (apart (r ++ [n])) (weight_ops w r)) as Q; [|rewrite Forall_forall in Q; exact Q]. unfold weight_ops. fold bi. cbn [In] in I. destruct I as [I|[I|[]]]; injection I as <- E; rewrite E.
          - repeat (apply Forall_app; split); [apply apart_attr|constructor|apply apart_data; discriminate|apply apart_nested; [discriminate|apply within_density]|apply AB; discriminate].
          - repeat (apply Forall_app; split); [apply apart_attr|apply apart_data; discriminate|constructor|apply apart_nested; [discriminate|apply within_density]|apply AB; discriminate]. }
        rewrite <- (app_nil_r (r ++ [n])) in P. exact (apart_target _ _ _ _ (AP x J) T P).
      - apply is_none_false in Z. apply (st_data _ _ _ S [n] v). unfold weight_ops. rewrite !in_app_iff, !in_data_if. cbn [In] in I. destruct I as [I|[I|[]]]; injection I as <- <-; tauto. }
    destruct (sub_read h r (weight_ops w r) "density"%string density_ops density_rd (fun o o' => forall n, density_kept o o' n) (w_density w)
      ([OAttr r "probe" (VStr (w_probe w))] ++ data_if (r ++ ["z_grid"%string]) (w_z w) ++ data_if (r ++ ["w_bin_z"%string]) (w_bin w)) bi) as (d' & Ld & Rd); [exact S|unfold weight_ops; fold bi; rewrite <- !app_assoc; reflexivity| | | |].
    { repeat (apply Forall_app; split); [apply apart_attr|apply apart_data; discriminate|apply apart_data; discriminate]. }
    { apply AB. discriminate. }
    { intros o E h0 r0 S0. destruct (density_stored h0 o r0 (NO o E) S0) as (o' & L & _ & H). eauto. }
    assert (BB : exists b', (if with_bias (w_probe w) then sub h (r ++ ["bias"%string]) bias_rd else Ok None) = Ok b' /\ opt_rel bias_kept (if with_bias (w_probe w) then w_bias w else None) b').
    { destruct (with_bias (w_probe w)) eqn:WB; [|exists None; split; [reflexivity|exact I]].
      apply (sub_read h r (weight_ops w r) "bias"%string bias_ops bias_rd bias_kept (w_bias w)
        ([OAttr r "probe" (VStr (w_probe w))] ++ data_if (r ++ ["z_grid"%string]) (w_z w) ++ data_if (r ++ ["w_bin_z"%string]) (w_bin w) ++ nested (r ++ ["density"%string]) density_ops (w_density w)) []); [exact S| | |constructor|].
      - unfold weight_ops. rewrite WB, app_nil_r, <- !app_assoc. reflexivity.
      - repeat (apply Forall_app; split); [apply apart_attr|apply apart_data; discriminate|apply apart_data; discriminate|apply apart_nested; [discriminate|apply within_density]].
      - intros o E h0 r0 S0. destruct (bias_stored h0 o r0 S0) as (o' & L & _ & A1 & A2 & A3 & _). exists o'. split; [exact L|]. split; [exact A1|]. split; [intros n J; right; exact (A2 n J)|exact A3]. }
    destruct BB as (b' & Lb & Rb).
    assert (TD : forall v, In v [w_z w; w_bin w] -> v <> VNone -> exists d, to_data v = Ok d).
    { intros v I N. cbn [In] in I. assert (X : exists n, In (OData (r ++ [n]) v) (weight_ops w r)).
      { unfold weight_ops. destruct I as [<-|[<-|[]]]; [exists "z_grid"%string|exists "w_bin_z"%string]; rewrite !in_app_iff, !in_data_if; tauto. }
      destruct X as (n & X). destruct (st_dat _ _ _ S [n] v X) as (d & T & _). eauto. }
    rewrite (RD "z_grid"%string (w_z w)) by (left; reflexivity).
    destruct (is_none (w_z w)) eqn:Z.
    - cbn [rbind fst snd]. rewrite Ld. cbn [rbind]. rewrite Lb. cbn [rbind]. eexists. split; [reflexivity|]. cbn [w_probe w_z w_bin w_density w_bias].
      assert (V : w_z w = VNone) by (destruct (w_z w); cbn in Z; congruence). repeat split; auto.
    - rewrite (RD "w_bin_z"%string (w_bin w)) by (right; left; reflexivity). destruct (is_none (w_bin w)) eqn:Y; cbn [rbind fst snd]; rewrite Ld; cbn [rbind]; rewrite Lb; cbn [rbind];
        (eexists; split; [reflexivity|]); cbn [w_probe w_z w_bin w_density w_bias]; repeat split; auto. destruct (w_bin w); cbn in Y; congruence.
  Qed.
  Theorem C69_weight_round_trip meta w r st h : fresh r st -> In (w_probe w) weight_classes -> (forall o, w_density w = Some o -> nums_ok o) ->
    save meta (weight_ops w) r st = (Some h, Ok tt) ->
    exists w', load weight_rd r (Some h) = Ok w' /\ w_probe w' = w_probe w /\ w_z w' = w_z w /\ w_bin w' = (if is_none (w_z w) then VNone else w_bin w) /\
      opt_rel (fun o o' => forall n, density_kept o o' n) (w_density w) (w_density w') /\
      opt_rel bias_kept (if with_bias (w_probe w) then w_bias w else None) (w_bias w') /\
      (weight_eq w w' = Ok true <-> no_nan (w_z w) /\ (if is_none (w_z w) then veq (w_bin w) VNone = Ok true else no_nan (w_bin w))).
  Proof.
    intros FR CL NO SV. destruct (weight_stored w h r CL NO (save_stored _ _ _ _ _ FR SV)) as (w' & L & A1 & A2 & A3 & A4 & A5 & TD). exists w'. do 6 (split; [assumption|]).
    assert (TN : forall v, In v [w_z w; w_bin w] -> (veq v v = Ok true <-> no_nan v)).
    { intros v I. destruct (is_none v) eqn:E.
      - assert (V : v = VNone) by (destruct v; cbn in E; congruence). subst v. split; [intros _ a X; discriminate X|reflexivity].
      - apply is_none_false in E. destruct (TD v I E) as (d & Td). exact (self_iff _ _ Td). }
    unfold weight_eq. rewrite A2, A3. pose proof (TN (w_z w) (or_introl eq_refl)) as TZ. pose proof (TN (w_bin w) (or_intror (or_introl eq_refl))) as TB.
    destruct (veq (w_z w) (w_z w)) as [[|]|e]; cbn [rbind].
    - destruct (is_none (w_z w)); rewrite ?TB; tauto.
    - split; [discriminate|]. intros [X _]. apply TZ in X. discriminate X.
    - split; [discriminate|]. intros [X _]. apply TZ in X. discriminate X.
  Qed.

  (** ** Several densities in one file *)
  Lemma fresh_other meta f n m st h : save meta f [n] st = (Some h, Ok tt) -> within [n] (f [n]) -> n <> m -> fresh [m] st -> fresh [m] (Some h).
  Proof.
    intros SV W N (FR & NA & G). pose proof (saved_run meta f [n] st h SV) as R.
    assert (A : Forall (apart [m]) (open_ops meta [n] (match st with Some _ => false | None => true end) ++ f [n])).
    { apply Forall_app. split; [|exact (within_apart [] (f [n]) n m [] [] W N)]. unfold open_ops. cbn [is_root]. constructor; [|constructor]. intros s P. injection P as P _. congruence. }
    destruct (run_apart [m] _ _ _ _ R A) as (D & G' & T). split; [|split].
    - intros s Ns. cbn [file_of]. specialize (D s). specialize (G' s). specialize (FR s Ns). unfold dat, grp in D, G'. rewrite FR in D, G'. destruct (hget h ([m] ++ s)) as [[|]|]; congruence.
    - intros k Mk. cbn [file_of]. specialize (T [] k). rewrite app_nil_r in T. rewrite T. apply NA, Mk.
    - right. cbn [file_of]. eapply grp_kept; [exact R|]. destruct G as [->|G]; [reflexivity|exact G].
  Qed.
  Lemma absent_other meta f n m st h : save meta f [n] st = (Some h, Ok tt) -> within [n] (f [n]) -> n <> m -> hget (file_of st) [m] = None -> hget h [m] = None.
  Proof.
    intros SV W N E. pose proof (saved_run meta f [n] st h SV) as R.
    assert (A : Forall (apart [m]) (open_ops meta [n] (match st with Some _ => false | None => true end) ++ f [n])).
    { apply Forall_app. split; [|exact (within_apart [] (f [n]) n m [] [] W N)]. unfold open_ops. cbn [is_root]. constructor; [|constructor]. intros s P. injection P as P _. congruence. }
    destruct (run_apart [m] _ _ _ _ R A) as (D & G' & _). specialize (D []). specialize (G' []). unfold dat, grp in D, G'. rewrite app_nil_r, E in D, G'.
    destruct (hget h [m]) as [[|]|]; congruence.
  Qed.
  Lemma densities_stored meta l : forall st st', NoDup (dkeys l) -> wf (file_of st) -> (forall n, In n (dkeys l) -> fresh [n] st) -> save_densities meta l st = (st', Ok tt) ->
    wf (file_of st') /\ (forall n o, In (n, o) l -> stored (file_of st') [n] (density_ops o [n])) /\
    (forall m, ~ In m (dkeys l) -> hget (file_of st) [m] = None -> hget (file_of st') [m] = None) /\
    (forall m k, ~ In m (dkeys l) -> stored (file_of st) [m] k -> stored (file_of st') [m] k) /\ (l <> [] -> st' = Some (file_of st')).
  Proof.
    induction l as [|[n o] l IH]; intros st st' ND WF FR SV.
    - injection SV as <-. split; [exact WF|]. split; [intros n o []|]. split; [auto|]. split; [auto|congruence].
    - cbn [save_densities] in SV. destruct (save meta (density_ops o) [n] st) as [st1 [[]|e]] eqn:S1; [|discriminate SV].
      assert (E1 : exists h1, st1 = Some h1) by (unfold save in S1; destruct (run_ops _ _); injection S1 as <- _; eauto). destruct E1 as (h1 & ->).
      unfold dkeys in ND. cbn [map fst] in ND. apply NoDup_cons_iff in ND as [Nn ND]. fold (dkeys l) in Nn, ND.
      destruct (IH (Some h1) st' ND) as (W' & ST & AB & KP & SO); [exact (wf_save _ _ _ _ _ _ WF S1)| |exact SV|].
      { intros m Im. apply (fresh_other _ _ n m _ _ S1); [apply within_density|intros ->; exact (Nn Im)|apply FR; right; exact Im]. }
      pose proof (save_stored _ _ _ _ _ (FR n (or_introl eq_refl)) S1) as S0.
      split; [exact W'|]. split; [|split; [|split]].
      + intros m o' [E|I]; [|exact (ST m o' I)]. assert (m = n /\ o' = o) as [-> ->] by (split; congruence). apply KP; [exact Nn|exact S0].
      + intros m Nm Hm. apply AB; [intros X; apply Nm; right; exact X|]. cbn [file_of]. apply (absent_other _ _ n m _ _ S1); [apply within_density|intros ->; apply Nm; left; reflexivity|exact Hm].
      + intros m k Nm Sm. apply KP; [intros X; apply Nm; right; exact X|]. cbn [file_of]. eapply stored_kept; [exact Sm|exact (saved_run _ _ _ _ _ S1)|].
        assert (Nnm : n <> m) by (intros ->; apply Nm; left; reflexivity).
        apply Forall_app. split; [|exact (within_apart [] (density_ops o [n]) n m [] [] (within_density o [n]) Nnm)]. unfold open_ops. cbn [is_root]. constructor; [|constructor]. intros s P. injection P as P _. congruence.
      + intros _. destruct l as [|x l]; [injection SV as <-; reflexivity|apply SO; discriminate].
  Qed.
  Theorem C69_densities_file meta l st : l <> [] -> NoDup (dkeys l) -> (forall n o, In (n, o) l -> nums_ok o) -> save_densities meta l None = (st, Ok tt) ->
    exists l', load_densities st = Ok l' /\ NoDup (dkeys l') /\ (forall n, In n (dkeys l') <-> In n (dkeys l)) /\
      forall n o, In (n, o) l -> exists o', In (n, o') l' /\ forall k, density_kept o o' k.
  Proof.
    intros NE ND NO SV. destruct (densities_stored meta l None st ND) as (W & ST & AB & _ & SO); [repeat constructor; auto|intros; apply fresh_new|exact SV|].
    specialize (SO NE). destruct st as [h|]; [|discriminate SO]. cbn [file_of] in *.
    assert (CH : forall n, In n (children h []) <-> In n (dkeys l)).
    { intros n. rewrite children_In. cbn [app]. split.
      - intros H. destruct (in_dec string_dec n (dkeys l)) as [I|I]; [exact I|]. exfalso. apply H, AB; [exact I|reflexivity].
      - intros I. apply in_map_iff in I as ([m o] & E & I). cbn in E. subst m. pose proof (st_root _ _ _ (ST n o I)) as G. unfold grp in G. destruct (hget h [n]); [discriminate|discriminate G]. }
    assert (X : forall c, NoDup c -> (forall n, In n c -> In n (dkeys l)) -> exists d', rmapM (fun n => o <- load density_rd [n] (Some h) ;; Ok (n, o)) c = Ok d' /\ dkeys d' = c /\
       forall n a, In n c -> In (n, a) l -> exists b, In (n, b) d' /\ forall k, density_kept a b k).
    { induction c as [|n c IH]; intros NC I.
      - exists []. split; [reflexivity|]. split; [reflexivity|]. intros n a [].
      - apply NoDup_cons_iff in NC as [Nn NC]. destruct IH as (d' & E & KE & H); [exact NC|intros m Im; apply I; right; exact Im|].
        assert (In0 : In n (dkeys l)) by (apply I; left; reflexivity). apply in_map_iff in In0 as ([m a] & Em & Ia). cbn in Em. subst m.
        destruct (density_stored h a [n] (NO n a Ia) (ST n a Ia)) as (b & Lb & _ & Rb).
        exists ((n, b) :: d'). cbn [rmapM]. rewrite Lb. cbn [rbind]. rewrite E. cbn [rbind]. split; [reflexivity|]. split; [cbn; rewrite <- KE; reflexivity|].
        intros m a' [<-|Im] Ia'.
        + assert (a' = a) by (pose proof (@dget_NoDup_In _ _ String.eqb String.eqb_spec _ _ _ ND Ia); pose proof (@dget_NoDup_In _ _ String.eqb String.eqb_spec _ _ _ ND Ia'); congruence). subst a'.
          exists b. split; [left; reflexivity|exact Rb].
        + destruct (H m a' Im Ia') as (b' & Ib & Rb'). exists b'. split; [right; exact Ib|exact Rb']. }
    destruct (X (children h []) (children_NoDup _ _ W)) as (d' & E & KE & H); [intros n; apply CH|].
    exists d'. unfold load_densities. split; [exact E|]. rewrite KE. split; [apply children_NoDup, W|]. split; [exact CH|]. intros n o I. apply H; [|exact I]. apply CH. apply in_map with (f := fst) in I. exact I.
  Qed.

  (** ** What a refused or accepted second save can leave *)
  Definition a_delta (name : string) (x : F) : obj F :=
    setattr (setattr (setattr new_delta "name" (VStr name)) "l_bin_centers" (VArr (mkArr [1] [Some x]))) "delta_c_lij" (VArr (mkArr [1] [Some x])).
  (** A refused second save still renames the block that is there. *)
  Theorem C69_second_save_refuted : forall meta : string * string, exists (o1 o2 : obj F) h h' o',
    save meta (delta_ops o1) ["d"%string] None = (Some h, Ok tt) /\ save meta (delta_ops o2) ["d"%string] (Some h) = (Some h', Err ERuntime) /\
    load delta_rd ["d"%string] (Some h') = Ok o' /\ getattr o' "name" = getattr o2 "name" /\ getattr o' "name" <> getattr o1 "name" /\
    getattr o' "delta_c_lij" = getattr o1 "delta_c_lij" /\ getattr o' "delta_c_lij" <> getattr o2 "delta_c_lij".
  Proof.
    intros meta. exists (a_delta "a" fz), (a_delta "b" fo). do 3 eexists. split; [reflexivity|]. split; [reflexivity|]. split; [reflexivity|].
    split; [reflexivity|]. split; [discriminate|]. split; [reflexivity|]. cbn. intros E. injection E as E. pose proof (F_1_neq_0 fth). congruence.
  Qed.
  (** Collections without common names are merged: the second save is accepted
      and the file then holds the blocks of both. *)
  Theorem C69_collections_merge_refuted : forall meta : string * string, exists (c1 c2 : deltas F) h h' c',
    save meta (deltas_ops c1) [] None = (Some h, Ok tt) /\ save meta (deltas_ops c2) [] (Some h) = (Some h', Ok tt) /\
    load deltas_rd [] (Some h') = Ok c' /\ dkeys (blocks c1) = ["p"%string] /\ dkeys (blocks c2) = ["q"%string] /\ dkeys (blocks c') = ["p"; "q"]%string.
  Proof.
    intros meta. exists (mkDeltas [("p"%string, a_delta "a" fz)] [("p"%string, a_delta "a" fz)]), (mkDeltas [("q"%string, a_delta "b" fo)] [("q"%string, a_delta "b" fo)]).
    do 3 eexists. repeat (split; [reflexivity|]). reflexivity.
  Qed.
  (** So are weight functions that have no dataset in common. *)
  Theorem C69_weights_merge_refuted : forall meta : string * string, exists (w1 w2 : weight F) h h' w',
    save meta (weight_ops w1) ["w"%string] None = (Some h, Ok tt) /\ save meta (weight_ops w2) ["w"%string] (Some h) = (Some h', Ok tt) /\
    load weight_rd ["w"%string] (Some h') = Ok w' /\ w_z w' = w_z w2 /\ w_z w2 <> w_z w1 /\ w_bin w' = w_bin w1 /\ w_bin w1 <> w_bin w2.
  Proof.
    intros meta. exists (mkWeight "Lensing" VNone (VArr (mkArr [1] [Some fz])) None None), (mkWeight "Lensing" (VArr (mkArr [1] [Some fo])) VNone None None).
    do 3 eexists. do 4 (split; [reflexivity|]). split; [discriminate|]. split; [reflexivity|discriminate].
  Qed.
  (** Values on a grid that was not set are written but not read back. *)
  Theorem C69_weight_refuted : forall meta : string * string, exists (w : weight F) h w',
    save meta (weight_ops w) [] None = (Some h, Ok tt) /\ load weight_rd [] (Some h) = Ok w' /\ weight_eq w w' = Ok false.
  Proof.
    intros meta. exists (mkWeight "Void" VNone (VArr (mkArr [1] [Some fz])) None None). do 2 eexists. repeat (split; [reflexivity|]). reflexivity.
  Qed.
  (** A kernel with its weight functions, loaded, cannot even be compared. *)
  Theorem C69_kernel_refuted : forall meta : string * string, exists (o : obj F) h o',
    save meta (kernel_ops o) [] None = (Some h, Ok tt) /\ load kernel_rd [] (Some h) = Ok o' /\ kernel_eq o o' = Err EAttributeError.
  Proof.
    intros meta. exists (setattr (setattr (setattr (setattr (setattr new_kernel "probe1" (VStr "WL")) "probe2" (VStr "WL")) "z_grid" (VArr (mkArr [1] [Some fz]))) "k_ijz" (VArr (mkArr [1] [Some fz]))) "weight1" (VRef 0)).
    do 2 eexists. repeat (split; [reflexivity|]). cbn. destruct (fdec fz fz) as [|X]; [reflexivity|destruct (X eq_refl)].
  Qed.

  (** ** Instances *)
  Definition a_density : obj F :=
    setattr (setattr (setattr (setattr (setattr (setattr new_density "probe" (VStr "WL")) "has_niz_from_input" (VBool false)) "input_z_domain" (VArr (mkArr [1] [Some fz])))
      "z_bin_edges" (VArr (mkArr [1] [Some fo]))) "catalog_f_sky" (VNum fo)) "input_dN_dz_dOmega" (VArr (mkArr [1] [Some fo])).
  Example C69_instance_density : exists st, save_densities ("t", "u")%string [("b"%string, setattr a_density "instrument_response" (VNums [("z0"%string, fo)])); ("a"%string, a_density)] None = (st, Ok tt) /\
    NoDup (dkeys [("b"%string, setattr a_density "instrument_response" (VNums [("z0"%string, fo)])); ("a"%string, a_density)]) /\ dkeys a_density = density_fields /\ nums_ok a_density.
  Proof.
    eexists. split; [reflexivity|]. split; [repeat constructor; cbn; intuition discriminate|]. split; [reflexivity|]. intros n d E. unfold getattr in E.
    destruct (dget String.eqb a_density n) as [v|] eqn:G; [|discriminate E]. subst v. apply (dget_In _ String.eqb_spec) in G. cbn in G.
    repeat (destruct G as [G|G]; [injection G as _ G; try discriminate G; subst; constructor|]). destruct G.
  Qed.
  Example C69_instance_collection : exists h : hfile F, save ("t", "u")%string (deltas_ops (mkDeltas [("p"%string, a_delta "a" fz); ("q"%string, a_delta "b" fo)] [("p"%string, a_delta "a" fz)])) ["x"%string] None = (Some h, Ok tt).
  Proof. eexists. reflexivity. Qed.
  Example C69_instance_weight : exists h : hfile F, save ("t", "u")%string (weight_ops (mkWeight "Void" (VArr (mkArr [1] [Some fz])) VNone (Some a_density)
    (Some (setattr (setattr (setattr (setattr new_bias "probe" (VStr "Void")) "model_name" (VStr "constant")) "additional_parameters" (VNums [("a"%string, fo)])) "nuisance_parameters" (VNums []))))) ["x"%string] None = (Some h, Ok tt).
  Proof. eexists. reflexivity. Qed.
End Props.

Print Assumptions C69_density_round_trip.
Print Assumptions C69_density_equal.
Print Assumptions C69_kernel_round_trip.
Print Assumptions C69_kernel_equality_raises.
Print Assumptions C69_kernel_equal.
Print Assumptions C69_power_round_trip.
Print Assumptions C69_delta_round_trip.
Print Assumptions C69_bias_round_trip.
Print Assumptions C69_other_places.
Print Assumptions C69_second_save_refused.
Print Assumptions C69_collection_round_trip.
Print Assumptions C69_empty_collection.
Print Assumptions C69_weight_round_trip.
Print Assumptions C69_densities_file.
Print Assumptions C69_second_save_refuted.
Print Assumptions C69_collections_merge_refuted.
Print Assumptions C69_weights_merge_refuted.
Print Assumptions C69_weight_refuted.
Print Assumptions C69_kernel_refuted.
