(** Objects inside other objects, several objects in one file, second saves (C69). *)
From Verif Require Import Base SortLib StrLib FrameModel FrameLemmas FsModel ParamModel ParamFileModel KeyModel H5Model H5Lemmas H5Lemmas2 H5Lemmas3 H5Props H5Props2 H5Props3.
Open Scope list_scope.

Section Props.
  Context {F : Type} {K : Fld F}.
  Implicit Types (o : obj F) (h : hfile F) (r : path) (st : option (hfile F)).

  (** ** Every class writes at or below the root it is given *)
  Ltac within_tac := intros x p I P; inv_in I; subst x; cbn [op_path] in P; try discriminate P; injection P as <-;
    first [exists []; rewrite app_nil_r; reflexivity | eexists; reflexivity | eexists; rewrite <- !app_assoc; reflexivity].
  Lemma within_density o r : within r (density_ops o r).
  Proof. unfold density_ops. cbv beta zeta. within_tac. Qed.
  Lemma within_bias o r : within r (bias_ops o r).
  Proof. unfold bias_ops. cbv beta zeta. within_tac. Qed.
  Lemma within_kernel o r : within r (kernel_ops o r).
  Proof. unfold kernel_ops. cbv beta zeta. within_tac. Qed.
  Lemma within_power o r : within r (power_ops o r).
  Proof. unfold power_ops. cbv beta zeta. cbn [map app]. within_tac. Qed.
  Lemma within_delta o r : within r (delta_ops o r).
  Proof. unfold delta_ops. cbv beta zeta. cbn [map flat_map app]. within_tac. Qed.
  Lemma within_open r s (f : obj F -> path -> list (op F)) (oo : option (obj F)) : (forall o r, within r (f o r)) -> within r (nested (r ++ s) f oo).
  Proof.
    intros W. destruct oo as [o|]; [|intros x p []]. intros x p [<-|I] P; [injection P as <-; eexists; reflexivity|]. exact (within_up r s _ (W o (r ++ s)) x p I P).
  Qed.
  Lemma within_weight w r : within r (weight_ops w r : list (op F)).
  Proof.
    unfold weight_ops. repeat apply within_app; try within_tac.
    - apply within_open, within_density.
    - destruct (with_bias (w_probe w)); [apply within_open, within_bias|intros x p []].
  Qed.
  Lemma within_members {A} (f : A -> path -> list (op F)) r s d : (forall a r, within r (f a r)) -> within r (members_ops (r ++ s) f d).
  Proof.
    intros W x p I P. unfold members_ops in I. apply in_flat_map in I as ([k a] & _ & I). cbn [fst snd] in I. rewrite <- app_assoc in I.
    destruct I as [<-|I]; [injection P as <-; eexists; reflexivity|]. exact (within_up r _ _ (W a (r ++ s ++ [k])) x p I P).
  Qed.
  Lemma within_deltas c r : within r (deltas_ops c r : list (op F)).
  Proof. apply within_app; apply within_members, within_delta. Qed.

  (** Saving at one place leaves all others alone: what is not below the place
      nor one of the groups leading to it. *)
  Lemma save_elsewhere meta (f : path -> list (op F)) r h h' x q : within r (f r) -> save meta f r (Some h) = (Some h', x) ->
    ~ prefix r q -> ~ prefix q r -> hget h' q = hget h q.
  Proof.
    intros W SV N M. unfold save in SV.
    destruct (run_ops (open_ops meta r false ++ f r) h) as [h1 y] eqn:E. injection SV as <- <-.
    assert (NR : r <> []) by (intros ->; apply N; exists q; reflexivity).
    assert (A : Forall (apart q) (open_ops meta r false ++ f r)).
    { apply Forall_app. split.
      - unfold open_ops. destruct r as [|a0 r0]; [congruence|]. cbn [is_root]. constructor; [|constructor]. intros s P. apply M. injection P as ->. exists s. reflexivity.
      - apply Forall_forall. intros o I s P. destruct (W o _ I P) as (t & E2).
        assert (Y : forall (a b c d : path), a ++ b = c ++ d -> prefix a c \/ prefix c a).
        { clear. induction a as [|y a IH]; intros b c d E; [left; exists c; reflexivity|]. destruct c as [|z c]; [right; exists (y :: a); reflexivity|].
          cbn in E. injection E as -> E. destruct (IH _ _ _ E) as [(u & ->)|(u & ->)]; [left|right]; exists u; reflexivity. }
        destruct (Y _ _ _ _ E2) as [X|X]; [exact (M X)|exact (N X)]. }
    clear - E A. revert h E. induction (open_ops meta r false ++ f r) as [|x l IH]; intros h E; [injection E as <- _; reflexivity|].
    apply Forall_cons_iff in A as [Ao A].
    assert (STEP : forall h2 z, run_op x h = (h2, z) -> hget h2 q = hget h q).
    { intros h2 z Eo. assert (EN : forall p h2 z, ensure h [] p = (h2, z) -> (forall s, p <> q ++ s) -> hget h2 q = hget h q).
      { intros p h3 z3 E3 NP. destruct (proj1 (ensure_spec _ _ _ _ _ E3) q) as [X|(_ & _ & (s & t & -> & _ & ->))]; [exact X|]. exfalso. exact (NP t eq_refl). }
      assert (CR : forall p e y h2 z, create h p e y = (h2, z) -> (forall s, p <> q ++ s) -> hget h2 q = hget h q).
      { intros p e y0 h3 z3 E3 NP. unfold create in E3. destruct (ensure h [] (removelast p)) as [h4 y4] eqn:E4.
        assert (X : hget h4 q = hget h q) by (eapply EN; [exact E4|]; intros s Es; destruct (removelast_prefix _ _ _ Es) as (t & Et); exact (NP t Et)).
        destruct y4; [|injection E3 as <- _; exact X]. destruct (hget h4 p); injection E3 as <- _; [exact X|]. rewrite hget_other; [exact X|]. intros ->. apply (NP []). rewrite app_nil_r. reflexivity. }
      assert (NP : forall p, op_path x = Some p -> forall s, p <> q ++ s) by (intros p P s ->; exact (Ao s P)).
      destruct x as [p|p|p v|p n v|e]; cbn [run_op op_path] in *.
      - eapply EN; [exact Eo|auto].
      - eapply CR; [exact Eo|auto].
      - destruct (to_data v); [eapply CR; [exact Eo|auto]|injection Eo as <- _; reflexivity].
      - destruct (hget h p) as [[|]|] eqn:Hp, (to_attr v); injection Eo as <- _; try reflexivity. unfold set_attr. rewrite Hp. apply hget_other. intros ->. apply (NP q eq_refl []). rewrite app_nil_r. reflexivity.
      - injection Eo as <- _. reflexivity. }
    apply run_ops_cons in E as [(h2 & Eo & E)|(e & Eo & _)]; [|exact (STEP _ _ Eo)].
    rewrite <- (STEP _ _ Eo). apply IH; assumption.
  Qed.
  Theorem C69_other_places : forall meta r h h' x q, ~ prefix r q -> ~ prefix q r ->
    (exists o, save meta (density_ops o) r (Some h) = (Some h', x) \/ save meta (bias_ops o) r (Some h) = (Some h', x) \/ save meta (kernel_ops o) r (Some h) = (Some h', x) \/
       save meta (power_ops o) r (Some h) = (Some h', x) \/ save meta (delta_ops o) r (Some h) = (Some h', x)) \/
    (exists w, save meta (weight_ops w) r (Some h) = (Some h', x)) \/ (exists c, save meta (deltas_ops c) r (Some h) = (Some h', x)) ->
    hget h' q = hget h q.
  Proof.
    intros meta r h h' x q N M [(o & [E|[E|[E|[E|E]]]])|[(w & E)|(c & E)]];
      (eapply save_elsewhere; [|exact E|exact N|exact M]); [apply within_density|apply within_bias|apply within_kernel|apply within_power|apply within_delta|apply within_weight|apply within_deltas].
  Qed.

  (** ** Second saves *)
  Definition member (l : list (op F)) (p : path) : Prop := exists x, In x l /\ target x = Some p /\ forall q, x <> OOpen q.
  Lemma kept_there l : forall h h' x p, run_ops l h = (h', x) -> hget h p <> None -> hget h' p <> None.
  Proof.
    intros h h' x p H N E. destruct (dat h p) as [d|] eqn:D.
    - pose proof (dat_kept _ _ _ _ _ _ H D) as X. unfold dat in X. rewrite E in X. discriminate X.
    - assert (G : grp h p = true) by (unfold dat, grp in *; destruct (hget h p) as [[|]|]; congruence).
      pose proof (grp_kept _ _ _ _ _ H G) as X. unfold grp in X. rewrite E in X. discriminate X.
  Qed.
  Lemma run_refused l p : forall h h' x, member l p -> hget h p <> None -> run_ops l h = (h', x) -> exists e, x = Err e.
  Proof.
    induction l as [|o l IH]; intros h h' x (y & I & T & NO) N H; [destruct I|]. apply run_ops_cons in H as [(h1 & E & H)|(e & _ & ->)]; [|eauto].
    destruct I as [->|I]; [destruct (run_taken _ _ _ _ _ T NO N E) as (e & X); discriminate X|].
    apply (IH h1 h' x); [exists y; auto| |exact H].
    apply (kept_there [o] h h1 (Ok tt)); [cbn [run_ops]; rewrite E; reflexivity|exact N].
  Qed.
  Lemma member_made meta f r st h p : save meta f r st = (Some h, Ok tt) -> member (f r) p -> hget h p <> None.
  Proof.
    intros SV (x & I & T & NO). pose proof (saved_run meta f r st h SV) as R.
    assert (J : In x (open_ops meta r (match st with Some _ => false | None => true end) ++ f r)) by (apply in_or_app; right; exact I).
    destruct x as [q|q|q v|q n v|e]; cbn in T; try discriminate T; injection T as ->.
    - destruct (NO p eq_refl).
    - pose proof (grp_made _ _ _ _ _ R J) as G. unfold grp in G. destruct (hget h p); [discriminate|discriminate G].
    - destruct (dat_made _ _ _ _ _ _ R J) as (d & _ & D). apply dat_hget in D. rewrite D. discriminate.
  Qed.
  Lemma second_refused meta meta' f g r st h st' x p : save meta f r st = (Some h, Ok tt) -> member (f r) p -> member (g r) p ->
    save meta' g r (Some h) = (st', x) -> (exists e, x = Err e) /\ exists h', st' = Some h' /\ forall q d, dat h q = Some d -> dat h' q = Some d.
  Proof.
    intros SV M N S2. pose proof (member_made _ _ _ _ _ _ SV M) as T. unfold save in S2.
    destruct (run_ops (open_ops meta' r false ++ g r) h) as [h' y] eqn:E. injection S2 as <- <-. split.
    - eapply run_refused; [|exact T|exact E]. destruct N as (z & I & Z). exists z. split; [apply in_or_app; right; exact I|exact Z].
    - exists h'. split; [reflexivity|]. intros q d D. exact (dat_kept _ _ _ _ _ _ E D).
  Qed.
  (** Two objects of one class at one place: the second save is refused and every
      dataset keeps its value. *)
  Theorem C69_second_save_refused : forall meta meta' o1 o2 r st h st' x (f : obj F -> path -> list (op F)),
    In f [density_ops; bias_ops; kernel_ops; power_ops; delta_ops] -> save meta (f o1) r st = (Some h, Ok tt) -> save meta' (f o2) r (Some h) = (st', x) ->
    (exists e, x = Err e) /\ exists h', st' = Some h' /\ forall q d, dat h q = Some d -> dat h' q = Some d.
  Proof.
    intros meta meta' o1 o2 r st h st' x f I S1 S2.
    assert (M : exists p, forall o, member (f o r) p).
    { cbn [In] in I. destruct I as [<-|[<-|[<-|[<-|[<-|[]]]]]].
      - exists (r ++ ["has_niz_from_input"%string]). intros o. eexists. split; [right; left; reflexivity|]. split; [reflexivity|discriminate].
      - exists (r ++ ["bias_model"%string]). intros o. exists (OGroup (r ++ ["bias_model"%string])). split; [|split; [reflexivity|discriminate]].
        unfold bias_ops. cbv beta zeta. rewrite !in_app_iff. cbn. tauto.
      - exists (r ++ ["z_grid"%string]). intros o. eexists. split; [right; right; left; reflexivity|]. split; [reflexivity|discriminate].
      - exists (r ++ ["power_spectrum"%string]). intros o. eexists. split; [left; reflexivity|]. split; [reflexivity|discriminate].
      - exists (r ++ ["l_bin_centers"%string]). intros o. exists (OData (r ++ ["l_bin_centers"%string]) (getattr o "l_bin_centers")). split; [|split; [reflexivity|discriminate]].
        apply in_delta. right. right. left. eexists. split; [left; reflexivity|reflexivity]. }
    destruct M as (p & M). eapply second_refused; [exact S1|apply M|apply M|exact S2].
  Qed.

  (** ** Collections of Delta C_l *)
  Lemma members_read {A B} (f : A -> path -> list (op F)) (g : hfile F -> path -> res B) (R : A -> B -> Prop) h r k l pre d post :
    (forall h r a, In a (map snd d) -> stored h r (f a r) -> exists b, load g r (Some h) = Ok b /\ R a b) -> (forall a r, within r (f a r)) -> wf h ->
    stored h r l -> l = pre ++ members_ops (r ++ [k]) f d ++ post -> Forall (apart (r ++ [k])) pre -> Forall (apart (r ++ [k])) post -> NoDup (dkeys d) -> d <> [] ->
    exists d', members_rd h (r ++ [k]) g = Ok d' /\ NoDup (dkeys d') /\ (forall n, In n (dkeys d') <-> In n (dkeys d)) /\
      forall n a, In (n, a) d -> exists b, In (n, b) d' /\ R a b.
  Proof.
    intros LD W WF S El A1 A2 ND NE.
    assert (CH : forall n, In n (children h (r ++ [k])) <-> In n (dkeys d)).
    { intros n. rewrite children_In, <- app_assoc. split.
      - intros H. destruct (in_dec string_dec n (dkeys d)) as [I|I]; [exact I|]. exfalso. apply H. apply (st_absent _ _ _ S); [discriminate|].
        intros x q J T P. rewrite app_assoc in P. rewrite El in J. apply in_app_or in J as [J|J]; [rewrite Forall_forall in A1; exact (apart_target _ _ _ _ (A1 x J) T P)|].
        apply in_app_or in J as [J|J]; [|rewrite Forall_forall in A2; exact (apart_target _ _ _ _ (A2 x J) T P)].
        unfold members_ops in J. apply in_flat_map in J as ([m a] & Im & J). cbn [fst snd] in J. apply in_map with (f := fst) in Im. cbn [fst] in Im.
        assert (X : prefix ((r ++ [k]) ++ [m]) q).
        { destruct J as [<-|J]; [injection T as <-; exists []; rewrite app_nil_r; reflexivity|]. apply (W a _ x q J). destruct x; cbn in T |- *; congruence. }
        destruct P as (t & ->), X as (u & X). rewrite <- !app_assoc in X. do 2 apply app_inv_head in X. injection X as -> _. exact (I Im).
      - intros I. apply in_map_iff in I as ([m a] & E & I). cbn in E. subst m.
        assert (G : grp h (r ++ [k] ++ [n]) = true); [|unfold grp in G; destruct (hget h (r ++ [k] ++ [n])); [discriminate|discriminate G]].
        apply (st_open _ _ _ S _ []); [discriminate|]. rewrite app_nil_r, El. apply in_or_app. right. apply in_or_app. left. apply in_flat_map. exists (n, a). split; [exact I|].
        left. cbn [fst]. rewrite <- app_assoc. reflexivity. }
    assert (G : grp h (r ++ [k]) = true).
    { destruct d as [|[n a] d]; [congruence|]. apply (st_open _ _ _ S _ [n]); [discriminate|]. rewrite El. apply in_or_app. right. apply in_or_app. left. left. cbn [fst]. rewrite <- app_assoc. reflexivity. }
    assert (ST : forall n a, In (n, a) d -> stored h (r ++ [k] ++ [n]) (f a (r ++ [k] ++ [n]))).
    { intros n a I. apply in_split in I as (d1 & d2 & Ed). apply (nested_stored h r l ([k] ++ [n]) (pre ++ members_ops (r ++ [k]) f d1) (f a (r ++ [k] ++ [n])) (members_ops (r ++ [k]) f d2 ++ post)); [discriminate|exact S| | |].
      - rewrite El, Ed. unfold members_ops. rewrite flat_map_app. cbn [flat_map fst snd]. rewrite <- !app_assoc. reflexivity.
      - assert (X : forall dd, ~ In n (dkeys dd) -> Forall (apart (r ++ [k] ++ [n])) (members_ops (r ++ [k]) f dd)).
        { intros dd Nn. apply Forall_forall. intros x J s P. unfold members_ops in J. apply in_flat_map in J as ([m b] & Im & J). cbn [fst snd] in J. apply in_map with (f := fst) in Im. cbn [fst] in Im.
          assert (Y : prefix ((r ++ [k]) ++ [m]) ((r ++ [k] ++ [n]) ++ s)) by (destruct J as [<-|J]; [exists []; rewrite app_nil_r; cbn [op_path] in P; congruence|exact (W b _ x _ J P)]).
          destruct Y as (t & Y). rewrite <- !app_assoc in Y. do 2 apply app_inv_head in Y. injection Y as <- _. exact (Nn Im). }
        assert (N1 : ~ In n (dkeys d1) /\ ~ In n (dkeys d2)).
        { rewrite Ed in ND. unfold dkeys in *. rewrite map_app in ND. cbn [map fst] in ND. apply NoDup_remove_2 in ND. rewrite in_app_iff in ND. tauto. }
        apply Forall_app. split; [|apply X, N1]. apply Forall_forall. intros x J s P. rewrite Forall_forall in A1. rewrite <- !app_assoc in P. rewrite app_assoc in P. exact (A1 x J _ P).
      - assert (X : forall dd, ~ In n (dkeys dd) -> Forall (apart (r ++ [k] ++ [n])) (members_ops (r ++ [k]) f dd)).
        { intros dd Nn. apply Forall_forall. intros x J s P. unfold members_ops in J. apply in_flat_map in J as ([m b] & Im & J). cbn [fst snd] in J. apply in_map with (f := fst) in Im. cbn [fst] in Im.
          assert (Y : prefix ((r ++ [k]) ++ [m]) ((r ++ [k] ++ [n]) ++ s)) by (destruct J as [<-|J]; [exists []; rewrite app_nil_r; cbn [op_path] in P; congruence|exact (W b _ x _ J P)]).
          destruct Y as (t & Y). rewrite <- !app_assoc in Y. do 2 apply app_inv_head in Y. injection Y as <- _. exact (Nn Im). }
        assert (N1 : ~ In n (dkeys d1) /\ ~ In n (dkeys d2)).
        { rewrite Ed in ND. unfold dkeys in *. rewrite map_app in ND. cbn [map fst] in ND. apply NoDup_remove_2 in ND. rewrite in_app_iff in ND. tauto. }
        apply Forall_app. split; [apply X, N1|]. apply Forall_forall. intros x J s P. rewrite Forall_forall in A2. rewrite <- !app_assoc in P. rewrite app_assoc in P. exact (A2 x J _ P). }
    unfold members_rd. unfold grp in G. destruct (hget h (r ++ [k])) as [[at_|]|]; try discriminate G.
    assert (X : forall c, NoDup c -> (forall n, In n c -> In n (dkeys d)) -> exists d', rmapM (fun n => o <- load g ((r ++ [k]) ++ [n]) (Some h) ;; Ok (n, o)) c = Ok d' /\ dkeys d' = c /\
       forall n a, In n c -> In (n, a) d -> exists b, In (n, b) d' /\ R a b).
    { induction c as [|n c IH]; intros NC I.
      - exists []. split; [reflexivity|]. split; [reflexivity|]. intros n a [].
      - apply NoDup_cons_iff in NC as [Nn NC]. destruct IH as (d' & E & KE & H); [exact NC|intros m Im; apply I; right; exact Im|].
        assert (In0 : In n (dkeys d)) by (apply I; left; reflexivity). apply in_map_iff in In0 as ([m a] & Em & Ia). cbn in Em. subst m.
        destruct (LD h (r ++ [k] ++ [n]) a) as (b & Lb & Rb); [apply in_map_iff; exists (n, a); auto|apply ST, Ia|].
        exists ((n, b) :: d'). cbn [rmapM]. rewrite <- app_assoc, Lb. cbn [rbind]. rewrite E. cbn [rbind]. split; [reflexivity|]. split; [cbn; rewrite <- KE; reflexivity|].
        intros m a' [<-|Im] Ia'.
        + assert (a' = a) by (pose proof (@dget_NoDup_In _ _ String.eqb String.eqb_spec _ _ _ ND Ia); pose proof (@dget_NoDup_In _ _ String.eqb String.eqb_spec _ _ _ ND Ia'); congruence). subst a'.
          exists b. split; [left; reflexivity|exact Rb].
        + destruct (H m a' Im Ia') as (b' & Ib & Rb'). exists b'. split; [right; exact Ib|exact Rb']. }
    destruct (X (children h (r ++ [k])) (children_NoDup _ _ WF)) as (d' & E & KE & H); [intros n; apply CH|].
    exists d'. split; [exact E|]. rewrite KE. split; [apply children_NoDup, WF|]. split; [exact CH|]. intros n a I. apply H; [|exact I]. apply CH. apply in_map with (f := fst) in I. exact I.
  Qed.
  Definition delta_same o o' : Prop := forall n, In n ("name" :: "probe_1" :: "probe_2" :: delta_arrays)%string -> getattr o' n = getattr o n.
  Definition block_no_nan o : Prop := forall n, In n ["delta_c_lij"; "noise_lij"; "l_bin_centers"; "l_bin_widths"]%string -> no_nan (getattr o n).
  Lemma dict_eqr_iff {A} (eq : A -> A -> res bool) (d e : dict string A) : dict_eqr eq d e = Ok true <->
    length d = length e /\ forall k v, In (k, v) d -> exists w, dget String.eqb e k = Some w /\ eq v w = Ok true.
  Proof.
    unfold dict_eqr. destruct (Nat.eqb_spec (length d) (length e)) as [E|E]; cbn [negb]; [|split; [discriminate|intros [X _]; congruence]].
    assert (G : forall l, (fix go (l : dict string A) := match l with
                   | [] => Ok true
                   | (k, v) :: rest => match dget String.eqb e k with
                                       | Some w => b <- eq v w ;; if b then go rest else Ok false
                                       | None => Ok false
                                       end
                   end) l = Ok true <-> forall k v, In (k, v) l -> exists w, dget String.eqb e k = Some w /\ eq v w = Ok true).
    { induction l as [|[k v] l IH]; [split; [intros _ k v []|reflexivity]|]. destruct (dget String.eqb e k) as [w|] eqn:D.
      - destruct (eq v w) as [[|]|x] eqn:Q; cbn [rbind].
        + rewrite IH. split; [intros H k' v' [X|I]; [assert (k' = k /\ v' = v) as [-> ->] by (split; congruence); eauto|auto]|intros H k' v' I; apply H; right; exact I].
        + split; [discriminate|]. intros H. destruct (H k v (or_introl eq_refl)) as (w' & D' & Q'). congruence.
        + split; [discriminate|]. intros H. destruct (H k v (or_introl eq_refl)) as (w' & D' & Q'). congruence.
      - split; [discriminate|]. intros H. destruct (H k v (or_introl eq_refl)) as (w' & D' & Q'). congruence. }
    rewrite G. tauto.
  Qed.
  Lemma delta_eq_same o o' : delta_same o o' -> (forall n, In n delta_arrays -> getattr o n <> VNone -> exists d, to_data (getattr o n) = Ok d) -> (delta_eq o o' = Ok true <-> block_no_nan o).
  Proof.
    intros A T. assert (TN : forall n, In n delta_arrays -> (veq (getattr o n) (getattr o n) = Ok true <-> no_nan (getattr o n))).
    { intros n I. destruct (is_none (getattr o n)) eqn:E.
      - assert (V : getattr o n = VNone) by (destruct (getattr o n); cbn in E; congruence). rewrite V. split; [intros _ a X; discriminate X|reflexivity].
      - apply is_none_false in E. destruct (T n I E) as (d & Td). exact (self_iff _ _ Td). }
    assert (IN : forall n, In n ["delta_c_lij"; "noise_lij"; "l_bin_centers"; "l_bin_widths"]%string -> In n delta_arrays) by (intros n; cbn; tauto).
    unfold delta_eq. rewrite compare_attrs_iff. split.
    - intros C n I. apply TN; [auto|]. rewrite <- (A n) at 2 by (right; right; right; auto). apply C, I.
    - intros C n I. rewrite (A n) by (right; right; right; auto). apply TN; auto.
  Qed.
  Theorem C69_collection_round_trip meta c r st h : fresh r st -> wf (file_of st) -> NoDup (dkeys (blocks c)) -> NoDup (dkeys (singles c)) -> blocks c <> [] -> singles c <> [] ->
    save meta (deltas_ops c) r st = (Some h, Ok tt) ->
    exists c', load deltas_rd r (Some h) = Ok c' /\
      (forall n, In n (dkeys (blocks c')) <-> In n (dkeys (blocks c))) /\ (forall n, In n (dkeys (singles c')) <-> In n (dkeys (singles c))) /\
      (forall n o, In (n, o) (blocks c) -> exists o', dget String.eqb (blocks c') n = Some o' /\ delta_same o o') /\
      (forall n o, In (n, o) (singles c) -> exists o', dget String.eqb (singles c') n = Some o' /\ delta_same o o') /\
      (deltas_eq c c' = Ok true <-> forall n o, In (n, o) (blocks c) -> block_no_nan o).
  Proof.
    intros FR WF ND NS BE SE SV. pose proof (save_stored _ _ _ _ _ FR SV) as S. pose proof (wf_save _ _ _ _ _ _ WF SV) as W.
    set (R := fun o o' => delta_same o o' /\ (delta_eq o o' = Ok true <-> block_no_nan o)).
    assert (LD : forall h r (a : obj F), stored h r (delta_ops a r) -> exists b, load delta_rd r (Some h) = Ok b /\ R a b).
    { intros h0 r0 a S0. destruct (delta_stored h0 a r0 S0) as (b & L & A & _ & T). exists b. split; [exact L|]. split; [exact A|]. apply delta_eq_same; assumption. }
    assert (AP : forall k k' (d : dict string (obj F)), k <> k' -> Forall (apart (r ++ [k])) (members_ops (r ++ [k']) delta_ops d)).
    { intros k k' d N. apply within_apart with (a := k') (s := []); [|congruence]. rewrite <- (app_nil_r (r ++ [k'])) at 2. apply (within_members delta_ops (r ++ [k']) []), within_delta. }
    destruct (members_read delta_ops delta_rd R h r "delta_cls"%string (deltas_ops c r) [] (blocks c) (members_ops (r ++ ["single_blocks"%string]) delta_ops (singles c))) as (b & Lb & Nb & Kb & Hb);
      [intros; apply LD; assumption|apply within_delta|exact W|exact S|reflexivity|constructor|apply AP; discriminate|exact ND|exact BE|].
    destruct (members_read delta_ops delta_rd R h r "single_blocks"%string (deltas_ops c r) (members_ops (r ++ ["delta_cls"%string]) delta_ops (blocks c)) (singles c) []) as (s & Ls & Ns & Ks & Hs);
      [intros; apply LD; assumption|apply within_delta|exact W|exact S|rewrite app_nil_r; reflexivity|apply AP; discriminate|constructor|exact NS|exact SE|].
    exists (mkDeltas b s). rewrite (load_open _ _ _ (st_root _ _ _ S)). unfold deltas_rd. rewrite Lb. cbn [rbind]. rewrite Ls. cbn [rbind blocks singles].
    split; [reflexivity|]. split; [exact Kb|]. split; [exact Ks|].
    assert (GB : forall n o, In (n, o) (blocks c) -> exists o', dget String.eqb b n = Some o' /\ R o o').
    { intros n o I. destruct (Hb n o I) as (o' & Io & Ro). exists o'. split; [exact (@dget_NoDup_In _ _ String.eqb String.eqb_spec _ _ _ Nb Io)|exact Ro]. }
    split; [intros n o I; destruct (GB n o I) as (o' & D & Ro & _); eauto|]. split.
    - intros n o I. destruct (Hs n o I) as (o' & Io & Ro & _). exists o'. split; [exact (@dget_NoDup_In _ _ String.eqb String.eqb_spec _ _ _ Ns Io)|exact Ro].
    - unfold deltas_eq. cbn [blocks]. rewrite dict_eqr_iff. split.
      + intros [_ H] n o I. destruct (H n o I) as (o' & D & E). destruct (GB n o I) as (o2 & D2 & _ & Q). rewrite D in D2. injection D2 as <-. apply Q, E.
      + intros H. split.
        * rewrite <- (map_length fst (blocks c)), <- (map_length fst b). apply Nat.le_antisymm; (apply NoDup_incl_length; [assumption|]); intros n I; apply Kb; exact I.
        * intros n o I. destruct (GB n o I) as (o2 & D2 & _ & Q). exists o2. split; [exact D2|]. apply Q. exact (H n o I).
  Qed.
  (** Without blocks (of either kind) the file has no group for them and cannot be
      loaded. *)
  Theorem C69_empty_collection meta c r st h : fresh r st -> wf (file_of st) -> blocks c = [] -> save meta (deltas_ops c) r st = (Some h, Ok tt) ->
    load deltas_rd r (Some h) = Err EKeyError.
  Proof.
    intros FR WF BE SV. pose proof (save_stored _ _ _ _ _ FR SV) as S. rewrite (load_open _ _ _ (st_root _ _ _ S)). unfold deltas_rd, members_rd.
    rewrite (st_absent _ _ _ S ["delta_cls"%string]); [reflexivity|discriminate|]. intros x q I T (t & ->). unfold deltas_ops in I. rewrite BE in I. cbn [members_ops flat_map app] in I.
    assert (P : op_path x = Some ((r ++ ["delta_cls"%string]) ++ t)) by (destruct x; cbn [target op_path] in T |- *; first [exact T|discriminate T]).
    assert (X : within (r ++ ["single_blocks"%string]) (members_ops (r ++ ["single_blocks"%string]) delta_ops (singles c))).
    { rewrite <- (app_nil_r (r ++ ["single_blocks"%string])) at 2. apply (within_members delta_ops (r ++ ["single_blocks"%string]) []), within_delta. }
    destruct (X x _ I P) as (u & E). rewrite <- !app_assoc in E. apply app_inv_head in E. discriminate E.
  Qed.
End Props.
