(** Properties of the frame of analyses of several runs (C111). *)
From Verif Require Import Base SortLib StrLib FrameModel FrameLemmas FisherModel NameModel WsModel WsLemmas HeapModel ResultsModel ResultsLemmas3 ConfigModel ConfigLemmas EllLemmas TexProps GatherModel GatherProps.
From Coq Require Import Field.
Open Scope string_scope.
Open Scope list_scope.

Section Props.
  Context {F : Type} {K : Fld F} {O : OFld (F := F)} {S : SqrtFld F} {SO : SetOrder}.
  Add Field FldGather : (fth (F := F)).

  (** ** The frame *)
  Definition of_run (c s : string) (r : run F) (row : frow (F := F)) : Prop :=
    (exists an, run_analysis r c s = Ok an /\ dget String.eqb row "analysis" = Some (FAn an)) /\
    forall k, k <> "analysis" -> dget String.eqb row k = option_map FOpt (dget String.eqb (run_opts r) k).
  Lemma dget_app_l {V} (d e : dict string V) k v : dget String.eqb d k = Some v -> dget String.eqb (d ++ e) k = Some v.
  Proof. induction d as [|[x y] d IH]; cbn; [discriminate|]. destruct (String.eqb x k); auto. Qed.
  Lemma dget_app_r {V} (d e : dict string V) k : ~ In k (dkeys d) -> dget String.eqb (d ++ e) k = dget String.eqb e k.
  Proof. induction d as [|[x y] d IH]; cbn; [reflexivity|]. intros H. destruct (String.eqb_spec x k) as [->|]; [exfalso; apply H; left; reflexivity|]. apply IH. intros G; apply H; right; exact G. Qed.
  Lemma combine_row (o : @opts F) (a : analysis F) : combine (dkeys o ++ ["analysis"]) (map (fun kv => FOpt (snd kv)) o ++ [FAn a]) = map (fun kv => (fst kv, FOpt (snd kv))) o ++ [("analysis", FAn a)].
  Proof. induction o as [|[k v] o IH]; cbn; [reflexivity|]. f_equal. exact IH. Qed.
  Lemma dget_opts (o : @opts F) k : dget String.eqb (map (fun kv => (fst kv, FOpt (snd kv))) o) k = option_map (FOpt (F := F)) (dget String.eqb o k).
  Proof. induction o as [|[x v] o IH]; cbn; [reflexivity|]. destruct (String.eqb x k); [reflexivity|exact IH]. Qed.
  Lemma width_same {A} (rows : list (list A)) n : rows <> [] -> (forall r, In r rows -> length r = n) -> width rows = n.
  Proof.
    induction rows as [|r rows IH]; intros H G; [congruence|]. cbn. rewrite (G r (or_introl eq_refl)). destruct rows as [|r' rows]; [cbn; lia|].
    change (fold_right (fun r n => Nat.max (length r) n) 0 (r' :: rows)) with (width (r' :: rows)). rewrite IH; [lia|discriminate|intros x Hx; apply G; right; exact Hx].
  Qed.
  (** Runs whose options have the same names in the same order: each row has the
      options and the analysis of its run. *)
  Theorem C111_frame c s (runs : list (run F)) names f : (forall r, In r runs -> dkeys (run_opts r) = names) -> ~ In "analysis" names ->
    build_frame c s runs = Ok f -> fr_indexed f = false /\ fr_cols f = names ++ ["analysis"] /\ Forall2 (of_run c s) runs (fr_rows f).
  Proof.
    intros Hn Ha E. unfold build_frame in E. destruct (rmapM _ runs) as [rows|e] eqn:Er; [|discriminate]. cbn [rbind] in E. destruct runs as [|r0 runs]; [discriminate|].
    set (all := r0 :: runs) in *. cbv zeta in E. rewrite (Hn r0 (or_introl eq_refl)) in E. destruct (Nat.eqb (width rows) _); [|discriminate]. injection E as <-. cbn [fr_indexed fr_cols fr_rows].
    split; [reflexivity|]. split; [reflexivity|].
    assert (G : ~ In "analysis" names -> forall (l : list (run F)) rows', (forall r, In r l -> dkeys (run_opts r) = names) -> rmapM (fun r => an <- run_analysis r c s ;; Ok (map (fun kv => FOpt (snd kv)) (run_opts r) ++ [FAn an])) l = Ok rows' -> forall w,
      Forall2 (of_run c s) l (map (fun row => combine (names ++ ["analysis"]) (row ++ repeat (FOpt SNull) (w - length row))) rows')).
    { clear. intros Ha. induction l as [|r l IH]; intros rows' Hn Er w.
      - cbn in Er. injection Er as <-. constructor.
      - cbn [rmapM] in Er. destruct (run_analysis r c s) as [an|] eqn:Ea; [|discriminate]. cbn [rbind] in Er. destruct (rmapM _ l) as [rs|] eqn:El; [|discriminate]. cbn [rbind] in Er. injection Er as <-.
        cbn [map]. constructor; [|apply IH; [intros x Hx; apply Hn; right; exact Hx|reflexivity]].
        assert (C : forall (ks : list string) (vs ws : list (fcell (F := F))), length ks = length vs -> combine ks (vs ++ ws) = combine ks vs).
        { clear. induction ks as [|k ks IH]; intros [|v vs] ws L; try discriminate; [reflexivity|]. cbn. f_equal. apply IH. cbn in L. lia. }
        rewrite <- (Hn r (or_introl eq_refl)). rewrite C by (rewrite !app_length; unfold dkeys; rewrite !map_length; reflexivity). rewrite combine_row. split.
        + exists an. split; [exact Ea|]. rewrite dget_app_r; [reflexivity|]. unfold dkeys. rewrite map_map. cbn [fst]. rewrite <- (Hn r (or_introl eq_refl)) in Ha. exact Ha.
        + intros k Hk. destruct (dget String.eqb (run_opts r) k) as [v|] eqn:Ek.
          * apply dget_app_l. rewrite dget_opts, Ek. reflexivity.
          * rewrite dget_app_r.
            -- cbn [dget option_map]. destruct (String.eqb_spec "analysis" k); [congruence|reflexivity].
            -- unfold dkeys. rewrite map_map. cbn [fst]. apply (dget_None _ String.eqb_spec) in Ek. exact Ek. }
    apply G; [exact Ha|exact Hn|exact Er].
  Qed.

  Theorem C111_frame_success c s (runs : list (run F)) names : runs <> [] -> (forall r, In r runs -> dkeys (run_opts r) = names) ->
    (exists f, build_frame c s runs = Ok f) <-> forall r, In r runs -> exists an, run_analysis r c s = Ok an.
  Proof.
    intros Hr Hn. unfold build_frame. split.
    - intros (f & E). destruct (rmapM _ runs) as [rows|e] eqn:Er; [|discriminate]. clear E Hn Hr. revert rows Er. induction runs as [|r runs IH]; intros rows Er; [intros ? []|]. cbn [rmapM] in Er.
      destruct (run_analysis r c s) as [an|] eqn:Ea; [|discriminate]. cbn [rbind] in Er. destruct (rmapM _ runs) as [rs|] eqn:El; [|discriminate]. intros x [<-|Hx]; [eauto|]. apply (IH rs eq_refl x Hx).
    - intros H. assert (G : exists rows, rmapM (fun r => an <- run_analysis r c s ;; Ok (map (fun kv => FOpt (snd kv)) (run_opts r) ++ [FAn an])) runs = Ok rows /\ (runs <> [] -> rows <> []) /\ forall x, In x rows -> length x = length (names ++ ["analysis"])).
      { clear Hr. induction runs as [|r runs IH]; [exists []; split; [reflexivity|]; split; [congruence|intros ? []]|]. destruct IH as (rows & Er & _ & L); [intros x Hx; apply Hn; right; exact Hx|intros x Hx; apply H; right; exact Hx|].
        destruct (H r (or_introl eq_refl)) as (an & Ea). cbn [rmapM]. rewrite Ea. cbn [rbind]. rewrite Er. cbn [rbind]. eexists. split; [reflexivity|]. split; [discriminate|]. intros x [<-|Hx]; [|apply L; exact Hx].
        rewrite <- (Hn r (or_introl eq_refl)). unfold dkeys. rewrite !app_length, !map_length. reflexivity. }
      destruct G as (rows & -> & Nr & L). cbn [rbind]. destruct runs as [|r runs]; [congruence|]. cbv zeta. rewrite (Hn r (or_introl eq_refl)), (width_same rows _ (Nr Hr) L), Nat.eqb_refl. eauto.
  Qed.
  (** The names of the columns are those of the first run: a run with its options in
      another order has its values under wrong names. *)
  Theorem C111_frame_order_refuted c s (r1 r2 : run F) k1 k2 v1 v2 a b f : k1 <> k2 -> run_opts r1 = [(k1, v1); (k2, v2)] -> run_opts r2 = [(k2, a); (k1, b)] ->
    build_frame c s [r1; r2] = Ok f -> exists row, nth_error (fr_rows f) 1 = Some row /\ dget String.eqb row k1 = Some (FOpt a) /\ dget String.eqb row k2 = Some (FOpt b).
  Proof.
    intros N E1 E2 E. unfold build_frame in E. cbn [rmapM rbind] in E. rewrite E1, E2 in E. destruct (run_analysis r1 c s) as [a1|]; [|discriminate]. cbn [rbind] in E. destruct (run_analysis r2 c s) as [a2|]; [|discriminate].
    cbn in E. injection E as <-. cbn [fr_rows nth_error]. eexists. split; [reflexivity|]. cbn [dget]. rewrite String.eqb_refl. split; [reflexivity|].
    destruct (String.eqb_spec k1 k2); [contradiction|]. rewrite String.eqb_refl. reflexivity.
  Qed.

  (** ** Replacing the matrices *)
  Definition pk (n : string) : bool := occurs "Pk" n.
  Lemma in_dset (t : table (F := F)) n row kv : In kv (dset String.eqb t n row) -> kv = (n, row) \/ In kv t.
  Proof.
    induction t as [|[k r] t IH]; cbn; [intros [<-|[]]; auto|]. destruct (String.eqb_spec k n) as [->|]; cbn; [intros [<-|H]; auto|].
    intros [<-|H]; [auto|]. destruct (IH H); auto.
  Qed.
  Lemma cols_iff (t : table (F := F)) c : In c (t_cols t) <-> exists k r v, In (k, r) t /\ In (c, v) r.
  Proof.
    unfold t_cols, sdup. rewrite nodup_In, in_flat_map. split.
    - intros ([k r] & A & B). apply in_map_iff in B. destruct B as ([c' v] & <- & B). exists k, r, v. auto.
    - intros (k & r & v & A & B). exists (k, r). split; [exact A|]. apply in_map_iff. exists (c, v). auto.
  Qed.
  Lemma cols_set (t : table (F := F)) n (g : string -> option F) c : In c (t_cols (dset String.eqb t n (map (fun c => (c, g c)) (t_cols t)))) <-> In c (t_cols t).
  Proof.
    split.
    - intros H. apply cols_iff in H. destruct H as (k & r & v & A & B). apply in_dset in A. destruct A as [A|A].
      + injection A as _ ->. apply in_map_iff in B. destruct B as (c' & E & B). injection E as <- _. exact B.
      + apply cols_iff. exists k, r, v. auto.
    - intros H. apply cols_iff. exists n, (map (fun c => (c, g c)) (t_cols t)), (g c). split.
      + apply (dget_In _ String.eqb_spec). apply (dget_dset_same _ String.eqb_spec).
      + apply in_map_iff. exists c. auto.
  Qed.
  Lemma smem_ext c l l' : (In c l <-> In c l') -> smem c l = smem c l'.
  Proof. intros H. destruct (smem c l) eqn:A, (smem c l') eqn:B; try reflexivity; [apply smem_In in A; apply smem_false in B; tauto|apply smem_In in B; apply smem_false in A; tauto]. Qed.

  (** What the replacement of the matrices [ns] of [a] by those of [a4] gives. *)
  Record replaced (ns : list string) (a4 a a' : analysis F) : Prop := mkReplaced {
    rp_base : an_base a' = an_base a; rp_fid : an_fid a' = an_fid a; rp_order : an_order a' = an_order a; rp_flag : an_flag a' = an_flag a;
    rp_rel : an_rel a' = an_rel a;
    rp_there : forall n, In n ns -> pk n = true -> exists x t4 r, dget String.eqb (an_fishers a4) n = Some x /\ an_errs a4 = Some t4 /\ dget String.eqb t4 n = Some r;
    rp_table : (exists n, In n ns /\ pk n = true) -> an_errs a <> None;
    rp_fishers : forall n, dget String.eqb (an_fishers a') n = if smem n ns && pk n then dget String.eqb (an_fishers a4) n else dget String.eqb (an_fishers a) n;
    rp_keys : (forall n, In n ns -> In n (dkeys (an_fishers a))) -> dkeys (an_fishers a') = dkeys (an_fishers a);
    rp_none : an_errs a = None -> an_errs a' = None;
    rp_errs : forall t, an_errs a = Some t -> exists t', an_errs a' = Some t' /\ (forall c, In c (t_cols t') <-> In c (t_cols t)) /\
      forall n c, t_cell t' n c = if smem n ns && pk n then (if smem c (t_cols t) then match an_errs a4 with Some t4 => t_cell t4 n c | None => None end else None) else t_cell t n c }.
  Lemma dmem_key {V} (d : dict string V) n : In n (dkeys d) -> dmem String.eqb d n = true.
  Proof. intros H. unfold dmem. destruct (dget String.eqb d n) eqn:E; [reflexivity|]. apply (dget_None _ String.eqb_spec) in E. contradiction. Qed.
  Lemma smem_cons n x l : smem n (x :: l) = String.eqb n x || smem n l.
  Proof. reflexivity. Qed.
  Lemma replace_one_pk a4 n (a a' : analysis F) : pk n = true -> replace_one (Some a4) n a = (a', Ok tt) ->
    exists x t4 r4 t, dget String.eqb (an_fishers a4) n = Some x /\ an_errs a4 = Some t4 /\ dget String.eqb t4 n = Some r4 /\ an_errs a = Some t /\
      a' = with_errs (dset String.eqb t n (map (fun c => (c, r_cell r4 c)) (t_cols t))) (with_fishers (dset String.eqb (an_fishers a) n x) a).
  Proof.
    unfold replace_one, pk. intros ->. cbn [negb]. destruct (dget String.eqb (an_fishers a4) n) as [x|]; [|intros [=]]. destruct (an_errs a4) as [t4|]; [|intros [=]]. destruct (dget String.eqb t4 n) as [r4|] eqn:E4; [|intros [=]].
    cbn [with_fishers an_errs]. destruct (an_errs a) as [t|]; [|intros [=]]. intros [= <-]. exists x, t4, r4, t. auto.
  Qed.
  Lemma replace_names_spec ns a4 : forall (a a' : analysis F), replace_names (Some a4) ns a = (a', Ok tt) -> replaced ns a4 a a'.
  Proof.
    induction ns as [|n ns IH]; intros a a' E.
    - cbn in E. injection E as <-. constructor; try reflexivity; try (intros; contradiction); auto.
      + intros (n & [] & _).
      + intros t Et. exists t. split; [exact Et|]. split; [reflexivity|]. reflexivity.
    - cbn [replace_names] in E. destruct (replace_one (Some a4) n a) as [a1 [[]|e]] eqn:E1; [|discriminate].
      pose proof (IH _ _ E) as R. destruct (pk n) eqn:Pn.
      + destruct (replace_one_pk _ _ _ _ Pn E1) as (x & t4 & r4 & t & F4 & T4 & R4 & T & Ea1).
        assert (Q : an_base a1 = an_base a /\ an_fid a1 = an_fid a /\ an_order a1 = an_order a /\ an_flag a1 = an_flag a /\ an_rel a1 = an_rel a /\ an_fishers a1 = dset String.eqb (an_fishers a) n x /\ an_errs a1 = Some (dset String.eqb t n (map (fun c => (c, r_cell r4 c)) (t_cols t)))) by (subst a1; cbn; auto 10).
        destruct Q as (Q1 & Q2 & Q3 & Q4 & Q5 & Q6 & Q7). destruct R. constructor.
        * congruence. * congruence. * congruence. * congruence. * congruence.
        * intros m [<-|Hm] Pm; [exists x, t4, r4; auto|auto].
        * intros _. congruence.
        * intros m. rewrite rp_fishers0, smem_cons, Q6. destruct (smem m ns && pk m) eqn:Sm.
          -- apply Bool.andb_true_iff in Sm. destruct Sm as [-> ->]. rewrite Bool.orb_true_r. reflexivity.
          -- destruct (String.eqb_spec m n) as [->|Nm]; cbn [orb andb].
             ++ rewrite Pn. rewrite (dget_dset_same _ String.eqb_spec). congruence.
             ++ rewrite Sm. apply (dget_dset_other _ String.eqb_spec). congruence.
        * intros Hk. rewrite rp_keys0.
          -- rewrite Q6, (dkeys_dset _ String.eqb_spec), dmem_key; [reflexivity|]. apply Hk. left; reflexivity.
          -- intros m Hm. rewrite Q6, (dkeys_dset _ String.eqb_spec), dmem_key; [apply Hk; right; exact Hm|]. apply Hk. left; reflexivity.
        * congruence.
        * intros t0 Et0. assert (t0 = t) by congruence. subst t0. destruct (rp_errs0 _ Q7) as (t' & Et' & Hc & Hcell). exists t'. split; [exact Et'|]. split; [intros c; rewrite Hc; apply cols_set|].
          intros m c. rewrite Hcell, smem_cons. rewrite (smem_ext c _ (t_cols t)) by apply cols_set. destruct (smem m ns && pk m) eqn:Sm.
          -- apply Bool.andb_true_iff in Sm. destruct Sm as [-> ->]. rewrite Bool.orb_true_r. reflexivity.
          -- unfold t_cell at 1. destruct (String.eqb_spec m n) as [->|Nm]; cbn [orb andb].
             ++ rewrite Pn, (dget_dset_same _ String.eqb_spec), dget_cols, T4. unfold t_cell, r_cell. rewrite R4. destruct (smem c (t_cols t)); reflexivity.
             ++ rewrite Sm, (dget_dset_other _ String.eqb_spec) by congruence. reflexivity.
      + unfold replace_one in E1. unfold pk in Pn. rewrite Pn in E1. cbn [negb] in E1. injection E1 as <-. fold (pk n) in Pn.
        assert (X : forall m, smem m (n :: ns) && pk m = smem m ns && pk m).
        { intros m. rewrite smem_cons. destruct (String.eqb_spec m n) as [->|]; [rewrite Pn, !Bool.andb_false_r|]; reflexivity. }
        destruct R. constructor; auto.
        * intros m [<-|Hm] Pm; [congruence|auto].
        * intros (m & [<-|Hm] & Pm); [congruence|]. apply rp_table0. exists m. auto.
        * intros m. rewrite X. auto.
        * intros Hk. apply rp_keys0. intros m Hm. apply Hk. right; exact Hm.
        * intros t Et. destruct (rp_errs0 t Et) as (t' & A & B & C). exists t'. split; [exact A|]. split; [exact B|]. intros m c. rewrite X. apply C.
  Qed.
  Lemma replace_names_none ns (a a' : analysis F) : replace_names None ns a = (a', Ok tt) -> a' = a /\ forall n, In n ns -> pk n = false.
  Proof.
    induction ns as [|n ns IH]; cbn [replace_names]; intros E; [injection E as <-; split; [reflexivity|intros ? []]|].
    unfold replace_one in E. fold (pk n) in E. destruct (pk n) eqn:Pn; cbn [negb] in E; [discriminate|]. destruct (IH E) as [-> H]. split; [reflexivity|]. intros m [<-|Hm]; auto.
  Qed.
  Lemma replace_names_ok ns a4 : forall (a : analysis F), 
    (forall n, In n ns -> pk n = true -> dget String.eqb (an_fishers a4) n <> None /\ an_errs a <> None /\ exists t4, an_errs a4 = Some t4 /\ dget String.eqb t4 n <> None) ->
    exists a', replace_names (Some a4) ns a = (a', Ok tt).
  Proof.
    induction ns as [|n ns IH]; intros a H; [exists a; reflexivity|]. cbn [replace_names]. unfold replace_one. fold (pk n). destruct (pk n) eqn:Pn; cbn [negb].
    - destruct (H n (or_introl eq_refl) Pn) as (A & B & t4 & C & D). destruct (dget String.eqb (an_fishers a4) n) as [x|]; [|congruence]. rewrite C. destruct (dget String.eqb t4 n) as [r4|]; [|congruence].
      cbn [with_fishers an_errs]. destruct (an_errs a) as [t|] eqn:Et; [|congruence]. apply IH. intros m Hm Pm. destruct (H m (or_intror Hm) Pm) as (A' & B' & C'). split; [exact A'|]. split; [cbn; discriminate|exact C'].
    - apply IH. intros m Hm Pm. apply H; [right; exact Hm|exact Pm].
  Qed.

  (** ** The loop over the rows *)
  Definition kept (r r' : frow (F := F)) : Prop :=
    (forall k, k <> "analysis" -> dget String.eqb r' k = dget String.eqb r k) /\ (four_bins r = true -> r' = r).
  Lemma same_at_ext cols (r r' s s' : frow (F := F)) : ~ In "analysis" cols -> kept r r' -> kept s s' -> same_at cols r' s' = same_at cols r s.
  Proof.
    intros H [A _] [B _]. unfold same_at. induction cols as [|c cols IH]; [reflexivity|]. cbn [forallb].
    rewrite A, B by (intros ->; apply H; left; reflexivity). rewrite IH; [reflexivity|]. intros G; apply H; right; exact G.
  Qed.
  Lemma four_ext (r r' : frow (F := F)) : kept r r' -> four_bins r' = four_bins r.
  Proof. intros [A _]. unfold four_bins. rewrite A by discriminate. reflexivity. Qed.
  Lemma no_an : ~ In "analysis" index_cols.
  Proof. cbn. intuition discriminate. Qed.
  Lemma distinct_ext rows rows' : Forall2 kept rows rows' -> distinct_rows rows' = distinct_rows rows.
  Proof.
    induction 1 as [|r r' rows rows' H R IH]; [reflexivity|]. cbn [distinct_rows]. rewrite IH. f_equal.
    clear IH. induction R as [|s s' rows rows' Hs R IH]; [reflexivity|]. cbn [forallb]. rewrite IH, (same_at_ext index_cols r r' s s' no_an H Hs). reflexivity.
  Qed.
  Lemma equivalent_ext rows rows' r r' : Forall2 kept rows rows' -> kept r r' -> equivalent rows' r' = equivalent rows r.
  Proof.
    intros R H. unfold equivalent. rewrite (distinct_ext _ _ R).
    assert (G : filter (fun x => four_bins x && same_at (tl index_cols) x r') rows' = filter (fun x => four_bins x && same_at (tl index_cols) x r) rows).
    { induction R as [|s s' rows rows' Hs R IH]; [reflexivity|]. cbn [filter]. rewrite IH, (four_ext _ _ Hs), (same_at_ext (tl index_cols) s s' r r'); [|cbn; intuition discriminate|exact Hs|exact H].
      destruct (four_bins s) eqn:E; [|reflexivity]. rewrite (proj2 Hs E). reflexivity. }
    rewrite G. reflexivity.
  Qed.
  Lemma kept_refl r : kept r r. Proof. split; auto. Qed.
  Lemma set_nth_same {A} i (x y : A) l : nth_error l i = Some y -> nth_error (set_nth i x l) i = Some x.
  Proof. revert i. induction l as [|z l IH]; intros [|i] H; cbn in *; try discriminate; [reflexivity|auto]. Qed.
  Lemma set_nth_other {A} i j (x : A) l : i <> j -> nth_error (set_nth i x l) j = nth_error l j.
  Proof. revert i j. induction l as [|z l IH]; intros [|i] [|j] H; cbn in *; try congruence; auto. Qed.
  Lemma kept_set i r r' : forall rows rows', Forall2 kept rows rows' -> nth_error rows i = Some r -> kept r r' -> Forall2 kept rows (set_nth i r' rows').
  Proof.
    revert i. intros i rows rows' R. revert i. induction R as [|s s' rows rows' Hs R IH]; intros [|i] E H; cbn in *; try discriminate; constructor; auto. injection E as ->. exact H.
  Qed.
  (** What the loop makes of one row. *)
  Definition step (rows : list (frow (F := F))) (r r' : frow (F := F)) : Prop :=
    if four_bins r then r' = r
    else exists e a a', equivalent rows r = Ok e /\ row_analysis r = Ok a /\ replace_names e (dkeys (an_fishers a)) a = (a', Ok tt) /\ r' = dset String.eqb r "analysis" (FAn a').
  Lemma step_kept rows r r' : step rows r r' -> kept r r'.
  Proof.
    unfold step. destruct (four_bins r) eqn:E4; [intros ->; apply kept_refl|]. intros (e & a & a' & _ & _ & _ & ->). split; [|congruence].
    intros k Hk. apply (dget_dset_other _ String.eqb_spec). congruence.
  Qed.
  Lemma replace_row_spec i rows rows1 rows2 : Forall2 kept rows rows1 -> nth_error rows1 i = nth_error rows i -> replace_row i rows1 = (rows2, Ok tt) ->
    Forall2 kept rows rows2 /\ (forall j, j <> i -> nth_error rows2 j = nth_error rows1 j) /\
    forall r, nth_error rows i = Some r -> exists r', nth_error rows2 i = Some r' /\ step rows r r'.
  Proof.
    intros R N E. unfold replace_row in E. rewrite N in E. destruct (nth_error rows i) as [r|] eqn:Er.
    - destruct (four_bins r) eqn:E4.
      + injection E as <-. split; [exact R|]. split; [reflexivity|]. intros r0 [= <-]. exists r. split; [exact N|]. unfold step. rewrite E4. reflexivity.
      + rewrite (equivalent_ext rows rows1 r r R (kept_refl r)) in E. destruct (equivalent rows r) as [e|] eqn:Ee; [|discriminate]. cbn [rbind] in E.
        destruct (row_analysis r) as [a|] eqn:Ea; [|discriminate]. cbn [rbind] in E. destruct (replace_names e (dkeys (an_fishers a)) a) as [a' o] eqn:En. injection E as <- ->.
        assert (St : step rows r (dset String.eqb r "analysis" (FAn a'))) by (unfold step; rewrite E4; exists e, a, a'; auto).
        split; [apply (kept_set i r); [exact R|exact Er|apply step_kept with rows; exact St]|]. split; [intros j Hj; apply set_nth_other; congruence|].
        intros r0 [= <-]. exists (dset String.eqb r "analysis" (FAn a')). split; [apply set_nth_same with r; exact N|exact St].
    - injection E as <-. split; [exact R|]. split; [reflexivity|]. discriminate.
  Qed.
  Lemma replace_rows_spec rows is : forall rows1 rows2, NoDup is -> Forall2 kept rows rows1 -> (forall i, In i is -> nth_error rows1 i = nth_error rows i) ->
    replace_rows is rows1 = (rows2, Ok tt) ->
    Forall2 kept rows rows2 /\ (forall j, ~ In j is -> nth_error rows2 j = nth_error rows1 j) /\
    forall i r, In i is -> nth_error rows i = Some r -> exists r', nth_error rows2 i = Some r' /\ step rows r r'.
  Proof.
    induction is as [|i is IH]; intros rows1 rows2 ND R N E.
    - injection E as <-. split; [exact R|]. split; [reflexivity|]. intros ? ? [].
    - cbn [replace_rows] in E. destruct (replace_row i rows1) as [rows1' [[]|e]] eqn:E1; [|discriminate]. inversion ND as [|? ? Ni ND']; subst.
      destruct (replace_row_spec i rows rows1 rows1' R (N i (or_introl eq_refl)) E1) as (R1 & O1 & S1).
      destruct (IH rows1' rows2 ND' R1) as (R2 & O2 & S2).
      + intros j Hj. rewrite O1 by (intros ->; contradiction). apply N. right; exact Hj.
      + exact E.
      + split; [exact R2|]. split.
        * intros j Hj. rewrite O2 by (intros G; apply Hj; right; exact G). apply O1. intros ->. apply Hj. left; reflexivity.
        * intros j r [<-|Hj] Er; [|apply S2; assumption]. destruct (S1 r Er) as (r' & A & B). exists r'. split; [|exact B]. rewrite O2 by exact Ni. exact A.
  Qed.
  Lemma replace_rows_ok rows is : forall rows1, NoDup is -> Forall2 kept rows rows1 -> (forall i, In i is -> nth_error rows1 i = nth_error rows i) ->
    (forall i r, In i is -> nth_error rows i = Some r -> exists r', step rows r r') -> exists rows2, replace_rows is rows1 = (rows2, Ok tt).
  Proof.
    induction is as [|i is IH]; intros rows1 ND R N H; [exists rows1; reflexivity|]. inversion ND as [|? ? Ni ND']; subst. cbn [replace_rows].
    assert (G : exists rows1', replace_row i rows1 = (rows1', Ok tt)).
    { unfold replace_row. rewrite (N i (or_introl eq_refl)). destruct (nth_error rows i) as [r|] eqn:Er; [|exists rows1; reflexivity].
      destruct (H i r (or_introl eq_refl) Er) as (r' & St). unfold step in St. destruct (four_bins r); [exists rows1; reflexivity|]. destruct St as (e & a & a' & A & B & C & _).
      rewrite (equivalent_ext rows rows1 r r R (kept_refl r)), A. cbn [rbind]. rewrite B. cbn [rbind]. rewrite C. eexists; reflexivity. }
    destruct G as (rows1' & E1). rewrite E1. destruct (replace_row_spec i rows rows1 rows1' R (N i (or_introl eq_refl)) E1) as (R1 & O1 & _).
    apply IH; [exact ND'|exact R1| |intros j r Hj; apply H; right; exact Hj].
    intros j Hj. rewrite O1 by (intros ->; contradiction). apply N. right; exact Hj.
  Qed.

  (** ** The statements *)
  (** The option [c] of two rows is the same value. *)
  Definition agree (c : string) (r r' : frow (F := F)) : Prop :=
    exists v w, dget String.eqb r c = Some (FOpt v) /\ dget String.eqb r' c = Some (FOpt w) /\ same_scalar v w.
  Definition has4 (r : frow (F := F)) : Prop := exists v, dget String.eqb r "n_sp_bins" = Some (FOpt v) /\ sv_num v = Some (fzed 4).
  Definition others : list string := ["scenario"; "shot_noise_sp_reduced"; "gcph_minus_gcsp"; "gcph_only_bins_in_spectro_range"].
  (** [q] is the row of the same forecast with four bins. *)
  Definition twin (q r : frow (F := F)) : Prop := has4 q /\ forall c, In c others -> agree c q r.
  Definition distinct (rows : list (frow (F := F))) : Prop :=
    ForallOrdPairs (fun r r' => ~ forall c, In c ("n_sp_bins" :: others) -> agree c r r') rows.
  Definition holds (r : frow (F := F)) (a : analysis F) : Prop := dget String.eqb r "analysis" = Some (FAn a).
  Definition spectro (n : string) : Prop := exists x y, n = (x ++ "Pk" ++ y)%string.
  (** The analysis [a] with the matrices called ...Pk... of [a4]. *)
  Definition hybrid (a4 a a' : analysis F) : Prop :=
    an_base a' = an_base a /\ an_fid a' = an_fid a /\ an_order a' = an_order a /\ an_flag a' = an_flag a /\ an_rel a' = an_rel a /\
    dkeys (an_fishers a') = dkeys (an_fishers a) /\
    (forall n, In n (dkeys (an_fishers a)) -> spectro n -> exists x, dget String.eqb (an_fishers a4) n = Some x /\ dget String.eqb (an_fishers a') n = Some x) /\
    (forall n, ~ spectro n -> dget String.eqb (an_fishers a') n = dget String.eqb (an_fishers a) n) /\
    match an_errs a, an_errs a' with
    | None, None => forall n, In n (dkeys (an_fishers a)) -> ~ spectro n
    | Some t, Some t' =>
        (forall c, In c (t_cols t') <-> In c (t_cols t)) /\
        (forall n c, In n (dkeys (an_fishers a)) -> spectro n -> exists t4, an_errs a4 = Some t4 /\ In n (dkeys t4) /\ t_cell t' n c = if smem c (t_cols t) then t_cell t4 n c else None) /\
        (forall n c, ~ (In n (dkeys (an_fishers a)) /\ spectro n) -> t_cell t' n c = t_cell t n c)
    | _, _ => False
    end.

  Lemma fcell_iff (x y : option (fcell (F := F))) : fcell_eqb x y = true <-> exists v w, x = Some (FOpt v) /\ y = Some (FOpt w) /\ same_scalar v w.
  Proof.
    split.
    - destruct x as [[v|]|], y as [[w|]|]; cbn; try discriminate. intros H. apply sv_eqb_iff in H. eauto.
    - intros (v & w & -> & -> & H). cbn. apply sv_eqb_iff. exact H.
  Qed.
  Lemma same_at_iff cols (r r' : frow (F := F)) : same_at cols r r' = true <-> forall c, In c cols -> agree c r r'.
  Proof. unfold same_at. rewrite forallb_forall. split; intros H c Hc; apply fcell_iff, (H c Hc). Qed.
  Lemma four_iff (r : frow (F := F)) : four_bins r = true <-> has4 r.
  Proof.
    unfold four_bins, has4. rewrite fcell_iff. split.
    - intros (v & w & A & [= <-] & B). exists v. split; [exact A|]. destruct B as [(x & B & C)|B]; [change (sv_num (SInt 4)) with (Some (fzed (F := F) 4)) in C; congruence|subst v; reflexivity].
    - intros (v & A & B). exists v, (SInt 4). split; [exact A|]. split; [reflexivity|]. left. exists (fzed 4). auto.
  Qed.
  Lemma spectro_iff n : pk n = true <-> spectro n.
  Proof. apply occurs_iff. Qed.
  Lemma distinct_iff (rows : list (frow (F := F))) : distinct_rows rows = true <-> distinct rows.
  Proof.
    induction rows as [|r rows IH]; cbn [distinct_rows]; [split; [intros; constructor|reflexivity]|]. rewrite Bool.andb_true_iff, IH, forallb_forall. split.
    - intros [A B]. constructor; [|exact B]. apply Forall_forall. intros x Hx G. specialize (A x Hx). apply Bool.negb_true_iff in A. apply same_at_iff in G. change ("n_sp_bins" :: others) with index_cols in G. congruence.
    - intros H. inversion H as [|? ? A B]; subst. split; [|exact B]. intros x Hx. apply Bool.negb_true_iff. destruct (same_at index_cols r x) eqn:E; [|reflexivity]. exfalso.
      apply (proj1 (Forall_forall _ _) A x Hx). apply same_at_iff. exact E.
  Qed.
  Lemma row_an_iff (r : frow (F := F)) a : row_analysis r = Ok a <-> holds r a.
  Proof. unfold row_analysis, holds. destruct (dget String.eqb r "analysis") as [[v|x]|]; split; intros H; try discriminate; congruence. Qed.
  Lemma equivalent_some rows r e : equivalent rows r = Ok e -> exists q, In q rows /\ twin q r /\ (distinct rows -> exists a4, e = Some a4 /\ holds q a4) /\ (~ distinct rows -> e = None).
  Proof.
    unfold equivalent. destruct (filter _ rows) as [|q qs] eqn:Ef; [discriminate|].
    assert (Hq : In q rows /\ four_bins q && same_at (tl index_cols) q r = true) by (apply (proj1 (filter_In (fun r' => four_bins r' && same_at (tl index_cols) r' r) q _)); rewrite Ef; left; reflexivity).
    destruct Hq as [Hq Ht]. apply Bool.andb_true_iff in Ht. destruct Ht as [H4 Hs]. intros E. exists q. split; [exact Hq|]. split; [split; [apply four_iff; exact H4|apply (proj1 (same_at_iff _ _ _) Hs)]|].
    destruct (distinct_rows rows) eqn:Ed; (split; [intros Hd|intros Hd]).
    - destruct (row_analysis q) as [a4|] eqn:Ea; [|discriminate]. cbn [rbind] in E. injection E as <-. exists a4. split; [reflexivity|]. apply row_an_iff. exact Ea.
    - exfalso. apply Hd. apply distinct_iff. exact Ed.
    - apply distinct_iff in Hd. congruence.
    - congruence.
  Qed.
  Lemma replaced_hybrid a4 (a a' : analysis F) : replaced (dkeys (an_fishers a)) a4 a a' -> hybrid a4 a a'.
  Proof.
    intros R. destruct R. unfold hybrid. split; [exact rp_base0|]. split; [exact rp_fid0|]. split; [exact rp_order0|]. split; [exact rp_flag0|]. split; [exact rp_rel0|]. split; [apply rp_keys0; auto|].
    assert (Z1 : forall n, In n (dkeys (an_fishers a)) -> spectro n -> smem n (dkeys (an_fishers a)) && pk n = true).
    { intros n A B. apply Bool.andb_true_iff. split; [apply smem_In; exact A|apply spectro_iff; exact B]. }
    assert (Z2 : forall n, ~ (In n (dkeys (an_fishers a)) /\ spectro n) -> smem n (dkeys (an_fishers a)) && pk n = false).
    { intros n H. destruct (smem n (dkeys (an_fishers a)) && pk n) eqn:E; [|reflexivity]. exfalso. apply H. apply Bool.andb_true_iff in E. destruct E as [A B]. split; [apply smem_In; exact A|apply spectro_iff; exact B]. }
    split; [|split].
    - intros n A B. destruct (rp_there0 n A (proj2 (spectro_iff n) B)) as (x & _ & _ & X & _). exists x. split; [exact X|]. rewrite rp_fishers0, Z1 by assumption. exact X.
    - intros n A. rewrite rp_fishers0, Z2 by tauto. reflexivity.
    - destruct (an_errs a) as [t|] eqn:Et.
      + destruct (rp_errs0 t eq_refl) as (t' & -> & A & B). split; [exact A|]. split.
        * intros n c G H. destruct (rp_there0 n G (proj2 (spectro_iff n) H)) as (_ & t4 & r & _ & T4 & Gr). exists t4. split; [exact T4|]. split.
          -- destruct (dget String.eqb t4 n) eqn:X; [|discriminate]. apply (dget_In _ String.eqb_spec) in X. apply (in_map fst) in X. exact X.
          -- rewrite B, Z1 by assumption. rewrite T4. reflexivity.
        * intros n c H. rewrite B, Z2 by exact H. reflexivity.
      + rewrite (rp_none0 eq_refl). intros n A B. apply rp_table0; [|reflexivity]. exists n. split; [exact A|apply spectro_iff; exact B].
  Qed.
  Lemma Forall2_nth {A B} (R : A -> B -> Prop) l : forall l', length l = length l' -> (forall i x, nth_error l i = Some x -> exists y, nth_error l' i = Some y /\ R x y) -> Forall2 R l l'.
  Proof.
    induction l as [|x l IH]; intros [|y l'] L H; cbn in L; try lia; [constructor|]. constructor.
    - destruct (H 0%nat x eq_refl) as (z & E & G). cbn in E. injection E as <-. exact G.
    - apply IH; [lia|]. intros i z E. apply (H (Datatypes.S i) z E).
  Qed.
  Lemma Forall2_impl {A B} (R Q : A -> B -> Prop) l l' : (forall x y, R x y -> Q x y) -> Forall2 R l l' -> Forall2 Q l l'.
  Proof. intros H. induction 1; constructor; auto. Qed.
  Lemma Forall2_len {A B} (R : A -> B -> Prop) l l' : Forall2 R l l' -> length l = length l'.
  Proof. induction 1; cbn; congruence. Qed.
  Lemma kept_all rows : Forall2 kept rows rows.
  Proof. induction rows; constructor; [apply kept_refl|assumption]. Qed.
  Lemma replace_ok_inv f f' : replace_hybrid f = (f', Ok tt) ->
    fr_indexed f = false /\ incl index_cols (fr_cols f) /\ fr_indexed f' = false /\ (forall c, In c (fr_cols f') <-> In c (fr_cols f)) /\ Forall2 (step (fr_rows f)) (fr_rows f) (fr_rows f').
  Proof.
    unfold replace_hybrid. destruct (fr_indexed f) eqn:Ei; [intros [=]|]. destruct (subsetb index_cols (fr_cols f)) eqn:Es; cbn [orb negb]; [|intros [=]]. pose proof (proj1 (subsetb_spec _ _) Es) as Hs.
    destruct (replace_rows _ _) as [rows [[]|e]] eqn:Er; intros [= <-]. cbn [fr_indexed fr_cols fr_rows].
    split; [reflexivity|]. split; [exact Hs|]. split; [reflexivity|]. split.
    - intros c. change (In c (index_cols ++ filter (fun c => negb (smem c index_cols)) (fr_cols f)) <-> In c (fr_cols f)). rewrite in_app_iff, filter_In, Bool.negb_true_iff, smem_false. destruct (in_dec string_dec c index_cols) as [H|H]; [|tauto]. split; [intros _; apply Hs; exact H|auto].
    - destruct (replace_rows_spec (fr_rows f) _ _ _ (seq_NoDup _ _) (kept_all _) (fun _ _ => eq_refl) Er) as (R & _ & H). apply Forall2_nth; [apply Forall2_len in R; exact R|].
      intros i r Ern. apply H; [|exact Ern]. apply in_seq. assert (i < length (fr_rows f))%nat by (apply nth_error_Some; congruence). lia.
  Qed.
  (** Forecasts that differ in one of the five options: the ones with four bins are
      left alone, each other one takes the matrices and the errors of the one with
      four bins where the name contains Pk, and nothing else changes. *)
  Theorem C111_replaced f f' : distinct (fr_rows f) -> replace_hybrid f = (f', Ok tt) ->
    fr_indexed f' = false /\ (forall c, In c (fr_cols f') <-> In c (fr_cols f)) /\
    Forall2 (fun r r' => (forall k, k <> "analysis" -> dget String.eqb r' k = dget String.eqb r k) /\ (has4 r -> r' = r) /\
      (~ has4 r -> exists q a4 a a', In q (fr_rows f) /\ twin q r /\ holds q a4 /\ holds r a /\ holds r' a' /\ hybrid a4 a a')) (fr_rows f) (fr_rows f').
  Proof.
    intros Hd E. destruct (replace_ok_inv _ _ E) as (_ & _ & A & B & C). split; [exact A|]. split; [exact B|]. eapply Forall2_impl; [|exact C]. cbv beta. intros r r' St.
    destruct (step_kept _ _ _ St) as [K1 K2]. split; [exact K1|]. split; [intros H; apply K2, four_iff; exact H|]. intros N4. unfold step in St.
    destruct (four_bins r) eqn:E4; [exfalso; apply N4, four_iff; exact E4|]. destruct St as (e & a & a' & Ee & Ea & En & ->). destruct (equivalent_some _ _ _ Ee) as (q & Hq & Tw & He & _). destruct (He Hd) as (a4 & -> & H4).
    exists q, a4, a, a'. split; [exact Hq|]. split; [exact Tw|]. split; [exact H4|]. split; [apply row_an_iff; exact Ea|]. split; [unfold holds; apply (dget_dset_same _ String.eqb_spec)|].
    apply replaced_hybrid, replace_names_spec. exact En.
  Qed.
  (** The relative errors are not replaced: where the error of a parameter changes,
      the table of relative errors does not fit the table of errors any more. *)
  Lemma fabs_inj (x y v : F) : fle fz x -> fle fz y -> x <> y -> (if fdec v fz then fabs x else fabs (fdiv x v)) <> (if fdec v fz then fabs y else fabs (fdiv y v)).
  Proof.
    intros Hx Hy N. assert (P : forall z, fle fz z -> fabs z = z) by (intros z Hz; unfold fabs; destruct (fle_dec fz z); [reflexivity|contradiction]).
    destruct (fdec v fz) as [_|Nv]; [rewrite !P by assumption; exact N|]. intros E.
    assert (Q : x = y \/ x = fopp y).
    { unfold fabs in E. destruct (fle_dec fz (fdiv x v)), (fle_dec fz (fdiv y v)).
      - left. transitivity (fmul (fdiv x v) v); [field; exact Nv|]. rewrite E. field; exact Nv.
      - right. transitivity (fmul (fdiv x v) v); [field; exact Nv|]. rewrite E. field; exact Nv.
      - right. transitivity (fopp (fmul (fopp (fdiv x v)) v)); [field; exact Nv|]. rewrite E. field; exact Nv.
      - left. transitivity (fopp (fmul (fopp (fdiv x v)) v)); [field; exact Nv|]. rewrite E. field; exact Nv. }
    destruct Q as [Q|Q]; [exact (N Q)|]. apply N.
    assert (X : fle x fz). { apply (fle_add _ _ (fopp y)) in Hy. replace (fadd fz (fopp y)) with x in Hy by (rewrite Q; ring). replace (fadd y (fopp y)) with fz in Hy by ring. exact Hy. }
    assert (Z : x = fz) by (apply fle_antisym; assumption). transitivity (fopp (fopp y)); [|ring]. rewrite <- Q, Z. ring.
  Qed.
  Theorem C111_stale_refuted f f' i r r' a a4 t t4 n p x y v : distinct (fr_rows f) -> replace_hybrid f = (f', Ok tt) ->
    nth_error (fr_rows f) i = Some r -> nth_error (fr_rows f') i = Some r' -> ~ has4 r -> holds r a -> (forall q, In q (fr_rows f) -> twin q r -> holds q a4) ->
    an_errs a = Some t -> an_rel a = Some (rel_table (an_fid a) t) -> an_errs a4 = Some t4 ->
    In n (dkeys (an_fishers a)) -> spectro n -> p <> "FoM" -> dget String.eqb (an_fid a) p = Some v ->
    t_cell t n p = Some x -> t_cell t4 n p = Some y -> fle fz x -> fle fz y -> x <> y ->
    exists a' e' r', holds r' a' /\ nth_error (fr_rows f') i = Some r' /\ an_errs a' = Some e' /\ t_cell e' n p = Some y /\
      exists d, an_rel a' = Some d /\ t_cell d n p = t_cell (rel_table (an_fid a) t) n p /\ t_cell d n p <> t_cell (rel_table (an_fid a') e') n p.
  Proof.
    intros Hd E Er Er' N4 Ha H4 Et Rt Et4 Hn Sn Np Fv Cx Cy Px Py Nxy. destruct (C111_replaced f f' Hd E) as (_ & _ & R).
    assert (G : forall (P : frow (F := F) -> frow (F := F) -> Prop) l l', Forall2 P l l' -> forall j u w, nth_error l j = Some u -> nth_error l' j = Some w -> P u w).
    { clear. intros P l l' H. induction H as [|u w l l' Hp H IH]; intros [|j] u' w' A B; cbn in *; try discriminate; [congruence|eauto]. }
    pose proof (G _ _ _ R i r r' Er Er') as Q. destruct Q as (_ & _ & Q). destruct (Q N4) as (q & b4 & b & a' & Hq & Tw & Hb4 & Hb & Ha' & Hy).
    assert (b = a) by (unfold holds in *; congruence). subst b. assert (b4 = a4) by (specialize (H4 q Hq Tw); unfold holds in *; congruence). subst b4.
    destruct Hy as (_ & Fi & _ & _ & Rl & _ & _ & _ & Te). rewrite Et in Te. destruct (an_errs a') as [e'|] eqn:Ee; [|contradiction]. destruct Te as (_ & Te & _).
    destruct (Te n p Hn Sn) as (t4' & T4 & _ & C). assert (t4' = t4) by congruence. subst t4'.
    assert (Sm : smem p (t_cols t) = true). { apply smem_In. destruct (cell_in t n p x Cx) as (ro & A & B). apply (t_cols_in t n ro p (Some x)); [apply (dget_In _ String.eqb_spec); exact A|exact B]. }
    rewrite Sm, Cy in C. exists a', e', r'. split; [exact Ha'|]. split; [exact Er'|]. split; [exact Ee|]. split; [exact C|].
    exists (rel_table (an_fid a) t). split; [congruence|]. split; [reflexivity|]. rewrite Fi, (rel_par (an_fid a) t n p x v Np Cx Fv), (rel_par (an_fid a) e' n p y v Np C Fv).
    intros [= X]. exact (fabs_inj x y v Px Py Nxy X).
  Qed.

  Definition indexable (f : frame F) : Prop := fr_indexed f = false /\ forall c, In c ("n_sp_bins" :: others) -> In c (fr_cols f).
  Lemma outcome f : exists o, snd (replace_hybrid f) = o /\ match o with Ok _ => exists f', replace_hybrid f = (f', Ok tt) | Err _ => True end.
  Proof. exists (snd (replace_hybrid f)). split; [reflexivity|]. destruct (replace_hybrid f) as [f' [[]|e]]; cbn; eauto. Qed.
  (** A forecast without the one with four bins: an error. *)
  Theorem C111_missing f r : In r (fr_rows f) -> ~ has4 r -> (forall q, In q (fr_rows f) -> ~ twin q r) -> exists e, snd (replace_hybrid f) = Err e.
  Proof.
    intros Hr N4 H. destruct (outcome f) as ([u|e] & Eo & G); [|eauto]. exfalso. destruct G as (f' & E). destruct (replace_ok_inv _ _ E) as (_ & _ & _ & _ & R).
    apply (In_nth_error) in Hr. destruct Hr as (i & Er). assert (Q : exists r', step (fr_rows f) r r').
    { clear -R Er. revert R Er. generalize (step (fr_rows f)). intros P R. revert i. induction R as [|u w l l' Hp R IH]; intros [|i] Er; cbn in Er; try discriminate; [injection Er as ->; eauto|eauto]. }
    destruct Q as (r' & St). unfold step in St. destruct (four_bins r) eqn:E4; [exact (N4 (proj1 (four_iff r) E4))|]. destruct St as (e & _ & _ & Ee & _). destruct (equivalent_some _ _ _ Ee) as (q & Hq & Tw & _). exact (H q Hq Tw).
  Qed.
  (** Two rows with the same five options (any two, also not concerned): an error as
      soon as there is a matrix to be replaced. *)
  Theorem C111_duplicates f r a n : ~ distinct (fr_rows f) -> In r (fr_rows f) -> ~ has4 r -> holds r a -> In n (dkeys (an_fishers a)) -> spectro n -> exists e, snd (replace_hybrid f) = Err e.
  Proof.
    intros Hd Hr N4 Ha Hn Sn. destruct (outcome f) as ([u|e] & Eo & G); [|eauto]. exfalso. destruct G as (f' & E). destruct (replace_ok_inv _ _ E) as (_ & _ & _ & _ & R).
    apply (In_nth_error) in Hr. destruct Hr as (i & Er). assert (Q : exists r', step (fr_rows f) r r').
    { clear -R Er. revert R Er. generalize (step (fr_rows f)). intros P R. revert i. induction R as [|u w l l' Hp R IH]; intros [|i] Er; cbn in Er; try discriminate; [injection Er as ->; eauto|eauto]. }
    destruct Q as (r' & St). unfold step in St. destruct (four_bins r) eqn:E4; [exact (N4 (proj1 (four_iff r) E4))|]. destruct St as (e & b & a' & Ee & Eb & En & _). destruct (equivalent_some _ _ _ Ee) as (q & Hq & Tw & _ & He).
    rewrite (He Hd) in En. apply row_an_iff in Eb. assert (b = a) by (unfold holds in *; congruence). subst b. destruct (replace_names_none _ _ _ En) as [_ X]. specialize (X n Hn). apply spectro_iff in Sn. congruence.
  Qed.
  (** Sufficient conditions of success. *)
  Theorem C111_succeeds f : indexable f -> distinct (fr_rows f) ->
    (forall r, In r (fr_rows f) -> exists a, holds r a) ->
    (forall r a, In r (fr_rows f) -> ~ has4 r -> holds r a -> (exists q, In q (fr_rows f) /\ twin q r) /\
      forall q a4 n, In q (fr_rows f) -> twin q r -> holds q a4 -> In n (dkeys (an_fishers a)) -> spectro n ->
        In n (dkeys (an_fishers a4)) /\ an_errs a <> None /\ exists t4, an_errs a4 = Some t4 /\ In n (dkeys t4)) ->
    exists f', replace_hybrid f = (f', Ok tt).
  Proof.
    intros [Hi Hc] Hd Hall H. unfold replace_hybrid. rewrite Hi. assert (Sb : subsetb index_cols (fr_cols f) = true) by (apply subsetb_spec; exact Hc). rewrite Sb. cbn [orb negb].
    destruct (replace_rows_ok (fr_rows f) (seq 0 (length (fr_rows f))) (fr_rows f) (seq_NoDup _ _) (kept_all _) (fun _ _ => eq_refl)) as (rows & ->); [|eauto].
    intros i r _ Er. apply nth_error_In in Er. destruct (four_bins r) eqn:E4; [exists r; unfold step; rewrite E4; reflexivity|].
    assert (N4 : ~ has4 r) by (intros G; apply four_iff in G; congruence). destruct (Hall r Er) as (a & Ha). destruct (H r a Er N4 Ha) as ((q0 & Hq0 & Tw0) & Hcond).
    assert (Ee : exists q a4, equivalent (fr_rows f) r = Ok (Some a4) /\ In q (fr_rows f) /\ twin q r /\ holds q a4).
    { unfold equivalent. destruct (filter _ (fr_rows f)) as [|q qs] eqn:Ef.
      - exfalso. assert (X : In q0 (filter (fun r' => four_bins r' && same_at (tl index_cols) r' r) (fr_rows f))).
        { apply filter_In. split; [exact Hq0|]. apply Bool.andb_true_iff. destruct Tw0 as [A B]. split; [apply four_iff; exact A|apply same_at_iff; exact B]. }
        rewrite Ef in X. exact X.
      - assert (Hq : In q (fr_rows f) /\ four_bins q && same_at (tl index_cols) q r = true) by (apply (proj1 (filter_In (fun r' => four_bins r' && same_at (tl index_cols) r' r) q _)); rewrite Ef; left; reflexivity). destruct Hq as [Hq Ht]. apply Bool.andb_true_iff in Ht. destruct Ht as [H4 Hs].
        rewrite (proj2 (distinct_iff _) Hd). destruct (Hall q Hq) as (a4 & Ha4). rewrite (proj2 (row_an_iff q a4) Ha4). exists q, a4. split; [reflexivity|]. split; [exact Hq|]. split; [|exact Ha4]. split; [apply four_iff; exact H4|apply same_at_iff; exact Hs]. }
    destruct Ee as (q & a4 & Ee & Hq & Tw & Ha4). destruct (replace_names_ok (dkeys (an_fishers a)) a4 a) as (a' & En).
    { intros n Hn Pn. apply spectro_iff in Pn. destruct (Hcond q a4 n Hq Tw Ha4 Hn Pn) as (A & B & t4 & C & D). split; [intros X; apply (dget_None _ String.eqb_spec) in X; contradiction|]. split; [exact B|]. exists t4. split; [exact C|]. intros X; apply (dget_None _ String.eqb_spec) in X; contradiction. }
    exists (dset String.eqb r "analysis" (FAn a')). unfold step. rewrite E4. exists (Some a4), a, a'. split; [exact Ee|]. split; [apply row_an_iff; exact Ha|]. split; [exact En|reflexivity].
  Qed.
  (** After an error the five options stay in the index: calling again gives KeyError
      and changes nothing. *)
  Theorem C111_failed_again f f' e : indexable f -> replace_hybrid f = (f', Err e) -> fr_indexed f' = true /\ replace_hybrid f' = (f', Err EKeyError).
  Proof.
    intros [Hi Hc] E. unfold replace_hybrid in E. rewrite Hi in E. assert (Sb : subsetb index_cols (fr_cols f) = true) by (apply subsetb_spec; exact Hc). rewrite Sb in E. cbn [orb negb] in E.
    destruct (replace_rows _ _) as [rows [[]|x]]; [discriminate|]. injection E as <- _. split; reflexivity.
  Qed.

  (** ** Choosing *)
  (** Numbers and truth values choose the rows with equal values, in their order. *)
  Theorem C111_select sel f : sel <> [] -> (forall k v, In (k, v) sel -> In k (fr_cols f) /\ forall s, v <> SStr s) ->
    exists p, (forall r, p r = true <-> forall k v, In (k, v) sel -> exists w, dget String.eqb r k = Some (FOpt w) /\ same_scalar w v) /\ sub_frame sel f = Ok (filter p (fr_rows f)).
  Proof.
    intros Hs H. exists (fulfils sel). split.
    - intros r. unfold fulfils. rewrite forallb_forall. split.
      + intros G k v Hkv. specialize (G (k, v) Hkv). cbn [fst snd] in G. apply fcell_iff in G. destruct G as (w & u & A & B & C). exists w. split; [exact A|].
        assert (E : meant r v = Some (FOpt v)) by (destruct v; try reflexivity; destruct (H k _ Hkv) as [_ X]; destruct (X _ eq_refl)). rewrite E in B. injection B as <-. exact C.
      + intros G [k v] Hkv. cbn [fst snd]. apply fcell_iff. destruct (G k v Hkv) as (w & A & C). exists w, v. split; [exact A|]. split; [|exact C].
        destruct v; try reflexivity. destruct (H k _ Hkv) as [_ X]. destruct (X _ eq_refl).
    - unfold sub_frame. destruct sel as [|kv sel]; [congruence|]. assert (E : forallb (known (fr_cols f)) (kv :: sel) = true); [|rewrite E; reflexivity].
      apply forallb_forall. intros [k v] Hkv. unfold known. cbn [fst snd]. destruct (H k v Hkv) as [A B]. rewrite (proj2 (smem_In _ _) A). destruct v; try reflexivity. destruct (B _ eq_refl).
  Qed.
  (** A text, as the scenario is, is read as the name of a column: it never chooses
      the rows with that text. *)
  Theorem C111_select_text_refuted sel f k s : In (k, SStr s) sel -> ~ In s (fr_cols f) -> forall names, sub_analyses sel names f = Err EException.
  Proof.
    intros H N names. unfold sub_analyses, sub_frame. destruct sel as [|kv sel]; [contradiction|].
    assert (E : forallb (known (fr_cols f)) (kv :: sel) = false); [|rewrite E; reflexivity].
    destruct (forallb (known (fr_cols f)) (kv :: sel)) eqn:E; [|reflexivity]. exfalso. rewrite forallb_forall in E. specialize (E _ H). unfold known in E. cbn [fst snd] in E. apply Bool.andb_true_iff in E. destruct E as [_ E]. apply smem_In in E. contradiction.
  Qed.
  (** Names of matrices cut the chosen analyses down and leave the options. *)
  Theorem C111_select_names sel ns f rows : sub_analyses sel (Some ns) f = Ok rows -> exists chosen, sub_analyses sel None f = Ok chosen /\
    Forall2 (fun r r' => (forall k, k <> "analysis" -> dget String.eqb r' k = dget String.eqb r k) /\ exists a a', holds r a /\ subset_analysis ns a = Ok a' /\ holds r' a') chosen rows.
  Proof.
    unfold sub_analyses. destruct (sub_frame sel f) as [ch|]; [|discriminate]. cbn [rbind]. intros E. exists ch. split; [reflexivity|].
    apply EllLemmas.rmapM_Forall2 in E. eapply Forall2_impl; [|exact E]. cbv beta. intros r r' G. destruct (row_analysis r) as [a|] eqn:Ea; [|discriminate]. cbn [rbind] in G. destruct (subset_analysis ns a) as [a'|] eqn:Es; [|discriminate]. cbn [rbind] in G. injection G as <-.
    split; [intros k Hk; apply (dget_dset_other _ String.eqb_spec); congruence|]. exists a, a'. split; [apply row_an_iff; exact Ea|]. split; [exact Es|]. unfold holds. apply (dget_dset_same _ String.eqb_spec).
  Qed.

  (** ** The table of all errors *)
  Lemma fold_opts (os : @opts F) : forall (d : cells (F := F)) k, NoDup (dkeys os) ->
    dget String.eqb (fold_left (fun d kv => dset String.eqb d (fst kv) (COpt (snd kv))) os d) k = match dget String.eqb os k with Some v => Some (COpt v) | None => dget String.eqb d k end.
  Proof.
    induction os as [|[x v] os IH]; intros d k N; [reflexivity|]. inversion N as [|? ? Nx N']; subst. cbn [fold_left fst snd dget]. rewrite IH by exact N'. destruct (String.eqb_spec x k) as [->|Hx].
    - destruct (dget String.eqb os k) as [w|] eqn:E; [|apply (dget_dset_same _ String.eqb_spec)]. exfalso. apply Nx. apply (dget_In _ String.eqb_spec) in E. apply (in_map fst) in E. exact E.
    - destruct (dget String.eqb os k); [reflexivity|]. apply (dget_dset_other _ String.eqb_spec). congruence.
  Qed.
  Definition opts_of (r : frow (F := F)) : @opts F := flat_map (fun kc => match snd kc with FOpt v => if String.eqb (fst kc) "analysis" then [] else [(fst kc, v)] | FAn _ => [] end) r.
  Lemma opts_keys (r : frow (F := F)) k : In k (dkeys (opts_of r)) -> In k (dkeys r).
  Proof.
    unfold dkeys, opts_of. induction r as [|[x c] r IH]; [intros []|]. cbn [flat_map fst snd map]. rewrite map_app, in_app_iff. intros [H|H]; [|right; apply IH; exact H].
    destruct c; [destruct (String.eqb x "analysis"); [destruct H|destruct H as [H|[]]; left; exact H]|destruct H].
  Qed.
  Lemma opts_nodup (r : frow (F := F)) : NoDup (dkeys r) -> NoDup (dkeys (opts_of r)).
  Proof.
    induction r as [|[x c] r IH]; intros N; [constructor|]. inversion N as [|? ? Nx N']; subst. specialize (IH N'). unfold opts_of. cbn [flat_map fst snd]. fold (opts_of r).
    destruct c; [destruct (String.eqb x "analysis"); [exact IH|]|exact IH]. cbn. constructor; [|exact IH]. intros H. apply Nx. apply opts_keys. exact H.
  Qed.
  Lemma opts_get (r : frow (F := F)) k : NoDup (dkeys r) -> dget String.eqb (opts_of r) k = if String.eqb k "analysis" then None else match dget String.eqb r k with Some (FOpt v) => Some v | _ => None end.
  Proof.
    induction r as [|[x c] r IH]; intros N; [destruct (String.eqb k "analysis"); reflexivity|]. inversion N as [|? ? Nx N']; subst. specialize (IH N').
    assert (Z : x = k -> dget String.eqb (opts_of r) k = None). { intros ->. apply (dget_None _ String.eqb_spec). intros H. apply Nx. apply opts_keys. exact H. }
    unfold opts_of. cbn [flat_map fst snd dget]. fold (opts_of r). destruct c as [v|a].
    - destruct (String.eqb_spec x "analysis") as [->|Ha]; cbn [app dget].
      + destruct (String.eqb_spec "analysis" k) as [<-|Hk]; [rewrite Z; reflexivity|exact IH].
      + destruct (String.eqb_spec x k) as [<-|Hk]; [destruct (String.eqb_spec x "analysis"); [contradiction|reflexivity]|exact IH].
    - cbn [app]. destruct (String.eqb_spec x k) as [<-|Hk]; [rewrite Z by reflexivity; destruct (String.eqb x "analysis"); reflexivity|exact IH].
  Qed.
  Lemma cells_get (t : table (F := F)) n l c : dget String.eqb (flat_map (fun c => match t_cell t n c with Some x => [(c, CNum x)] | None => [] end) l) c = if smem c l then option_map (CNum (F := F)) (t_cell t n c) else None.
  Proof.
    induction l as [|x l IH]; [reflexivity|]. cbn [flat_map]. rewrite smem_cons. destruct (String.eqb_spec c x) as [->|Hx]; cbn [orb].
    - destruct (t_cell t n x) as [y|] eqn:E; cbn [app dget option_map]; [rewrite String.eqb_refl; reflexivity|]. rewrite IH, ?E. destruct (smem x l); reflexivity.
    - destruct (t_cell t n x) as [y|] eqn:E; cbn [app dget]; [|exact IH]. destruct (String.eqb_spec x c); [congruence|exact IH].
  Qed.
  (** Blocks in the order of the frame, one row per matrix, with the errors of that
      matrix and the options of its forecast; an option hides a column of errors. *)
  Theorem C111_tables rel f rows : (forall r, In r (fr_rows f) -> NoDup (dkeys r)) -> errors_of_frame rel f = Ok rows -> exists blocks, rows = concat blocks /\
    Forall2 (fun r b => exists a t, holds r a /\ (if rel then an_rel a else an_errs a) = Some t /\ map fst b = dkeys t /\
      forall n cs, In (n, cs) b -> forall c, dget String.eqb cs c =
        match (if String.eqb c "analysis" then None else dget String.eqb r c) with Some (FOpt v) => Some (COpt v) | _ => option_map (CNum (F := F)) (t_cell t n c) end) (fr_rows f) blocks.
  Proof.
    intros ND E. unfold errors_of_frame in E. destruct (fr_rows f) as [|r0 rs] eqn:Ef; [discriminate|]. rewrite <- Ef in E |- *. assert (ND' : forall r, In r (fr_rows f) -> NoDup (dkeys r)) by (rewrite Ef; exact ND). clear ND.
    destruct (rmapM (analysis_rows rel) (fr_rows f)) as [ls|] eqn:Er; [|discriminate]. cbn [rbind] in E. injection E as <-. exists ls. split; [reflexivity|]. apply EllLemmas.rmapM_Forall2 in Er.
    revert ND' Er. generalize (fr_rows f). clear. intros rs ND' Er. induction Er as [|r b rs bs H R IH]; constructor; [|apply IH; intros x Hx; apply ND'; right; exact Hx].
    assert (ND := ND' r (or_introl eq_refl)). clear -H ND. unfold analysis_rows in H. destruct (row_analysis r) as [a|] eqn:Ea; [|discriminate]. cbn [rbind] in H. destruct (if rel then an_rel a else an_errs a) as [t|] eqn:Et; [|discriminate]. injection H as <-.
    exists a, t. split; [apply row_an_iff; exact Ea|]. split; [exact Et|]. split; [rewrite map_map; reflexivity|]. intros n cs Hin c. apply in_map_iff in Hin. destruct Hin as ([n' row] & Eq & Hin). cbn [fst] in Eq. injection Eq as <- <-.
    fold (opts_of r). rewrite fold_opts by (apply opts_nodup; exact ND). rewrite opts_get by exact ND. rewrite cells_get.
    assert (Z : (if smem c (t_cols t) then option_map (CNum (F := F)) (t_cell t n' c) else None) = option_map (CNum (F := F)) (t_cell t n' c)).
    { destruct (smem c (t_cols t)) eqn:Sm; [reflexivity|]. destruct (t_cell t n' c) as [x|] eqn:Ex; [|reflexivity]. exfalso. apply smem_false in Sm. apply Sm. destruct (cell_in t n' c x Ex) as (ro & A & B). apply (t_cols_in t n' ro c (Some x)); [apply (dget_In _ String.eqb_spec); exact A|exact B]. }
    rewrite Z. destruct (String.eqb c "analysis"); [reflexivity|]. destruct (dget String.eqb r c) as [[v|x]|]; reflexivity.
  Qed.

  (** ** Loading *)
  (** An analysis that is loaded has both tables; those it had are kept. *)
  Theorem C111_complete an an' (h h' : heap F) : complete an h = (h', Ok an') -> exists te tr, an_errs an' = Some te /\ an_rel an' = Some tr /\
    an_fishers an' = an_fishers an /\ an_fid an' = an_fid an /\
    (forall t, an_errs an = Some t -> h' = h /\ te = t /\ tr = match an_rel an with Some d => d | None => rel_table (an_fid an) t end) /\
    (an_errs an = None -> tr = rel_table (an_fid an) te).
  Proof.
    unfold complete, bind. destruct (an_errs an) as [t|] eqn:Ee.
    - cbn [ret]. destruct (an_rel an) as [d|] eqn:Er.
      + intros [= <- <-]. exists t, d. split; [exact Ee|]. split; [exact Er|]. split; [reflexivity|]. split; [reflexivity|]. split; [|discriminate]. intros t0 [= <-]. auto.
      + unfold of_res, eval_rel. rewrite Ee. intros [= <- <-]. cbn. exists t, (rel_table (an_fid an) t). split; [reflexivity|]. split; [reflexivity|]. split; [reflexivity|]. split; [reflexivity|]. split; [|discriminate]. intros t0 [= <-]. auto.
    - destruct (eval_errors an h) as [h1 [a1|e]] eqn:E1; [|discriminate]. unfold eval_errors in E1. destruct (an_fishers an) as [|x l] eqn:Ef; [discriminate|]. rewrite <- Ef in E1. unfold bind at 1 in E1.
      destruct (map_each _ _ h) as [h2 [t|e]]; [|discriminate]. cbn in E1. injection E1 as <- <-. cbn. intros [= <- <-]. exists t, (rel_table (an_fid an) t). cbn. split; [reflexivity|]. split; [reflexivity|]. split; [congruence|]. split; [reflexivity|]. split; [discriminate|reflexivity].
  Qed.
End Props.

(** A forecast with twelve bins takes the matrix called GCsp(Pk) of the one with four. *)
From Coq Require Import QArith Qcanon.
Close Scope Qc_scope. Close Scope Q_scope.
Open Scope string_scope. Open Scope list_scope.
Definition ex_an (base : nat) (x : Z) : analysis Qc :=
  let t := [("WL", [("h", Some (qz x))]); ("GCsp(Pk)", [("h", Some (qz (x + 1)))])] in
  mkAn None [("WL", base); ("GCsp(Pk)", Datatypes.S base)] None [("h", qz 2)] (Some t) (Some (rel_table [("h", qz 2)] t)) false.
Definition ex_frow (n : Z) (a : analysis Qc) : frow (F := Qc) :=
  [("n_sp_bins", FOpt (SInt n)); ("scenario", FOpt (SStr "optimistic")); ("shot_noise_sp_reduced", FOpt (SBool false));
   ("gcph_minus_gcsp", FOpt (SBool true)); ("gcph_only_bins_in_spectro_range", FOpt (SBool false)); ("analysis", FAn a)].
Definition ex_frame (l : list (frow (F := Qc))) : frame Qc := mkFrame false (index_cols ++ ["analysis"]) l.
Definition ex_result (r : frame Qc * res unit) : list (option (list (string * nat) * option (list (string * list (string * option Qc))))) * res unit :=
  (map (fun r => match row_analysis r with Ok a => Some (an_fishers a, an_errs a) | Err _ => None end) (fr_rows (fst r)), snd r).
Example C111_instance :
  ex_result (replace_hybrid (ex_frame [ex_frow 12 (ex_an 7 30); ex_frow 4 (ex_an 3 50)])) =
    ([Some ([("WL", 7%nat); ("GCsp(Pk)", 4%nat)], Some [("WL", [("h", Some (qz 30))]); ("GCsp(Pk)", [("h", Some (qz 51))])]);
      Some ([("WL", 3%nat); ("GCsp(Pk)", 4%nat)], Some [("WL", [("h", Some (qz 50))]); ("GCsp(Pk)", [("h", Some (qz 51))])])], Ok tt) /\
  snd (replace_hybrid (ex_frame [ex_frow 12 (ex_an 7 30)])) = Err EKeyError /\
  snd (replace_hybrid (ex_frame [ex_frow 12 (ex_an 7 30); ex_frow 4 (ex_an 3 50); ex_frow 4 (ex_an 3 50)])) = Err EAttributeError.
Proof. split; [|split]; vm_compute; reflexivity. Qed.
Example C111_stale_instance : let a := ex_an 7 30 in let f := ex_frame [ex_frow 12 a; ex_frow 4 (ex_an 3 50)] in
  match nth_error (fr_rows (fst (replace_hybrid f))) 0 with
  | Some r => match row_analysis r with
              | Ok a' => match an_rel a', an_errs a' with
                         | Some d, Some t => t_cell d "GCsp(Pk)" "h" = Some (qq 31 2) /\ t_cell (rel_table (an_fid a') t) "GCsp(Pk)" "h" = Some (qq 51 2)
                         | _, _ => False
                         end
              | Err _ => False
              end
  | None => False
  end.
Proof. vm_compute. split; reflexivity. Qed.
Example C111_select_instance : let f := ex_frame [ex_frow 12 (ex_an 7 30); ex_frow 4 (ex_an 3 50)] in
  rmap (map (fun r => dget String.eqb r "n_sp_bins")) (sub_frame [("n_sp_bins", SInt 4); ("gcph_minus_gcsp", SBool true)] f) = Ok [Some (FOpt (SInt 4))] /\
  sub_frame [("scenario", SStr "optimistic")] f = Err EException /\
  rmap (map fst) (errors_of_frame false f) = Ok ["WL"; "GCsp(Pk)"; "WL"; "GCsp(Pk)"].
Proof. split; [|split]; vm_compute; reflexivity. Qed.

Print Assumptions C111_frame.
Print Assumptions C111_frame_success.
Print Assumptions C111_frame_order_refuted.
Print Assumptions C111_replaced.
Print Assumptions C111_stale_refuted.
Print Assumptions C111_missing.
Print Assumptions C111_duplicates.
Print Assumptions C111_succeeds.
Print Assumptions C111_failed_again.
Print Assumptions C111_select.
Print Assumptions C111_select_text_refuted.
Print Assumptions C111_select_names.
Print Assumptions C111_tables.
Print Assumptions C111_complete.
