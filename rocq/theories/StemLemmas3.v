(** The derivatives of the in-memory pipeline. *)
From Verif Require Import Base SortLib ParamModel EvalModel EvalSpec EllLemmas OrdLib ParamFileModel StemModel ParamLemmas ParamLemmas2 StemLemmas
  NameLemmas.
From Coq Require Import Field Sorted Permutation.
Open Scope list_scope.

Lemma rmapM_nth {A B} (f : A -> res B) l ys n a : rmapM f l = Ok ys -> nth_error l n = Some a ->
  exists b, nth_error ys n = Some b /\ f a = Ok b.
Proof.
  revert ys n. induction l as [|x l IH]; intros ys n H E; [destruct n; discriminate|]. cbn [rmapM] in H.
  destruct (f x) as [y|] eqn:Ef; [|discriminate]. cbn [rbind] in H. destruct (rmapM f l) as [zs|] eqn:Er; [|discriminate]. cbn [rbind] in H.
  injection H as <-. destruct n as [|n]; cbn [nth_error] in *; [injection E as <-; eauto|]. apply IH; [reflexivity|exact E].
Qed.
Lemma rmapM_length {A B} (f : A -> res B) l ys : rmapM f l = Ok ys -> length ys = length l.
Proof.
  revert ys. induction l as [|x l IH]; intros ys H; cbn [rmapM] in H; [injection H as <-; reflexivity|].
  destruct (f x) as [y|]; [|discriminate]. cbn [rbind] in H. destruct (rmapM f l) as [zs|]; [|discriminate]. cbn [rbind] in H.
  injection H as <-. cbn [length]. rewrite (IH zs eq_refl). reflexivity.
Qed.
Lemma rmapM_In {A B} (f : A -> res B) l ys b : rmapM f l = Ok ys -> In b ys -> exists a, In a l /\ f a = Ok b.
Proof.
  revert ys. induction l as [|x l IH]; intros ys H Hb; cbn [rmapM] in H; [injection H as <-; destruct Hb|].
  destruct (f x) as [y|] eqn:Ef; [|discriminate]. cbn [rbind] in H. destruct (rmapM f l) as [zs|] eqn:Er; [|discriminate]. cbn [rbind] in H.
  injection H as <-. destruct Hb as [<-|Hb]; [exists x; split; [left; reflexivity|exact Ef]|].
  destruct (IH zs eq_refl Hb) as (a & Ha & E). exists a. split; [right; exact Ha|exact E].
Qed.

Section Pipe.
  Context {F : Type} {K : Fld F} {O : OFld (F := F)}.
  Context (degen : list F -> list F -> F * F).
  Add Field FldPipe : (fth (F := F)).
  Open Scope fld_scope.

  Lemma dset_fresh_z {A} (d : dict Z A) s a : ~ In s (dkeys d) -> dset Z.eqb d s a = d ++ [(s, a)].
  Proof.
    induction d as [|[k v] d IH]; cbn; intros H; [reflexivity|]. destruct (Z.eqb_spec k s) as [->|n]; [tauto|]. rewrite IH by tauto. reflexivity.
  Qed.
  Lemma fold_fresh {A} (g : Z -> res A) (h : Z -> A) steps : forall acc : dict Z A, NoDup steps -> (forall s, In s steps -> ~ In s (dkeys acc)) ->
    (forall s, In s steps -> g s = Ok (h s)) ->
    fold_left (fun acc s => match g s with Ok a => dset Z.eqb acc s a | Err _ => acc end) steps acc = acc ++ map (fun s => (s, h s)) steps.
  Proof.
    induction steps as [|s steps IH]; intros acc N D H; cbn [fold_left map]; [rewrite app_nil_r; reflexivity|].
    inversion N as [|? ? Hn N']; subst. rewrite (H s) by (left; reflexivity). rewrite dset_fresh_z by (apply D; left; reflexivity).
    rewrite IH; [rewrite <- app_assoc; reflexivity|exact N'| |].
    - intros t Ht C. unfold dkeys in C. rewrite map_app in C. apply in_app_or in C. destruct C as [C|[<-|[]]]; [|contradiction].
      apply (D t); [right; exact Ht|exact C].
    - intros t Ht. apply H. right; exact Ht.
  Qed.
  (** The spectra of the variations: the fiducial ones, then one entry per step. *)
  Lemma variations_ok {A} compute dvar (fid : A) (c c' : coll F) d : NoDup (dkeys (params c)) -> at_fiducial c -> dvar <> "central"%string ->
    cls_variations compute dvar fid c = (c', Ok d) ->
    c' = c /\ (exists h, d = (0%Z, fid) :: map (fun s => (s, h s)) seven /\
      forall s, In s seven -> exists eps c1 src, dget Z.eqb (stem_dict c) s = Some eps /\ displaced_only dvar eps c c1 /\
        pmm_source dvar s c1 = Ok src /\ compute src c1 = Ok (h s)).
  Proof.
    intros N Hf Hd H. destruct (vary_ok compute dvar seven [(0%Z, fid)] c c' d N Hf H) as (-> & Hs & Ed). split; [reflexivity|].
    set (g := fun s => (src <- pmm_source dvar s (fst (update_step dvar s c)) ;; compute src (fst (update_step dvar s c)))) in *.
    exists (fun s => match g s with Ok a => a | Err _ => fid end). split.
    - rewrite Ed. unfold g. rewrite (fold_fresh g (fun s => match g s with Ok a => a | Err _ => fid end)); [reflexivity|apply steps_NoDup| |].
      + intros s Hi [<-|[]]. apply (proj1 (steps_In 7 0)) in Hi. lia.
      + intros s Hi. destruct (Hs s Hi) as (c1 & u & src & a & E1 & E2 & E3). unfold g. rewrite E1. cbn [fst]. rewrite E2. cbn [rbind]. rewrite E3. reflexivity.
    - intros s Hi. destruct (Hs s Hi) as (c1 & u & src & a & E1 & E2 & E3). destruct (update_displaced dvar s c c1 u Hd E1) as (eps & Ee & Dd).
      exists eps, c1, src. split; [exact Ee|]. split; [exact Dd|]. split; [exact E2|]. unfold g. rewrite E1. cbn [fst]. rewrite E2. cbn [rbind]. rewrite E3. reflexivity.
  Qed.
  Lemma zsort_seven : zsort (0%Z :: seven) = zrange 7.
  Proof. reflexivity. Qed.
  Lemma stack_ok cs cs' : stack (F := F) cs = Ok cs' -> cs' = cs /\ exists c0 r, cs = c0 :: r /\ forall d, In d r -> same_shape c0 d = true.
  Proof.
    unfold stack. destruct cs as [|c r]; [discriminate|]. destruct (forallb _ r) eqn:E; [|discriminate]. intros H. injection H as <-.
    split; [reflexivity|]. exists c, r. split; [reflexivity|]. apply forallb_forall. exact E.
  Qed.
  Lemma do_derivative_lengths x cs r : do_derivative degen true x cs = Ok r -> length x = length cs.
  Proof.
    unfold do_derivative. destruct cs as [|c cs]; [discriminate|]. unfold vec_stem. rewrite map_length.
    destruct (Nat.eqb_spec (length x) (length (c :: cs))); [auto|discriminate].
  Qed.
  Lemma dget_seven {A} (fid : A) (h : Z -> A) s : dget Z.eqb ((0%Z, fid) :: map (fun s => (s, h s)) seven) s =
    if Z.eqb s 0 then Some fid else if existsb (Z.eqb s) seven then Some (h s) else None.
  Proof.
    cbn [dget]. rewrite Z.eqb_sym. destruct (Z.eqb s 0); [reflexivity|].
    generalize seven. intros l. induction l as [|t l IH]; cbn [map dget existsb]; [reflexivity|].
    rewrite (Z.eqb_sym t s). destruct (Z.eqb_spec s t) as [->|n]; [reflexivity|]. exact IH.
  Qed.

  Lemma derivatives_aligned compute dvar (fid : collector) (c c' : coll F) r base : NoDup (dkeys (params c)) -> at_fiducial c -> dvar <> "central"%string ->
    loaded_from base c -> derivatives_wrt degen compute dvar fid c = (c', Ok r) ->
    c' = c /\ dkeys r = dkeys fid /\ forall k cb, In (k, cb) r ->
    exists p cs, pget c dvar = Some p /\ length base = 7%nat /\
      do_derivative degen true (stem_values p (disps_of base)) cs = Ok cb /\
      length cs = length (stem_values p (disps_of base)) /\ (forall y, In y cs -> exists c0, nth_error cs 0 = Some c0 /\ (y = c0 \/ same_shape c0 y = true)) /\
      forall n v y, nth_error (stem_values p (disps_of base)) n = Some v -> nth_error cs n = Some y ->
        (n = 7%nat /\ v = fiducial p /\ cget fid k = Ok y) \/
        (n <> 7%nat /\ exists eps c1 src d, displaced_only dvar eps c c1 /\ v = value_for p eps /\
           pmm_source dvar (Z.of_nat n - 7) c1 = Ok src /\ compute src c1 = Ok d /\ cget d k = Ok y).
  Proof.
    intros N Hf Hd [Ls Ld] H. unfold derivatives_wrt in H. destruct (cls_variations compute dvar fid c) as [c1 [vs|e]] eqn:Ev; [|discriminate].
    injection H as E1 H. subst c1. destruct (variations_ok compute dvar fid c c' vs N Hf Hd Ev) as (-> & h & -> & Hh). split; [reflexivity|].
    set (vs := (0%Z, fid) :: map (fun s => (s, h s)) seven) in *.
    assert (E0 : dget Z.eqb vs 0%Z = Some fid) by reflexivity. rewrite E0 in H. cbn [rbind] in H.
    assert (Ek : zsort (dkeys vs) = zrange 7).
    { unfold vs, dkeys. cbn [map fst]. rewrite map_map. cbn [fst]. rewrite map_id. exact zsort_seven. }
    rewrite Ek in H. split.
    { clear Ev. revert r H. induction fid as [|[k0 q0] fid' IH]; cbn [dkeys map rmapM fst]; intros r H; [injection H as <-; reflexivity|].
      (* the keys are those of the central collector *)
      match type of H with rbind ?e _ = _ => destruct e as [[k1 r1]|] eqn:E1; [|discriminate] end. cbn [rbind] in H.
      match type of H with rbind ?e _ = _ => destruct e as [r2|] eqn:E2; [|discriminate] end. cbn [rbind] in H. injection H as <-.
      cbn [dkeys map fst]. f_equal.
      - destruct (rmapM _ (zrange 7)) as [ys|] in E1; [|discriminate]. cbn [rbind] in E1. destruct (stack ys); [|discriminate]. cbn [rbind] in E1.
        destruct (phys_stem_values dvar c); [|discriminate]. cbn [rbind] in E1. destruct (do_derivative _ _ _ _); [|discriminate]. cbn [rbind] in E1. congruence.
      - clear IH E1. assert (G : forall f (l : list string) r, (forall k y, f k = Ok y -> fst y = k) -> rmapM f l = Ok r -> map (@fst string (cube F)) r = l).
        { intros f l. induction l as [|a l IH]; intros r G H; cbn [rmapM] in H; [injection H as <-; reflexivity|].
          destruct (f a) as [y|] eqn:Ef; [|discriminate]. cbn [rbind] in H. destruct (rmapM f l) as [ys|]; [|discriminate]. cbn [rbind] in H.
          injection H as <-. cbn [map]. rewrite (G a y Ef), (IH ys G eq_refl). reflexivity. }
        refine (G _ _ _ _ E2). intros k y E. destruct (rmapM _ (zrange 7)) as [ys|] in E; [|discriminate]. cbn [rbind] in E. destruct (stack ys); [|discriminate]. cbn [rbind] in E.
        destruct (phys_stem_values dvar c); [|discriminate]. cbn [rbind] in E. destruct (do_derivative _ _ _ _); [|discriminate]. cbn [rbind] in E.
        injection E as <-. reflexivity. }
    intros k cb Hk. destruct (rmapM_In _ _ _ _ H Hk) as (k' & _ & E). clear H.
    destruct (rmapM _ (zrange 7)) as [ys|] eqn:Ey in E; [|discriminate]. cbn [rbind] in E. destruct (stack ys) as [cs|] eqn:Es; [|discriminate].
    cbn [rbind] in E. destruct (stack_ok _ _ Es) as (-> & c0 & rest & Eys & Hsh). unfold phys_stem_values in E. destruct (pget c dvar) as [p|] eqn:Ep; [|discriminate].
    cbn [rbind] in E. destruct (do_derivative _ _ _ ys) as [r0|] eqn:Er; [|discriminate]. cbn [rbind] in E. injection E as -> ->.
    exists p, ys. split; [reflexivity|]. rewrite Ls in Er. pose proof (do_derivative_lengths _ _ _ Er) as Lx.
    pose proof (rmapM_length _ _ _ Ey) as Ly. rewrite zrange_length in Ly. rewrite stem_length in Lx.
    assert (Lb : length base = 7%nat) by lia.
    split; [exact Lb|]. split; [exact Er|]. split; [rewrite stem_length; lia|]. split.
    { intros y Hy. exists c0. rewrite Eys in Hy |- *. split; [reflexivity|]. destruct Hy as [<-|Hy]; [left; reflexivity|right; apply Hsh; exact Hy]. }
    intros n v y Hv Hy. assert (Hn : (n < 2 * 7 + 1)%nat) by (rewrite <- Ly; apply nth_error_Some; rewrite Hy; discriminate).
    pose proof (zrange_nth 7 n Hn) as Hz. destruct (rmapM_nth _ _ _ _ _ Ey Hz) as (y' & Hy' & Hg). assert (y' = y) by congruence. subst y'.
    unfold vs in Hg. rewrite dget_seven in Hg. rewrite <- Lb in Hz.
    destruct (stem_aligned p base n _ v Hz Hv) as [[Z1 Z2]|[Z1 (eps & Z2 & Z3)]].
    - left. split; [lia|]. split; [exact Z2|]. replace (Z.of_nat n - Z.of_nat 7)%Z with 0%Z in Hg by lia. cbn [Z.eqb] in Hg. exact Hg.
    - right. split; [lia|]. rewrite Lb in *. destruct (Z.eqb_spec (Z.of_nat n - Z.of_nat 7) 0) as [e|_]; [contradiction|].
      assert (Hin : In (Z.of_nat n - Z.of_nat 7)%Z seven) by (apply (proj2 (steps_In 7 _)); lia).
      destruct (existsb _ seven) eqn:Ex; [|discriminate]. destruct (Hh _ Hin) as (eps' & c1 & src & A1 & A2 & A3 & A4).
      rewrite Ld in A1. assert (eps' = eps) by congruence. subst eps'. exists eps, c1, src, (h (Z.of_nat n - Z.of_nat 7)%Z).
      split; [exact A2|]. split; [exact Z3|]. split; [exact A3|]. split; [exact A4|exact Hg].
  Qed.

  Lemma centry_of (c : cube F) f t : In t (indices c) -> centry (cube_of c f) t = f t.
  Proof.
    destruct t as [[l i] j]. unfold indices. rewrite in_flat_map. intros (l' & Hl & H). apply in_flat_map in H. destruct H as (i' & Hi & H).
    apply in_map_iff in H. destruct H as (j' & E & Hj). injection E as -> -> ->. apply in_seq in Hl.
    unfold centry, cube_of. cbn [crows].
    assert (G : forall (g : nat -> nat -> nat -> F) n d k, (n < k)%nat -> nth n (map g (seq 0 k)) d = g n).
    { intros g n d k Hn. rewrite (nth_indep _ _ (g 0%nat)) by (rewrite map_length, seq_length; exact Hn). rewrite map_nth, seq_nth by exact Hn. reflexivity. }
    rewrite G by lia. reflexivity.
  Qed.
  Lemma vec_derivative_line a b x cs r t : NoDup x -> (2 <= length x)%nat -> do_derivative degen true x cs = Ok r ->
    (exists c0, nth_error cs 0 = Some c0 /\ In t (indices c0)) ->
    (forall n v y, nth_error x n = Some v -> nth_error cs n = Some y -> centry y t = a * v + b) -> centry r t = a.
  Proof.
    intros N L H (c0 & E0 & Ht) Hl. pose proof (do_derivative_lengths _ _ _ H) as Lx. unfold do_derivative in H.
    destruct cs as [|c1 cs]; [discriminate|]. cbn in E0. injection E0 as ->. destruct (vec_stem _ _ _ _) as [s|] eqn:Ev; [|discriminate].
    cbn [rbind] in H. injection H as <-. rewrite centry_of by exact Ht.
    apply (vec_line degen (indices c0) t a b x (map centry (c0 :: cs)) s Ht N L); [|exact Ev].
    unfold column, line. rewrite map_map. set (ds := c0 :: cs) in *. clearbody ds. clear Ev. revert ds Lx Hl.
    clear N L. induction x as [|v x IH]; intros [|y ds] Lx Hl; cbn [length] in Lx; try lia; [reflexivity|]. cbn [map]. f_equal.
    - apply (Hl 0%nat v y); reflexivity.
    - apply IH; [lia|]. intros n v' y' A B. apply (Hl (Datatypes.S n) v' y' A B).
  Qed.
End Pipe.
