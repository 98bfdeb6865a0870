(** Lemmas about the computation of all spectra of a forecast. *)
From Coq Require Import Permutation Sorted.
From Verif Require Import Base SortLib StrLib NameModel NameLemmas StemLemmas3 KeyModel ParamModel EvalModel EvalSpec EllLemmas OrdLib NumModel NumLemmas BiasModel BiasProps ConfigModel ConfigLemmas ClModel ClProps WeightModel CollModel.
Open Scope list_scope.

(** ** Dictionaries *)
Lemma dget_tail {V} (k : string) v (d : dict string V) x : dget String.eqb ((k, v) :: d) x = if String.eqb k x then Some v else dget String.eqb d x.
Proof. reflexivity. Qed.
Lemma rmapM_dict {V W} (g : string * V -> res W) (d : dict string V) e : rmapM (fun kc => w <- g kc ;; Ok (fst kc, w)) d = Ok e ->
  dkeys e = dkeys d /\ forall k, match dget String.eqb d k with Some c => exists w, g (k, c) = Ok w /\ dget String.eqb e k = Some w | None => dget String.eqb e k = None end.
Proof.
  revert e. induction d as [|[k c] d IH]; intros e E; cbn [rmapM] in E; [injection E as <-; split; [reflexivity|intros k; reflexivity]|].
  destruct (g (k, c)) as [w|] eqn:G; [|discriminate]. cbn [rbind fst] in E. destruct (rmapM _ d) as [e'|] eqn:R; [|discriminate]. cbn [rbind] in E. injection E as <-.
  destruct (IH e' eq_refl) as [A B]. split; [cbn [dkeys map fst] in *; f_equal; exact A|]. intros x. rewrite !dget_tail. destruct (String.eqb_spec k x) as [<-|_]; [eauto|apply B].
Qed.
Lemma rmapM_dict_total {V W} (g : string * V -> res W) (d : dict string V) : (forall k c, In (k, c) d -> exists w, g (k, c) = Ok w) ->
  exists e, rmapM (fun kc => w <- g kc ;; Ok (fst kc, w)) d = Ok e.
Proof.
  induction d as [|[k c] d IH]; intros H; cbn [rmapM]; [eauto|]. destruct (H k c (or_introl eq_refl)) as [w ->]. cbn [rbind].
  destruct IH as [e ->]; [intros; apply H; right; assumption|]. cbn [rbind]. eauto.
Qed.
Lemma rfold_app_dict {X V} (g : X -> res (string * V)) (key : X -> string) (l : list X) : (forall x r, g x = Ok r -> fst r = key x) ->
  forall d e, rfold (fun d x => kr <- g x ;; Ok (dset String.eqb d (fst kr) (snd kr))) l d = Ok e ->
    NoDup (dkeys d ++ map key l) ->
    dkeys e = dkeys d ++ map key l /\ (forall k, In k (dkeys d) -> dget String.eqb e k = dget String.eqb d k) /\
    forall x, In x l -> exists r, g x = Ok (key x, r) /\ dget String.eqb e (key x) = Some r.
Proof.
  intros Hk. induction l as [|x l IH]; intros d e E N; cbn [rfold map] in *.
  - injection E as <-. rewrite app_nil_r. split; [reflexivity|]. split; [reflexivity|intros x []].
  - destruct (g x) as [[k r]|] eqn:G; [|discriminate]. cbn [rbind fst snd] in E. pose proof (Hk _ _ G) as Hx. cbn [fst] in Hx. subst k.
    assert (Nk : ~ In (key x) (dkeys d)) by (apply NoDup_remove_2 in N; intros Hb; apply N; apply in_or_app; left; exact Hb).
    assert (Kd : dkeys (dset String.eqb d (key x) r) = dkeys d ++ [key x]).
    { rewrite (dkeys_dset _ String.eqb_spec). destruct (dmem String.eqb d (key x)) eqn:M; [|reflexivity]. exfalso. apply Nk. unfold dmem in M.
      destruct (dget String.eqb d (key x)) eqn:Dg; [|discriminate]. apply (dget_In _ String.eqb_spec) in Dg. apply (in_map fst) in Dg. exact Dg. }
    destruct (IH _ _ E) as (A & B & C); [rewrite Kd, <- app_assoc; exact N|]. rewrite Kd, <- app_assoc in A. split; [exact A|]. split.
    + intros k Hi. rewrite B by (rewrite Kd; apply in_or_app; left; exact Hi). apply (dget_dset_other _ String.eqb_spec). intros <-. contradiction.
    + intros y [<-|Hy]; [|apply C, Hy]. exists r. split; [exact G|]. rewrite B by (rewrite Kd; apply in_or_app; right; left; reflexivity). apply (dget_dset_same _ String.eqb_spec).
Qed.
Lemma rfold_total {X V} (g : X -> res (string * V)) (l : list X) : (forall x, In x l -> exists r, g x = Ok r) ->
  forall d, exists e, rfold (fun d x => kr <- g x ;; Ok (dset String.eqb d (fst kr) (snd kr))) l d = Ok e.
Proof.
  induction l as [|x l IH]; intros H d; cbn [rfold]; [eauto|]. destruct (H x (or_introl eq_refl)) as [r ->]. cbn [rbind]. apply IH. intros y Hy. apply H. right. exact Hy.
Qed.
Lemma rfold_inv {X V} (g : X -> res (string * V)) (l : list X) : forall d e,
  rfold (fun d x => kr <- g x ;; Ok (dset String.eqb d (fst kr) (snd kr))) l d = Ok e -> forall x, In x l -> exists r, g x = Ok r.
Proof.
  induction l as [|y l IH]; intros d e E x Hx; cbn [rfold] in E; [destruct Hx|]. destruct (g y) as [r|] eqn:G; [|discriminate]. cbn [rbind] in E.
  destruct Hx as [<-|Hx]; [eauto|]. eapply IH; eassumption.
Qed.

(** ** Keys of pairs *)
Lemma long_plain p : In p long_names -> has "_" p = false.
Proof. cbn. intros H. decompose [or] H; subst; try reflexivity; contradiction. Qed.
Lemma comb_key_inj p q p' q' : In p long_names -> In q long_names -> In p' long_names -> In q' long_names -> comb_key p q = comb_key p' q' -> p = p' /\ q = q'.
Proof.
  intros A B C D E. apply (f_equal comb_probes) in E. rewrite !comb_probes_key in E by (apply long_plain; assumption). injection E as <- <-. auto.
Qed.
Lemma pair_keys_nodup l : NoDup l -> (forall p, In p l -> In p long_names) -> NoDup (map (fun pq => comb_key (fst pq) (snd pq)) (pairs2 l)).
Proof.
  intros N L. destruct (pairs2_nodup l N) as [Np _]. assert (Hin : forall x, In x (pairs2 l) -> In (fst x) long_names /\ In (snd x) long_names).
  { intros [a b] Hx. apply pairs2_both in Hx. cbn. split; apply L; tauto. }
  induction (pairs2 l) as [|x ps IH]; [constructor|]. inversion Np as [|? ? Nx Nps]; subst. cbn [map]. constructor.
  - intros Hi. apply in_map_iff in Hi. destruct Hi as (y & E & Hy). apply Nx.
    destruct (Hin x (or_introl eq_refl)) as [X1 X2], (Hin y (or_intror Hy)) as [Y1 Y2]. destruct (comb_key_inj _ _ _ _ Y1 Y2 X1 X2 E) as [E1 E2].
    destruct x, y. cbn in E1, E2. subst. exact Hy.
  - apply IH; [exact Nps|]. intros y Hy. apply Hin. right. exact Hy.
Qed.
Lemma inside_void p q : In p long_names -> In q long_names -> inside "Void" (comb_key p q) = (String.eqb p "Void" || String.eqb q "Void").
Proof. cbn [long_names In]. intros A B. decompose [or] A; try contradiction; decompose [or] B; try contradiction; subst; vm_compute; reflexivity. Qed.

(** ** Alphabetical order *)
Lemma by_name_perm {A} (d : dict string A) : Permutation (by_name d) d.
Proof. apply isort_perm. Qed.
Lemma ins_keys {A} (x : string * A) l : map fst (ins name_leb x l) = ins String.leb (fst x) (map fst l).
Proof.
  induction l as [|y l IH]; [reflexivity|]. cbn [ins map]. unfold name_leb at 1. destruct (String.leb (fst x) (fst y)); [reflexivity|]. cbn [map]. rewrite IH. reflexivity.
Qed.
Lemma by_name_keys {A} (d : dict string A) : dkeys (by_name d) = ssort (dkeys d).
Proof.
  unfold by_name, dkeys, ssort. induction d as [|x d IH]; [reflexivity|]. unfold isort in *. cbn [fold_right map]. rewrite ins_keys, IH. reflexivity.
Qed.

Section Setup.
  Context {F : Type} {K : Fld F} {O : OFld (F := F)}.
  Open Scope fld_scope.
  Context (N : numerics F).

  Lemma weight_of_long an files pp dens co fid p a dw : weight_of N an files pp dens co fid p a = Ok dw -> In p long_names /\ dget String.eqb dens p = Some (fst dw).
  Proof.
    unfold weight_of. destruct (smem_spec p long_names) as [L|L]; [|discriminate]. cbn [negb]. unfold dgetr at 1. destruct (dget String.eqb dens p) as [d|]; [|discriminate]. cbn [rbind].
    destruct (if String.eqb p "Lensing" then _ else _) as [w|]; [|discriminate]. cbn [rbind]. intros H. injection H as <-. auto.
  Qed.
  Lemma dget_key {V} (d : dict string V) k : In k (dkeys d) -> exists c, dget String.eqb d k = Some c.
  Proof. intros H. destruct (dget String.eqb d k) eqn:E; [eauto|]. apply (dget_None _ String.eqb_spec) in E. contradiction. Qed.
  Lemma key_dget {V} (d : dict string V) k c : dget String.eqb d k = Some c -> In k (dkeys d).
  Proof. intros H. apply (dget_In _ String.eqb_spec) in H. apply (in_map fst) in H. exact H. Qed.

  Definition multipoles (p q : string) (a b : pcfg F) : res (list F * list F) :=
    if Nat.eqb (length (pc_ells a)) (length (pc_widths a)) then
      match intersect1d (pc_ells a) (pc_ells b) with
      | [] => Err EException
      | c => if String.eqb p q then Ok (pc_ells a, pc_widths a) else Ok (c, select c (pc_ells a) (pc_widths a))
      end
    else Err EIndexError.
  Definition limber_of (p q : string) (vc : option (pcfg F)) (co : cosmology F) (ells : list F) : res (nat -> nat -> F) :=
    let kl := fun l z => (at_ ells l + 1 / (1 + 1)) / co_r co z in
    let P := fun l z => co_pk co z (kl l z) in
    if String.eqb p "Void" || String.eqb q "Void" then
      cfg <- match vc with Some c => Ok c | None => Err EKeyError end ;;
      kc <- setting_num cfg "void_kcut_invMpc" ;; kw <- setting_num cfg "void_kcut_width_invMpc" ;;
      Ok (void_cut kc kw kl P)
    else Ok P.
  (** The set-up of one pair reads only the two probes (and the settings of the voids
      when they take part). *)
  Definition pair_setup (co : cosmology F) (p q : string) (a b : pcfg F) (vc : option (pcfg F)) (wp wq : density F * (nat -> nat -> F)) : res (string * ready F) :=
    m <- multipoles p q a b ;;
    P <- limber_of p q vc co (fst m) ;;
    Ok (comb_key p q, mkRd p q (fst m) (snd m) (de_bins (fst wp)) (de_bins (fst wq)) P (kernel (String.eqb p q) (snd wp) (snd wq) (co_c co) (co_H co) (co_r co))).
  Lemma setup_pair cfgs ws co p q a b wp wq : In p long_names -> In q long_names ->
    dget String.eqb cfgs p = Some a -> dget String.eqb cfgs q = Some b -> dget String.eqb ws p = Some wp -> dget String.eqb ws q = Some wq ->
    setup_spectrum cfgs ws co (p, q) = pair_setup co p q a b (dget String.eqb cfgs "Void") wp wq.
  Proof.
    intros Lp Lq Ea Eb Ep Eq. unfold setup_spectrum, pair_setup, multipoles. unfold dgetr at 1. rewrite Ep. cbn [rbind]. unfold dgetr at 1. rewrite Eq. cbn [rbind].
    rewrite (comb_value cfgs p q a b (long_plain _ Lp) (long_plain _ Lq) Ea Eb). destruct (Nat.eqb (length (pc_ells a)) (length (pc_widths a))); [|reflexivity].
    destruct (intersect1d (pc_ells a) (pc_ells b)) as [|e es]; [reflexivity|]. cbn [rbind].
    assert (Lim : forall ells, limber cfgs (comb_key p q) co ells = limber_of p q (dget String.eqb cfgs "Void") co ells).
    { intros ells. unfold limber, limber_of. rewrite (inside_void p q Lp Lq). destruct (String.eqb p "Void" || String.eqb q "Void"); [|reflexivity]. reflexivity. }
    destruct (String.eqb p q) eqn:Epq; cbn [negb].
    - unfold dgetr. rewrite Ea. cbn [rbind]. rewrite Lim. reflexivity.
    - cbn [rbind]. rewrite Lim. reflexivity.
  Qed.

  Lemma setup_inv an cfgs files pp dens co fid d : NoDup (dkeys cfgs) -> setup N an cfgs files pp dens co fid = Ok d ->
    (forall p, In p (dkeys cfgs) -> exists a w, dget String.eqb cfgs p = Some a /\ weight_of N an files pp dens co fid p a = Ok w) /\
    dkeys d = map (fun pq => comb_key (fst pq) (snd pq)) (combinations cfgs) /\
    forall p q, In (p, q) (combinations cfgs) -> exists a b wp wq r,
      dget String.eqb cfgs p = Some a /\ dget String.eqb cfgs q = Some b /\
      weight_of N an files pp dens co fid p a = Ok wp /\ weight_of N an files pp dens co fid q b = Ok wq /\
      pair_setup co p q a b (dget String.eqb cfgs "Void") wp wq = Ok (comb_key p q, r) /\ dget String.eqb d (comb_key p q) = Some r.
  Proof.
    intros Nd. unfold setup. destruct (rmapM _ cfgs) as [ws|] eqn:W; [|discriminate]. cbn [rbind]. intros E.
    destruct (rmapM_dict (fun kc => weight_of N an files pp dens co fid (fst kc) (snd kc)) cfgs ws W) as [Kw Gw]. cbn [fst snd] in Gw.
    assert (Wt : forall p, In p (dkeys cfgs) -> exists a w, dget String.eqb cfgs p = Some a /\ weight_of N an files pp dens co fid p a = Ok w /\ dget String.eqb ws p = Some w).
    { intros p Hp. destruct (dget_key cfgs p Hp) as [a Ea]. specialize (Gw p). rewrite Ea in Gw. destruct Gw as (w & G1 & G2). eauto. }
    assert (Lg : forall p, In p (dkeys cfgs) -> In p long_names). { intros p Hp. destruct (Wt p Hp) as (a & w & _ & G & _). exact (proj1 (weight_of_long _ _ _ _ _ _ _ _ _ G)). }
    assert (Pr : forall p q, In (p, q) (combinations cfgs) -> In p (dkeys cfgs) /\ In q (dkeys cfgs)) by (intros p q H; apply pairs2_both in H; exact H).
    split; [intros p Hp; destruct (Wt p Hp) as (a & w & A & B & _); eauto|].
    assert (Hk : forall x r, setup_spectrum cfgs ws co x = Ok r -> fst r = comb_key (fst x) (snd x)).
    { intros [p q] r. unfold setup_spectrum. destruct (dgetr ws p); [|discriminate]. destruct (dgetr ws q); [|discriminate]. cbn [rbind]. destruct (comb_multipoles cfgs (comb_key p q)) as [m|]; [|discriminate]. cbn [rbind].
      destruct (if negb _ then _ else _) as [m'|]; [|discriminate]. cbn [rbind]. destruct (limber _ _ _ _); [|discriminate]. cbn [rbind]. intros H. injection H as <-. reflexivity. }
    destruct (rfold_app_dict (setup_spectrum cfgs ws co) (fun pq => comb_key (fst pq) (snd pq)) (combinations cfgs) Hk [] d E) as (A & _ & C).
    { apply pair_keys_nodup; [exact Nd|exact Lg]. }
    split; [exact A|]. intros p q Hpq. destruct (Pr p q Hpq) as [Hp Hq]. destruct (Wt p Hp) as (a & wp & Ea & Gp & Sp), (Wt q Hq) as (b & wq & Eb & Gq & Sq).
    destruct (C (p, q) Hpq) as (r & R1 & R2). cbn [fst snd] in *. exists a, b, wp, wq, r. rewrite (setup_pair cfgs ws co p q a b wp wq) in R1 by auto. repeat split; assumption.
  Qed.

  (** The evaluation of one pair reads only its probes. *)
  Lemma evaluate_setting integ nz P (k : arr3 (F := F)) p q o o' n m : (p = q -> p = "SpectroscopicGalaxy"%string -> o = o') ->
    evaluate integ nz P k p q o n m = evaluate integ nz P k p q o' n m.
  Proof.
    intros H. unfold evaluate. destruct (String.eqb_spec p q) as [<-|]; [|reflexivity]. destruct (String.eqb_spec p "SpectroscopicGalaxy") as [E|]; [|reflexivity]. rewrite (H eq_refl E). reflexivity.
  Qed.
  Lemma evaluate_one_ext an cfgs cfgs' co (r : ready F) : (rd_p r = rd_q r -> rd_p r = "SpectroscopicGalaxy"%string -> dget String.eqb cfgs (rd_p r) = dget String.eqb cfgs' (rd_p r)) ->
    evaluate_one N an cfgs co r = evaluate_one N an cfgs' co r.
  Proof.
    intros H. unfold evaluate_one. erewrite evaluate_setting; [reflexivity|]. intros A B. specialize (H A B). rewrite B in H. unfold dgetr at 1 3. rewrite H. reflexivity.
  Qed.
  Lemma compute_inv an cfgs files pp dens co fid out : NoDup (dkeys cfgs) -> compute_cls N an cfgs files pp dens co fid = Ok out ->
    (forall p, In p (dkeys cfgs) -> exists a w, dget String.eqb cfgs p = Some a /\ weight_of N an files pp dens co fid p a = Ok w) /\
    dkeys out = map (fun pq => comb_key (fst pq) (snd pq)) (combinations cfgs) /\
    forall p q, In (p, q) (combinations cfgs) -> exists a b wp wq r s,
      dget String.eqb cfgs p = Some a /\ dget String.eqb cfgs q = Some b /\
      weight_of N an files pp dens co fid p a = Ok wp /\ weight_of N an files pp dens co fid q b = Ok wq /\
      pair_setup co p q a b (dget String.eqb cfgs "Void") wp wq = Ok (comb_key p q, r) /\
      evaluate_one N an cfgs co r = Ok s /\ dget String.eqb out (comb_key p q) = Some s.
  Proof.
    intros Nd. unfold compute_cls. destruct (setup N an cfgs files pp dens co fid) as [d|] eqn:S; [|discriminate]. cbn [rbind]. intros E.
    destruct (setup_inv _ _ _ _ _ _ _ _ Nd S) as (W & A & B). destruct (rmapM_dict (fun kr => evaluate_one N an cfgs co (snd kr)) d out E) as [C D]. cbn [snd] in D.
    split; [exact W|]. split; [congruence|]. intros p q Hpq. destruct (B p q Hpq) as (a & b & wp & wq & r & B1 & B2 & B3 & B4 & B5 & B6).
    specialize (D (comb_key p q)). rewrite B6 in D. destruct D as (s & D1 & D2). exists a, b, wp, wq, r, s. auto 10.
  Qed.
End Setup.
