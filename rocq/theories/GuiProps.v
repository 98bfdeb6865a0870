(** Configurations saved from the window. *)
From Coq Require Import Field Qcanon.
From Verif Require Import Base SortLib StrLib KeyModel ParamModel NameModel ConfigModel ParamFileModel TimeModel BatchModel EvalModel StemModel DerModel DerProps StemLemmas3 CollModel GuiModel.
Open Scope nat_scope.
Open Scope string_scope.
Open Scope list_scope.

Lemma In_dset_val {V} (d : dict string V) k x a p : In (a, p) (dset String.eqb d k x) -> p = x /\ a = k \/ In (a, p) d.
Proof.
  induction d as [|[b q] d IH]; cbn.
  - intros [E|[]]. injection E as <- <-. left. auto.
  - destruct (String.eqb_spec b k) as [->|]; cbn.
    + intros [E|H]; [injection E as <- <-; left; auto|right; right; exact H].
    + intros [E|H]; [right; left; exact E|]. destruct (IH H); auto.
Qed.
Lemma In_dupdate_val {V} (e : dict string V) : forall d a p, In (a, p) (dupdate String.eqb d e) -> In (a, p) e \/ In (a, p) d.
Proof.
  unfold dupdate. induction e as [|[k x] e IH]; intros d a p H; cbn in *; [auto|]. apply IH in H. destruct H as [H|H]; [auto|]. apply In_dset_val in H. destruct H as [[-> ->]|H]; auto.
Qed.
Lemma dget_dupdate_none {V} (e : dict string V) k : ~ In k (dkeys e) -> forall d, dget String.eqb (dupdate String.eqb d e) k = dget String.eqb d k.
Proof.
  unfold dupdate. induction e as [|[a x] e IH]; intros H d; cbn; [reflexivity|]. rewrite IH by (intros I; apply H; right; exact I). apply (dget_dset_other _ String.eqb_spec). intros ->. apply H. left. reflexivity.
Qed.

Section Props.
  Context {F : Type} {K : Fld F} {O : OFld (F := F)}.
  Context (to_float : string -> option F).
  Notation window := (window F).
  Notation dump := (dump to_float).
  Notation load_params := (load_params to_float).

  Definition named (ps : list (param F)) (d : dict string (param F)) := fold_left (fun d p => dset String.eqb d (pp_name p) p) ps d.
  Lemma named_In ps : forall d a p, In (a, p) (named ps d) -> In p ps /\ a = pp_name p \/ In (a, p) d.
  Proof.
    unfold named. induction ps as [|q ps IH]; intros d a p H; cbn in *; [auto|]. apply IH in H. destruct H as [[H ->]|H]; [auto|]. apply In_dset_val in H. destruct H as [[-> ->]|H]; auto.
  Qed.
  Lemma named_other ps n : (forall p, In p ps -> pp_name p <> n) -> forall d, dget String.eqb (named ps d) n = dget String.eqb d n.
  Proof.
    unfold named. induction ps as [|q ps IH]; intros H d; cbn; [reflexivity|]. rewrite IH by (intros p Hp; apply H; right; exact Hp). apply (dget_dset_other _ String.eqb_spec). apply H. left. reflexivity.
  Qed.
  Lemma named_get ps p : NoDup (map (fun q => pp_name q) ps) -> In p ps -> forall d, dget String.eqb (named ps d) (pp_name p) = Some p.
  Proof.
    unfold named. induction ps as [|q ps IH]; intros N H d; [destruct H|]. cbn in N. inversion N as [|? ? N1 N2]; subst. cbn [fold_left]. destruct H as [->|H].
    - fold (named ps (dset String.eqb d (pp_name p) p)). rewrite named_other; [apply (dget_dset_same _ String.eqb_spec)|]. intros q Hq E. apply N1. rewrite <- E. apply in_map. exact Hq.
    - apply IH; assumption.
  Qed.

  (** The pieces of a saved configuration. *)
  Lemma dump_inv (w : window) j : dump w = Ok j ->
    exists fsky pars probes, to_float (w_fsky w) = Some fsky /\ rmapM (par_json to_float) (w_pars w) = Ok pars /\ probes_json to_float w = Ok probes /\
      jfield j "probes" = Ok (JObj probes) /\
      jfield j "cosmology" = Ok (JObj [("model", JStr (w_model w)); ("flat", JBool (checked (w_flat w))); ("parameters", JList pars)]) /\
      jfield j "derivative_settings" = Ok (JObj [("base_stem_disps", JList (map JStr (w_disps w)))]) /\
      jfield j "survey" = Ok (JObj [("f_sky", JNum fsky); ("shot_noise_file", JNull)]).
  Proof.
    unfold GuiModel.dump, floatr. intros H. destruct (to_float (w_fsky w)) as [x|]; cbn [rbind] in H; [|discriminate]. destruct (rmapM (par_json to_float) (w_pars w)) as [pars|] eqn:E1; cbn [rbind] in H; [|discriminate]. destruct (probes_json to_float w) as [ps|] eqn:E2; cbn [rbind] in H; [|discriminate]. injection H as <-.
    exists x, pars, ps. repeat split; auto.
  Qed.
  (** A row of the table and its parameter. *)
  Definition row_par (nr : string * list string) (p : param F) : Prop :=
    exists f free u s m x b y, snd nr = [f; free; u; s; m] /\ to_float f = Some x /\ str_to_bool free = Ok b /\ to_float s = Some y /\
      p = mkPar (fst nr) x x true None y b "" u m.
  Lemma par_read nr j : par_json to_float nr = Ok j -> exists o p, j = JObj o /\ from_dict o = Ok p /\ row_par nr p.
  Proof.
    destruct nr as [n r]. unfold par_json. cbn [fst snd]. destruct r as [|f [|free [|u [|s [|m [|? ?]]]]]]; try discriminate. unfold floatr. destruct (to_float f) as [x|] eqn:Ef; cbn [rbind]; [|discriminate]. destruct (str_to_bool free) as [b|] eqn:Eb; cbn [rbind]; [|discriminate]. destruct (to_float s) as [y|] eqn:Es; cbn [rbind]; [|discriminate]. intros H. injection H as <-.
    eexists. exists (mkPar n x x true None y b "" u m). split; [reflexivity|]. split; [reflexivity|]. exists f, free, u, s, m, x, b, y. auto 7.
  Qed.
  Lemma pars_read rows js : rmapM (par_json to_float) rows = Ok js -> exists ps, rmapM (fun j => q <- as_obj j ;; from_dict q) js = Ok ps /\ Forall2 row_par rows ps.
  Proof.
    revert js. induction rows as [|nr rows IH]; intros js H; cbn [rmapM] in H; [injection H as <-; exists []; split; [reflexivity|constructor]|].
    destruct (par_json to_float nr) as [j|] eqn:E; cbn [rbind] in H; [|discriminate]. destruct (rmapM (par_json to_float) rows) as [t|]; cbn [rbind] in H; [|discriminate]. injection H as <-. destruct (IH t eq_refl) as (ps & E2 & H2). destruct (par_read nr j E) as (o & p & -> & Ep & R).
    exists (p :: ps). split; [|constructor; assumption]. cbn [rmapM as_obj rbind]. rewrite Ep. cbn [rbind]. rewrite E2. reflexivity.
  Qed.
  (** Nuisance parameters of lensing as saved. *)
  Definition ia_par (d : options F) (p : param F) : Prop :=
    exists n t x ia, text_of d ("nuis_param_" ++ n)%string = Ok t /\ to_float t = Some x /\ box_of d "include_IA" = Ok ia /\
      p = mkPar n x x false (Some "WL") fo (negb (String.eqb n "cIA") && ia) "" "None" "SteM".
  Lemma extra_read name d js : extra to_float name d = Ok js -> exists ps, rmapM (fun j => q <- as_obj j ;; from_dict q) js = Ok ps /\ (forall p, In p ps -> name = "WL" /\ ia_par d p) /\
    (name = "WL" -> forall k n, In k (dkeys d) -> nuis_name k = Some n -> exists p, In p ps /\ pp_name p = n).
  Proof.
    unfold extra. destruct (String.eqb_spec name "WL") as [->|N]; [|intros H; injection H as <-; exists []; split; [reflexivity|]; split; [intros ? []|contradiction]].
    destruct (box_of d "include_IA") as [ia|] eqn:Ei; cbn [rbind]; [|discriminate].
    assert (G : forall ns js, rmapM (fun n => t <- text_of d ("nuis_param_" ++ n)%string ;; x <- floatr to_float t ;;
        Ok (JObj [("name", JStr n); ("fiducial", JNum x); ("kind", JStr "NuisanceParameter"); ("units", JStr "None"); ("probe", JStr "WL"); ("is_free_parameter", JBool (negb (String.eqb n "cIA") && ia))])) ns = Ok js ->
        exists ps, rmapM (fun j => q <- as_obj j ;; from_dict q) js = Ok ps /\ (forall p, In p ps -> ia_par d p) /\ map (fun p => pp_name p) ps = ns).
    { induction ns as [|n ns IH]; intros l H; cbn [rmapM] in H; [injection H as <-; exists []; split; [reflexivity|]; split; [intros ? []|reflexivity]|].
      destruct (text_of d ("nuis_param_" ++ n)%string) as [t|] eqn:Et; cbn [rbind] in H; [|discriminate]. unfold floatr at 1 in H. destruct (to_float t) as [x|] eqn:Ex; cbn [rbind] in H; [|discriminate].
      match type of H with (rbind ?a _) = _ => destruct a as [r|] eqn:Er end; cbn [rbind] in H; [|discriminate]. injection H as <-. destruct (IH r eq_refl) as (ps & E2 & H2 & H3).
      exists (mkPar n x x false (Some "WL") fo (negb (String.eqb n "cIA") && ia) "" "None" "SteM" :: ps). split; [|split].
      - cbn [rmapM as_obj rbind]. match goal with |- rbind ?a _ = _ => replace a with (@Ok (param F) (mkPar n x x false (Some "WL") fo (negb (String.eqb n "cIA") && ia) "" "None" "SteM")) by reflexivity end. cbn [rbind]. rewrite E2. reflexivity.
      - intros p [<-|Hp]; [|exact (H2 p Hp)]. exists n, t, x, ia. auto.
      - cbn. rewrite H3. reflexivity. }
    intros H. destruct (G _ _ H) as (ps & E & H2 & H3). exists ps. split; [exact E|]. split; [intros p Hp; split; [reflexivity|exact (H2 p Hp)]|].
    intros _ k n Hk Hn. assert (I : In n (map (fun p => pp_name p) ps)). { rewrite H3. apply in_flat_map. exists k. split; [exact Hk|]. rewrite Hn. left. reflexivity. }
    apply in_map_iff in I. destruct I as (p & <- & Hp). exists p. auto.
  Qed.
  (** An entry of the probes. *)
  Lemma probe_inv name d j : probe_json to_float name d = Ok j ->
    exists o ex p a, j = JObj o /\ probe_name name = Ok p /\ pn_to Alias p = Ok a /\ extra to_float (pn_name a) d = Ok ex /\ jget o "extra_nuisance_parameters" = Some (JList ex).
  Proof.
    unfold probe_json. destruct (probe_name name) as [p|]; cbn [rbind]; [|discriminate]. destruct (pn_to Alias p) as [a|] eqn:Ea; cbn [rbind]; [|discriminate]. destruct (pn_to Long p) as [l|]; cbn [rbind]; [|discriminate].
    destruct (box_of d "presence_flag") as [pr|]; cbn [rbind]; [|discriminate]. destruct (ells_json d) as [el|] eqn:El; cbn [rbind]; [|discriminate]. destruct (text_of d "density_file") as [de|]; cbn [rbind]; [|discriminate].
    destruct (optional d "bias_file" text_of JStr) as [bf|] eqn:E1; cbn [rbind]; [|discriminate]. destruct (optional d "bias_derivative_method" choice_of JStr) as [bm|] eqn:E2; cbn [rbind]; [|discriminate]. destruct (optional d "marginalize_bias_flag" box_of JBool) as [mb|] eqn:E3; cbn [rbind]; [|discriminate].
    destruct (specific (pn_name a) d) as [sp|]; cbn [rbind]; [|discriminate]. destruct (extra to_float (pn_name a) d) as [ex|] eqn:Ex; cbn [rbind]; [|discriminate]. intros H. injection H as <-.
    eexists. exists ex, p, a. split; [reflexivity|]. split; [reflexivity|]. split; [exact Ea|]. split; [exact Ex|].
    assert (Ko : forall {A} k (get : options F -> string -> res A) f r, optional d k get f = Ok r -> r = [] \/ exists x, r = [(k, x)]).
    { intros A k get f r. unfold optional. destruct (dmem String.eqb d k); [|intros H; injection H as <-; auto]. destruct (get d k); cbn; [|discriminate]. intros H; injection H as <-. right. eexists. reflexivity. }
    assert (Ke : (exists x, el = [("ell_external_filename", x)]) \/ (exists x y z, el = [("l_min", x); ("l_max", y); ("ell_log_selection", z)]) \/ exists x y z u, el = [("l_min", x); ("l_max", y); ("ell_log_selection", z); ("log_l_number", u)]).
    { clear -El. unfold ells_json in El. destruct (text_of d "ell_external_filename") as [f|]; cbn [rbind] in El; [|discriminate]. destruct (negb (String.eqb f "")); [injection El as <-; eauto|]. destruct (value_of d "l_min"); cbn [rbind] in El; [|discriminate]. destruct (value_of d "l_max"); cbn [rbind] in El; [|discriminate]. destruct (box_of d "ell_log_selection") as [[]|]; cbn [rbind] in El; [| |discriminate].
      - destruct (value_of d "log_l_number"); cbn [rbind] in El; [|discriminate]. injection El as <-. right. right. eauto 6.
      - injection El as <-. right. left. eauto. }
    apply Ko in E1, E2, E3. unfold jget.
    destruct Ke as [(x1 & ->)|[(x1 & x2 & x3 & ->)|(x1 & x2 & x3 & x4 & ->)]]; destruct E1 as [->|(y1 & ->)]; destruct E2 as [->|(y2 & ->)]; destruct E3 as [->|(y3 & ->)]; reflexivity.
  Qed.
  Lemma probes_inv (w : window) ps : probes_json to_float w = Ok ps -> exists pages, read_pages w = Ok pages /\ Forall2 (fun n nj => fst nj = n /\ exists d, dgetr pages n = Ok d /\ probe_json to_float n d = Ok (snd nj)) aliases ps.
  Proof.
    unfold probes_json. destruct (read_pages w) as [pages|]; cbn [rbind]; [|discriminate]. intros H. exists pages. split; [reflexivity|]. revert ps H. induction aliases as [|n l IH]; intros ps H; cbn [rmapM] in H; [injection H as <-; constructor|].
    destruct (dgetr pages n) as [d|] eqn:Ed; cbn [rbind] in H; [|discriminate]. destruct (probe_json to_float n d) as [j|] eqn:Ej; cbn [rbind] in H; [|discriminate]. match type of H with (rbind ?a _) = _ => destruct a as [r|] eqn:Er end; cbn [rbind] in H; [|discriminate]. injection H as <-. constructor; [|apply IH; reflexivity]. cbn. split; [reflexivity|]. exists d. auto.
  Qed.

  (** Loaded probes: lensing has no bias. *)
  Lemma load_probes_lens j ps : load_probes j = Ok ps -> forall x, In ("Lensing", x) ps -> ld_bias x = None (A := string * bool * string).
  Proof.
    unfold load_probes. destruct (jfield j "probes") as [q|]; cbn [rbind]; [|discriminate]. destruct (as_obj q) as [l|]; cbn [rbind]; [|discriminate].
    set (step := fun (acc : res (dict string (loaded F))) np => d <- acc ;; o <- as_obj (snd np) ;; f <- jfield o "presence_flag" ;; b <- as_flag f ;;
      if b : bool then p <- probe_name (fst np) ;; l <- pn_to Long p ;; x <- load_probe (pn_name l) o ;; Ok (dset String.eqb d (pn_name l) x) else Ok d).
    assert (G : forall l acc ps, (forall d, acc = Ok d -> forall x, In ("Lensing", x) d -> ld_bias x = None) -> fold_left step l acc = Ok ps -> forall x, In ("Lensing", x) ps -> ld_bias x = None).
    { clear. induction l as [|np l IH]; intros acc ps H E; cbn [fold_left] in E; [exact (H ps E)|]. apply (IH (step acc np) ps); [|exact E]. clear E. intros d0 E x Hx. unfold step in E. destruct acc as [d|]; cbn [rbind] in E; [|discriminate]. destruct (as_obj (snd np)) as [o|]; cbn [rbind] in E; [|discriminate]. destruct (jfield o "presence_flag") as [f|]; cbn [rbind] in E; [|discriminate]. destruct (as_flag f) as [[]|]; cbn [rbind] in E; [| |discriminate].
      - destruct (probe_name (fst np)) as [p|]; cbn [rbind] in E; [|discriminate]. destruct (pn_to Long p) as [a|]; cbn [rbind] in E; [|discriminate]. destruct (load_probe (pn_name a) o) as [y|] eqn:Ey; cbn [rbind] in E; [|discriminate]. injection E as <-. apply In_dset_val in Hx. destruct Hx as [[-> Ea]|Hx]; [|exact (H d eq_refl x Hx)].
        unfold load_probe in Ey. destruct (load_ells o); cbn [rbind] in Ey; [|discriminate]. destruct (sfield o "density_file"); cbn [rbind] in Ey; [|discriminate]. rewrite <- Ea in Ey. cbn [String.eqb Ascii.eqb Bool.eqb rbind] in Ey. destruct (jfield o "specific_settings") as [s|]; cbn [rbind] in Ey; [|discriminate]. destruct (as_obj s); cbn [rbind] in Ey; [|discriminate]. injection Ey as <-. reflexivity.
      - injection E as <-. exact (H d eq_refl x Hx). }
    intros H. apply (G l (Ok []) ps); [|exact H]. intros d Ed. injection Ed as <-. intros x [].
  Qed.

  (** Where the nuisance parameters of a loaded collection come from. *)
  Definition from_bias (bp : string -> res (dict string F)) (ps : dict string (loaded F)) (a : string) (p : param F) : Prop :=
    exists long x f m t v y, In (long, x) ps /\ ld_bias x = Some (f, m, t) /\ bp f = Ok v /\ In (a, y) v /\ p = mkPar a y y false (Some long) fo m "" "None" t.
  Definition from_window (w : window) (a : string) (p : param F) : Prop :=
    exists pages d, read_pages w = Ok pages /\ dget String.eqb pages "WL" = Some d /\ ia_par d p /\ a = pp_name p.
  Lemma entry_inv (w : window) probes n j : probes_json to_float w = Ok probes -> jget probes n = Some j ->
    exists pages d o ex, read_pages w = Ok pages /\ dget String.eqb pages n = Some d /\ j = JObj o /\ extra to_float n d = Ok ex /\ jget o "extra_nuisance_parameters" = Some (JList ex).
  Proof.
    intros H G. destruct (probes_inv w probes H) as (pages & Ep & A).
    assert (I : In (n, j) probes) by (apply (dget_In _ String.eqb_spec); exact G).
    assert (X : forall l m, Forall2 (fun n nj => fst nj = n /\ exists d, dgetr pages n = Ok d /\ probe_json to_float n d = Ok (snd nj)) l m -> In (n, j) m -> In n l /\ exists d, dgetr pages n = Ok d /\ probe_json to_float n d = Ok j).
    { induction 1 as [|x y l m [Hx (d & Hd & Hj)] _ IH]; [intros []|]. intros [->|Hi]; [cbn in *; subst x; split; [left; reflexivity|exists d; auto]|]. destruct (IH Hi) as [? ?]. split; [right; assumption|assumption]. }
    destruct (X _ _ A I) as (Hn & d & Hd & Hj). destruct (probe_inv n d j Hj) as (o & ex & p & a & -> & Hp & Ha & Ex & Eo).
    assert (E : pn_name a = n). { cbn in Hn. destruct Hn as [<-|[<-|[<-|[<-|[]]]]]; vm_compute in Hp; injection Hp as <-; vm_compute in Ha; injection Ha as <-; reflexivity. }
    rewrite E in Ex. exists pages, d, o, ex. repeat split; try assumption. unfold dgetr in Hd. destruct (dget String.eqb pages n); [injection Hd as ->; reflexivity|discriminate].
  Qed.
  Lemma nuis_In bp long (x : loaded F) o n d ex al : load_nuis bp long x o = Ok n -> extra to_float al d = Ok ex -> jget o "extra_nuisance_parameters" = Some (JList ex) ->
    forall a p, In (a, p) n -> (exists f m t v y, ld_bias x = Some (f, m, t) /\ bp f = Ok v /\ In (a, y) v /\ p = mkPar a y y false (Some long) fo m "" "None" t) \/ (al = "WL" /\ ia_par d p /\ a = pp_name p).
  Proof.
    intros H Ex Eo a p I. unfold load_nuis in H. rewrite Eo in H. destruct (extra_read al d ex Ex) as (qs & Eq & Hq & _).
    match type of H with rbind ?b _ = _ => destruct b as [bs|] eqn:Eb end; cbn [rbind] in H; [|discriminate]. rewrite Eq in H. cbn [rbind] in H. injection H as <-. change (In (a, p) (named qs bs)) in I. apply named_In in I. destruct I as [[I ->]|I].
    - right. destruct (Hq p I) as [-> W]. auto.
    - left. destruct (ld_bias x) as [[[f m] t]|]; [|injection Eb as <-; destruct I]. destruct (bp f) as [v|] eqn:Ev; cbn [rbind] in Eb; [|discriminate]. injection Eb as <-. apply in_map_iff in I. destruct I as ([k y] & E & I). cbn in E. injection E as <- <-. exists f, m, t, v, y. auto.
  Qed.
  Lemma params_inv bp (w : window) j ps c : dump w = Ok j -> load_params bp j ps = Ok c ->
    exists base pars, rmapM (floatr to_float) (w_disps w) = Ok base /\ stem_disps c = disps_of base /\ flat c = checked (w_flat w) /\ Forall2 row_par (w_pars w) pars /\
      (forall a p, In (a, p) (params c) -> (from_bias bp ps a p \/ from_window w a p) \/ In p pars /\ a = pp_name p) /\
      (forall n, (forall p, ~ from_bias bp ps n p) -> (forall p, ~ from_window w n p) -> pget c n = dget String.eqb (named pars []) n).
  Proof.
    intros Hd H. destruct (dump_inv w j Hd) as (fsky & js & probes & _ & Ejs & Epr & J1 & J2 & J3 & _). unfold GuiModel.load_params in H. rewrite J3 in H. cbn [rbind as_obj] in H. unfold jfield at 1 in H. cbn [jget dget String.eqb Ascii.eqb Bool.eqb rbind] in H.
    assert (D : rmapM (as_disp to_float) (map JStr (w_disps w)) = rmapM (floatr to_float) (w_disps w)). { clear. induction (w_disps w) as [|t l IH]; [reflexivity|]. cbn [map rmapM as_disp]. rewrite IH. reflexivity. }
    rewrite D in H. destruct (rmapM (floatr to_float) (w_disps w)) as [base|]; cbn [rbind] in H; [|discriminate]. rewrite J2 in H. cbn [rbind as_obj] in H. unfold jfield at 1 in H. cbn [jget dget String.eqb Ascii.eqb Bool.eqb rbind as_flag] in H. unfold jfield at 1 in H. cbn [jget dget String.eqb Ascii.eqb Bool.eqb rbind] in H.
    destruct (pars_read _ _ Ejs) as (pars & Ep & A). rewrite Ep in H. cbn [rbind] in H. rewrite J1 in H.
    match type of H with rbind (fold_left ?s _ _) _ = _ => set (step := s) in H end. fold (named pars []) in H.
    assert (G : forall l acc d, (forall kx, In kx l -> In kx ps) -> fold_left step l acc = Ok d ->
      exists d0, acc = Ok d0 /\ (forall a p, In (a, p) d -> (from_bias bp ps a p \/ from_window w a p) \/ In (a, p) d0) /\
        (forall n, (forall p, ~ from_bias bp ps n p) -> (forall p, ~ from_window w n p) -> dget String.eqb d n = dget String.eqb d0 n)).
    { clear -Epr. induction l as [|[long x] l IH]; intros acc d Hl E; cbn [fold_left] in E; [exists d; split; [exact E|]; split; auto|].
      destruct (IH _ _ (fun kx h => Hl kx (or_intror h)) E) as (d1 & E1 & I1 & G1). clear E IH. unfold step in E1. destruct acc as [d0|]; cbn [rbind fst snd] in E1; [|discriminate]. destruct (probe_name long) as [p|]; cbn [rbind] in E1; [|discriminate]. destruct (pn_to Alias p) as [a|]; cbn [rbind as_obj] in E1; [|discriminate].
      unfold jfield at 1 in E1. destruct (jget probes (pn_name a)) as [je|] eqn:Eg; cbn [rbind] in E1; [|discriminate]. destruct (entry_inv w probes (pn_name a) je Epr Eg) as (pages & dd & o & ex & Rp & Gp & -> & Ex & Eo). cbn [as_obj rbind] in E1.
      destruct (load_nuis bp long x o) as [n|] eqn:En; cbn [rbind] in E1; [|discriminate]. injection E1 as <-.
      assert (N : forall b q, In (b, q) n -> from_bias bp ps b q \/ from_window w b q).
      { intros b q Hb. destruct (nuis_In bp long x o n dd ex (pn_name a) En Ex Eo b q Hb) as [(f & m & t & v & y & B1 & B2 & B3 & B4)|(B1 & B2 & B3)].
        - left. exists long, x, f, m, t, v, y. split; [apply Hl; left; reflexivity|]. auto.
        - right. rewrite B1 in Gp. exists pages, dd. auto. }
      exists d0. split; [reflexivity|]. split.
      - intros b q Hb. destruct (I1 b q Hb) as [X|X]; [left; exact X|]. apply In_dupdate_val in X. destruct X as [X|X]; [left; exact (N b q X)|right; exact X].
      - intros b N1 N2. rewrite (G1 b N1 N2). apply dget_dupdate_none. intros Ib. unfold dkeys in Ib. apply in_map_iff in Ib. destruct Ib as ([b' q] & Eb & Ib). cbn in Eb. subst b'. destruct (N b q Ib) as [X|X]; [exact (N1 q X)|exact (N2 q X)]. }
    match type of H with rbind ?a _ = _ => destruct a as [d|] eqn:Ef end; cbn [rbind] in H; [|discriminate]. injection H as <-. destruct (G ps _ d (fun kx h => h) Ef) as (d0 & E0 & I0 & G0). injection E0 as <-.
    exists base, pars. split; [reflexivity|]. split; [reflexivity|]. split; [reflexivity|]. split; [exact A|]. split.
    - intros a p I. destruct (I0 a p I) as [X|X]; [left; exact X|]. apply named_In in X. destruct X as [X|[]]. right. exact X.
    - exact G0.
  Qed.

  (** ** The table of parameters *)
  Theorem C123_parameters bp (w : window) j ps c n row : dump w = Ok j -> load_params bp j ps = Ok c -> NoDup (map fst (w_pars w)) -> In (n, row) (w_pars w) ->
    (forall f v, bp f = Ok v -> ~ In n (dkeys v)) -> (forall pages d, read_pages w = Ok pages -> dget String.eqb pages "WL" = Some d -> dget String.eqb d ("nuis_param_" ++ n)%string = None) ->
    exists f free u s m x b y, row = [f; free; u; s; m] /\ to_float f = Some x /\ str_to_bool free = Ok b /\ to_float s = Some y /\ pget c n = Some (mkPar n x x true None y b "" u m).
  Proof.
    intros Hd H N I Hb Hw. destruct (params_inv bp w j ps c Hd H) as (base & pars & _ & _ & _ & A & _ & G).
    assert (X : map (fun q => pp_name q) pars = map fst (w_pars w)). { clear -A. induction A as [|nr p l m R _ IH]; [reflexivity|]. cbn. rewrite IH. destruct R as (f & free & u & s & t & x & b & y & _ & _ & _ & _ & ->). reflexivity. }
    assert (Y : exists p, In p pars /\ row_par (n, row) p). { clear -A I. induction A as [|nr p l m R _ IH]; [destruct I|]. destruct I as [->|I]; [exists p; split; [left; reflexivity|exact R]|]. destruct (IH I) as (q & ? & ?). exists q. split; [right; assumption|assumption]. }
    destruct Y as (p & Ip & R). destruct R as (f & free & u & s & t & x & b & y & E1 & E2 & E3 & E4 & ->). cbn [fst snd] in *. exists f, free, u, s, t, x, b, y. repeat split; try assumption. rewrite G.
    - rewrite <- X in N. exact (named_get pars _ N Ip []).
    - intros q (long & z & f' & m & t' & v & y' & _ & _ & B & Iv & _). apply (Hb f' v B). unfold dkeys. apply in_map_iff. exists (n, y'). auto.
    - intros q (pages & d & Rp & Gp & (k & t' & z & ia & T & _ & _ & ->) & E). cbn in E. subst k. unfold text_of, dgetr in T. rewrite (Hw pages d Rp Gp) in T. discriminate.
  Qed.
  Theorem C123_displacements bp (w : window) j ps c : dump w = Ok j -> load_params bp j ps = Ok c ->
    exists base, rmapM (floatr to_float) (w_disps w) = Ok base /\ stem_disps c = disps_of base /\ (flat c = true <-> w_flat w <> 0%nat).
  Proof.
    intros Hd H. destruct (params_inv bp w j ps c Hd H) as (base & pars & A & B & C & _). exists base. split; [exact A|]. split; [exact B|]. rewrite C. unfold checked. destruct (Nat.eqb_spec (w_flat w) 0); cbn; split; congruence.
  Qed.
  (** A box counts as ticked in both of its states that are not 0. *)
  Theorem C123_box (d : options F) k n : dget String.eqb d k = Some (Box n) -> (box_of d k = Ok true <-> n <> 0%nat) /\ (box_of d k = Ok false <-> n = 0%nat).
  Proof. intros H. unfold box_of, dgetr. rewrite H. cbn [rbind]. unfold checked. destruct (Nat.eqb_spec n 0); cbn; split; split; congruence. Qed.

  (** ** Intrinsic alignments *)
  Theorem C123_no_lensing_parameters_refuted bp (w : window) j ps c : dump w = Ok j -> load_probes j = Ok ps -> load_params bp j ps = Ok c -> nuisance_for "Lensing" c = [].
  Proof.
    intros Hd Hp H. destruct (params_inv bp w j ps c Hd H) as (base & pars & _ & _ & _ & A & I & _). unfold nuisance_for, pfilter.
    assert (X : forall a p, In (a, p) (params c) -> is_nuis p && opt_eqb (pprobe p) (Some "Lensing") = false).
    { intros a p Hi. destruct (I a p Hi) as [[(long & x & f & m & t & v & y & B1 & B2 & _ & _ & ->)|(pages & d & _ & _ & (n & t & x & ia & _ & _ & _ & ->) & _)]|[Ip _]].
      - cbn. destruct (String.eqb_spec long "Lensing") as [->|]; [|reflexivity]. rewrite (load_probes_lens j ps Hp x B1) in B2. discriminate.
      - reflexivity.
      - assert (R : exists nr, row_par nr p). { clear -A Ip. induction A as [|nr q l m R _ IH]; [destruct Ip|]. destruct Ip as [->|Ip]; [exists nr; exact R|exact (IH Ip)]. }
        destruct R as (nr & f & free & u & s & t & x & b & y & _ & _ & _ & _ & ->). reflexivity. }
    clear I. induction (params c) as [|[a p] l IH]; [reflexivity|]. cbn [filter snd]. rewrite (X a p) by (left; reflexivity). apply IH. intros b q Hq. apply (X b q). right. exact Hq.
  Qed.
  Theorem C123_alignment_refuted (N : numerics F) bp (w : window) j ps c an files dens co fid cfg v r : dump w = Ok j -> load_probes j = Ok ps -> load_params bp j ps = Ok c ->
    dget String.eqb (pc_specific cfg) "include_IA" = Some v -> sv_true v = true -> weight_of N an files c dens co fid "Lensing" cfg <> Ok r.
  Proof.
    intros Hd Hp H E1 E2. unfold weight_of. rewrite (C123_no_lensing_parameters_refuted bp w j ps c Hd Hp H). cbn [negb smem]. destruct (negb (smem "Lensing" long_names)); [discriminate|]. destruct (dgetr dens "Lensing") as [d|]; cbn [rbind]; [|discriminate]. change (String.eqb "Lensing" "Lensing") with true. cbv iota. unfold lensing.
    match goal with |- rbind (rbind ?a _) _ <> _ => destruct a as [eff|] end; cbn [rbind]; [|discriminate]. unfold dgetr at 1. rewrite E1. cbn [rbind]. rewrite E2. unfold par_now at 1. cbn. discriminate.
  Qed.
  (** The parameters of the window are those of a probe with the name WL: no spectrum
      depends on them. *)
  Theorem C123_zero_derivative_refuted degen read load_cosmology analytic bp (w : window) j ps c n p L x x' : dump w = Ok j -> load_params bp j ps = Ok c -> In (n, p) (params c) -> is_cosmo p = false ->
    (forall f v, bp f = Ok v -> ~ In n (dkeys v)) -> In (d_p1 x) long_names -> In (d_p2 x) long_names -> DerModel.evaluate degen read load_cosmology analytic L c p x = Ok x' ->
    exists z, d_dc x' = Some z /\ forall t, In t (indices z) -> centry z t = fz.
  Proof.
    intros Hd H Ip Ec Hb H1 H2 E. destruct (params_inv bp w j ps c Hd H) as (base & pars & _ & _ & _ & A & I & _). destruct (I n p Ip) as [[(long & y & f & m & t & v & u & _ & _ & B & Iv & _)|(pages & d & _ & _ & (k & t & y & ia & _ & _ & _ & ->) & _)]|[Iq _]].
    - exfalso. apply (Hb f v B). unfold dkeys. apply in_map_iff. exists (n, u). auto.
    - assert (W : forall q, In q long_names -> "WL" <> q) by (intros q Hq <-; vm_compute in Hq; repeat destruct Hq as [Hq|Hq]; try discriminate; contradiction).
      destruct (C115_unrelated degen read load_cosmology analytic L c _ x x' "WL" E eq_refl eq_refl (W _ H1) (W _ H2)) as (f0 & l & fd & z & _ & _ & -> & _ & Z). exists z. split; [reflexivity|exact Z].
    - exfalso. assert (R : exists nr, row_par nr p). { clear -A Iq. induction A as [|nr q l m R _ IH]; [destruct Iq|]. destruct Iq as [->|Iq]; [exists nr; exact R|exact (IH Iq)]. } destruct R as (nr & f & free & u & s & t & y & b & z & _ & _ & _ & _ & ->). discriminate.
  Qed.

  (** ** The pages *)
  (** Where the multipoles shown on a page come from. *)
  Definition shown (e : ellw (F := F)) : source F :=
    if String.eqb (e_file e) "" then Grid (e_min e) (e_max e) (checked (e_log e)) (if checked (e_log e) then Some (e_n e) else None) else FromFile (e_file e).
  Definition ells_fields (e : ellw (F := F)) : list (string * json F) :=
    if String.eqb (e_file e) "" then [("l_min", JNum (e_min e)); ("l_max", JNum (e_max e)); ("ell_log_selection", JBool (checked (e_log e)))] ++ (if checked (e_log e) then [("log_l_number", JInt (e_n e))] else [])
    else [("ell_external_filename", JStr (e_file e))].
  (** The entry of a page, given its getters. *)
  Lemma entry_json name d e a l on de bf bm mb sp ex p : probe_name name = Ok p -> pn_to Alias p = Ok a -> pn_to Long p = Ok l -> box_of d "presence_flag" = Ok on ->
    text_of d "ell_external_filename" = Ok (e_file e) -> value_of d "l_min" = Ok (JNum (e_min e)) -> value_of d "l_max" = Ok (JNum (e_max e)) -> box_of d "ell_log_selection" = Ok (checked (e_log e)) -> value_of d "log_l_number" = Ok (JInt (e_n e)) ->
    text_of d "density_file" = Ok de -> optional d "bias_file" text_of JStr = Ok bf -> optional d "bias_derivative_method" choice_of JStr = Ok bm -> optional d "marginalize_bias_flag" box_of JBool = Ok mb ->
    specific (pn_name a) d = Ok sp -> extra to_float (pn_name a) d = Ok ex ->
    probe_json to_float name d = Ok (JObj ([("long_name", JStr (pn_name l)); ("presence_flag", JBool on)] ++ ells_fields e ++ [("density_file", JStr de)] ++ bf ++ bm ++ mb ++ [("specific_settings", JObj sp); ("extra_nuisance_parameters", JList ex)])).
  Proof.
    intros H1 H2 H3 H4 H5 H6 H7 H8 H9 H10 H11 H12 H13 H14 H15. unfold probe_json, ells_json, ells_fields. rewrite H1. cbn [rbind]. rewrite H2, H3. cbn [rbind]. rewrite H4. cbn [rbind]. rewrite H5. cbn [rbind]. rewrite H6, H7, H8, H9. cbn [rbind]. rewrite H10. cbn [rbind]. rewrite H11, H12, H13. cbn [rbind]. rewrite H14, H15. cbn [rbind].
    destruct (String.eqb (e_file e) ""); cbn [negb rbind]; [destruct (checked (e_log e)); reflexivity|reflexivity].
  Qed.
  Lemma entry_load (e : ellw) ln on de sp ex rest long :
    (String.eqb long "Lensing" = true /\ rest = [] \/ exists f t m, String.eqb long "Lensing" = false /\ rest = [("bias_file", JStr f); ("bias_derivative_method", JStr t); ("marginalize_bias_flag", JBool m)]) ->
    load_probe long ([("long_name", JStr ln); ("presence_flag", JBool on)] ++ ells_fields e ++ [("density_file", JStr de)] ++ rest ++ [("specific_settings", JObj sp); ("extra_nuisance_parameters", JList ex)]) =
    Ok (mkLd (shown e) de (match rest with (_, JStr f) :: (_, JStr t) :: (_, JBool m) :: _ => Some (f, m, t) | _ => None end) sp).
  Proof.
    intros H. unfold ells_fields, shown, load_probe. destruct H as [[-> ->]|(f & t & m & -> & ->)]; destruct (String.eqb (e_file e) ""); try (destruct (checked (e_log e))); reflexivity.
  Qed.
  Lemma entry_void (e : ellw) ln on de sp ex rest long : String.eqb long "Lensing" = false -> (exists f m, rest = [("bias_file", JStr f); ("marginalize_bias_flag", JBool m)]) ->
    load_probe long ([("long_name", JStr ln); ("presence_flag", JBool on)] ++ ells_fields e ++ [("density_file", JStr de)] ++ rest ++ [("specific_settings", JObj sp); ("extra_nuisance_parameters", JList ex)]) = Err EKeyError.
  Proof. intros E (f & m & ->). unfold ells_fields, load_probe. rewrite E. destruct (String.eqb (e_file e) ""); try (destruct (checked (e_log e))); reflexivity. Qed.
  Lemma entry_flag ln on (rest : list (string * json F)) : jfield ([("long_name", JStr ln); ("presence_flag", JBool on)] ++ rest) "presence_flag" = Ok (JBool on).
  Proof. reflexivity. Qed.

  Lemma extra_lens (l : lensw (F := F)) a b c d : to_float (l_a l) = Some a -> to_float (l_c l) = Some b -> to_float (l_eta l) = Some c -> to_float (l_beta l) = Some d -> exists ex, extra to_float "WL" (lens_page l) = Ok ex.
  Proof.
    intros E1 E2 E3 E4. unfold extra. change (String.eqb "WL" "WL") with true. cbv iota. replace (box_of (lens_page l) "include_IA") with (Ok (checked (l_ia l))) by reflexivity. cbn [rbind].
    replace (flat_map _ (dkeys (lens_page l))) with ["aIA"; "cIA"; "etaIA"; "betaIA"] by reflexivity. cbn [rmapM].
    change (text_of (lens_page l) ("nuis_param_" ++ "aIA")%string) with (Ok (l_a l)). change (text_of (lens_page l) ("nuis_param_" ++ "cIA")%string) with (Ok (l_c l)). change (text_of (lens_page l) ("nuis_param_" ++ "etaIA")%string) with (Ok (l_eta l)). change (text_of (lens_page l) ("nuis_param_" ++ "betaIA")%string) with (Ok (l_beta l)).
    unfold floatr. cbn [rbind]. rewrite E1, E2, E3, E4. cbn [rbind]. eexists. reflexivity.
  Qed.
  Lemma children_lens (l : lensw (F := F)) : children (lens_page l) = lens_page l.
  Proof. reflexivity. Qed.
  Lemma children_void (v : voidw (F := F)) : children (void_page v) = void_page v.
  Proof. reflexivity. Qed.
  Lemma children_ph (g : galw (F := F)) : children (gal_page [] g) = gal_page [] g.
  Proof. reflexivity. Qed.
  Lemma children_sp (g : galw (F := F)) off : children (gal_page [("compute_gcsp_cl_offdiag", Box off)] g) = gal_page [("compute_gcsp_cl_offdiag", Box off)] g.
  Proof. reflexivity. Qed.

  Definition gal_loaded (g : galw) (sp : list (string * json F)) : loaded F := mkLd (shown (g_ells g)) (g_dens g) (Some (g_bias g, checked (g_marg g), g_method g)) sp.
  Lemma shipped_probes fsky model fl pars disps (l : lensw) v ph sp off a b c d : to_float (l_a l) = Some a -> to_float (l_c l) = Some b -> to_float (l_eta l) = Some c -> to_float (l_beta l) = Some d ->
    exists o1 o2 o3 o4, probes_json to_float (shipped fsky model fl pars disps l v ph sp off) = Ok [("WL", JObj o1); ("GCph", JObj o2); ("GCsp", JObj o3); ("V", JObj o4)] /\
      (jfield o1 "presence_flag" = Ok (JBool (checked (l_on l))) /\ load_probe "Lensing" o1 = Ok (mkLd (shown (l_ells l)) (l_dens l) None [("include_IA", JBool (checked (l_ia l)))])) /\
      (jfield o2 "presence_flag" = Ok (JBool (checked (g_on ph))) /\ load_probe "PhotometricGalaxy" o2 = Ok (gal_loaded ph [])) /\
      (jfield o3 "presence_flag" = Ok (JBool (checked (g_on sp))) /\ load_probe "SpectroscopicGalaxy" o3 = Ok (gal_loaded sp [("compute_gcsp_cl_offdiag", JBool (checked off))])) /\
      (jfield o4 "presence_flag" = Ok (JBool (checked (v_on v))) /\ load_probe "Void" o4 = Err EKeyError).
  Proof.
    intros E1 E2 E3 E4. destruct (extra_lens l a b c d E1 E2 E3 E4) as (ex & Ex). unfold probes_json.
    replace (read_pages (shipped fsky model fl pars disps l v ph sp off)) with (Ok [("WL", children (lens_page l)); ("V", children (void_page v)); ("GCph", children (gal_page [] ph)); ("GCsp", children (gal_page [("compute_gcsp_cl_offdiag", Box off)] sp))]) by reflexivity.
    rewrite children_lens, children_void, children_ph, children_sp. cbn [rbind rmapM aliases]. unfold dgetr. cbn [dget String.eqb Ascii.eqb Bool.eqb rbind].
    rewrite (entry_json "WL" (lens_page l) (l_ells l) (mkPn "WL" Alias) (mkPn "Lensing" Long) (checked (l_on l)) (l_dens l) [] [] [] [("include_IA", JBool (checked (l_ia l)))] ex (mkPn "WL" Alias)) by (reflexivity || exact Ex). cbn [rbind].
    rewrite (entry_json "GCph" (gal_page [] ph) (g_ells ph) (mkPn "GCph" Alias) (mkPn "PhotometricGalaxy" Long) (checked (g_on ph)) (g_dens ph) [("bias_file", JStr (g_bias ph))] [("bias_derivative_method", JStr (g_method ph))] [("marginalize_bias_flag", JBool (checked (g_marg ph)))] [] [] (mkPn "GCph" Alias)) by reflexivity. cbn [rbind].
    rewrite (entry_json "GCsp" (gal_page [("compute_gcsp_cl_offdiag", Box off)] sp) (g_ells sp) (mkPn "GCsp" Alias) (mkPn "SpectroscopicGalaxy" Long) (checked (g_on sp)) (g_dens sp) [("bias_file", JStr (g_bias sp))] [("bias_derivative_method", JStr (g_method sp))] [("marginalize_bias_flag", JBool (checked (g_marg sp)))] [("compute_gcsp_cl_offdiag", JBool (checked off))] [] (mkPn "GCsp" Alias)) by reflexivity. cbn [rbind].
    rewrite (entry_json "V" (void_page v) (v_ells v) (mkPn "V" Alias) (mkPn "Void" Long) (checked (v_on v)) (v_dens v) [("bias_file", JStr (v_bias v))] [] [("marginalize_bias_flag", JBool (checked (v_marg v)))] [("void_kcut_invMpc", JNum (v_cut v)); ("void_kcut_width_invMpc", JNum (v_width v))] [] (mkPn "V" Alias)) by reflexivity. cbn [rbind pn_name].
    do 4 eexists. split; [reflexivity|]. split; [|split; [|split]]; (split; [apply entry_flag|]).
    - exact (entry_load (l_ells l) "Lensing" (checked (l_on l)) (l_dens l) [("include_IA", JBool (checked (l_ia l)))] ex [] "Lensing" (or_introl (conj eq_refl eq_refl))).
    - exact (entry_load (g_ells ph) "PhotometricGalaxy" (checked (g_on ph)) (g_dens ph) [] [] [("bias_file", JStr (g_bias ph)); ("bias_derivative_method", JStr (g_method ph)); ("marginalize_bias_flag", JBool (checked (g_marg ph)))] "PhotometricGalaxy" (or_intror (ex_intro _ _ (ex_intro _ _ (ex_intro _ _ (conj eq_refl eq_refl)))))).
    - exact (entry_load (g_ells sp) "SpectroscopicGalaxy" (checked (g_on sp)) (g_dens sp) [("compute_gcsp_cl_offdiag", JBool (checked off))] [] [("bias_file", JStr (g_bias sp)); ("bias_derivative_method", JStr (g_method sp)); ("marginalize_bias_flag", JBool (checked (g_marg sp)))] "SpectroscopicGalaxy" (or_intror (ex_intro _ _ (ex_intro _ _ (ex_intro _ _ (conj eq_refl eq_refl)))))).
    - exact (entry_void (v_ells v) "Void" (checked (v_on v)) (v_dens v) [("void_kcut_invMpc", JNum (v_cut v)); ("void_kcut_width_invMpc", JNum (v_width v))] [] [("bias_file", JStr (v_bias v)); ("marginalize_bias_flag", JBool (checked (v_marg v)))] "Void" eq_refl (ex_intro _ _ (ex_intro _ _ eq_refl))).
  Qed.
  Definition good_texts (fsky : string) (pars : list (string * list string)) (l : lensw (F := F)) : Prop :=
    (exists x, to_float fsky = Some x) /\ (forall nr, In nr pars -> exists p, row_par nr p) /\
    forall t, In t [l_a l; l_c l; l_eta l; l_beta l] -> exists x, to_float t = Some x.
  Lemma shipped_dump fsky model fl pars disps (l : lensw) v ph sp off probes : good_texts fsky pars l -> probes_json to_float (shipped fsky model fl pars disps l v ph sp off) = Ok probes ->
    exists j, dump (shipped fsky model fl pars disps l v ph sp off) = Ok j.
  Proof.
    intros ((x & Ex) & Hp & _) H. unfold GuiModel.dump, floatr. rewrite H. cbn [w_fsky w_pars w_model w_flat w_disps shipped]. rewrite Ex. cbn [rbind].
    assert (X : exists js, rmapM (par_json to_float) pars = Ok js).
    { clear -Hp. induction pars as [|nr rows IH]; [eexists; reflexivity|]. destruct (Hp nr (or_introl eq_refl)) as (p & f & free & u & s & m & x & b & y & E1 & E2 & E3 & E4 & _). destruct IH as (js & E); [intros; apply Hp; right; assumption|]. cbn [rmapM]. unfold par_json at 1. rewrite E1. unfold floatr. rewrite E2. cbn [rbind]. rewrite E3, E4. cbn [rbind]. rewrite E. eexists. reflexivity. }
    destruct X as (js & ->). cbn [rbind]. eexists. reflexivity.
  Qed.
  Theorem C123_loaded fsky model fl pars disps (l : lensw) v ph sp off : good_texts fsky pars l -> checked (v_on v) = false ->
    exists j, dump (shipped fsky model fl pars disps l v ph sp off) = Ok j /\
      load_probes j = Ok ((if checked (l_on l) then [("Lensing", mkLd (shown (l_ells l)) (l_dens l) None [("include_IA", JBool (checked (l_ia l)))])] else []) ++
                          (if checked (g_on ph) then [("PhotometricGalaxy", gal_loaded ph [])] else []) ++
                          (if checked (g_on sp) then [("SpectroscopicGalaxy", gal_loaded sp [("compute_gcsp_cl_offdiag", JBool (checked off))])] else [])).
  Proof.
    intros G V. destruct (proj2 (proj2 G) (l_a l)) as (a & Ea); [cbn; auto|]. destruct (proj2 (proj2 G) (l_c l)) as (b & Eb); [cbn; auto|]. destruct (proj2 (proj2 G) (l_eta l)) as (c & Ec); [cbn; auto|]. destruct (proj2 (proj2 G) (l_beta l)) as (d & Ed); [cbn; auto|].
    destruct (shipped_probes fsky model fl pars disps l v ph sp off a b c d Ea Eb Ec Ed) as (o1 & o2 & o3 & o4 & P & (F1 & L1) & (F2 & L2) & (F3 & L3) & (F4 & _)). destruct (shipped_dump fsky model fl pars disps l v ph sp off _ G P) as (j & Hj). exists j. split; [exact Hj|].
    destruct (dump_inv _ _ Hj) as (fs & js & probes & _ & _ & P' & J & _). rewrite P in P'. injection P' as <-. unfold load_probes. rewrite J. cbn [rbind as_obj fold_left fst snd]. rewrite F1. cbn [rbind as_flag]. rewrite F2, F3, F4, V, ?L1, ?L2, ?L3.
    destruct (checked (l_on l)), (checked (g_on ph)), (checked (g_on sp)); cbn [rbind as_flag as_obj]; rewrite ?F2, ?F3, ?F4; cbn [rbind as_flag as_obj];
    change (probe_name "WL") with (@Ok pname (mkPn "WL" Alias)); change (probe_name "GCph") with (@Ok pname (mkPn "GCph" Alias)); change (probe_name "GCsp") with (@Ok pname (mkPn "GCsp" Alias)); cbn [rbind];
    change (pn_to Long (mkPn "WL" Alias)) with (@Ok pname (mkPn "Lensing" Long)); change (pn_to Long (mkPn "GCph" Alias)) with (@Ok pname (mkPn "PhotometricGalaxy" Long)); change (pn_to Long (mkPn "GCsp" Alias)) with (@Ok pname (mkPn "SpectroscopicGalaxy" Long)); cbn [rbind pn_name]; rewrite ?L1, ?L2, ?L3; reflexivity.
  Qed.
  Theorem C123_void_refuted fsky model fl pars disps (l : lensw) v ph sp off j : good_texts fsky pars l -> checked (v_on v) = true ->
    dump (shipped fsky model fl pars disps l v ph sp off) = Ok j -> load_probes j = Err EKeyError.
  Proof.
    intros G V Hj. destruct (proj2 (proj2 G) (l_a l)) as (a & Ea); [cbn; auto|]. destruct (proj2 (proj2 G) (l_c l)) as (b & Eb); [cbn; auto|]. destruct (proj2 (proj2 G) (l_eta l)) as (c & Ec); [cbn; auto|]. destruct (proj2 (proj2 G) (l_beta l)) as (d & Ed); [cbn; auto|].
    destruct (shipped_probes fsky model fl pars disps l v ph sp off a b c d Ea Eb Ec Ed) as (o1 & o2 & o3 & o4 & P & (F1 & L1) & (F2 & L2) & (F3 & L3) & (F4 & L4)).
    destruct (dump_inv _ _ Hj) as (fs & js & probes & _ & _ & P' & J & _). rewrite P in P'. injection P' as <-. unfold load_probes. rewrite J. cbn [rbind as_obj fold_left fst snd]. rewrite F1. cbn [rbind as_flag]. rewrite F2, F3, F4, V, ?L1, ?L2, ?L3.
    destruct (checked (l_on l)), (checked (g_on ph)), (checked (g_on sp)); cbn [rbind as_flag as_obj]; rewrite ?F2, ?F3, ?F4; cbn [rbind as_flag as_obj];
    change (probe_name "WL") with (@Ok pname (mkPn "WL" Alias)); change (probe_name "GCph") with (@Ok pname (mkPn "GCph" Alias)); change (probe_name "GCsp") with (@Ok pname (mkPn "GCsp" Alias)); change (probe_name "V") with (@Ok pname (mkPn "V" Alias)); cbn [rbind];
    change (pn_to Long (mkPn "WL" Alias)) with (@Ok pname (mkPn "Lensing" Long)); change (pn_to Long (mkPn "GCph" Alias)) with (@Ok pname (mkPn "PhotometricGalaxy" Long)); change (pn_to Long (mkPn "GCsp" Alias)) with (@Ok pname (mkPn "SpectroscopicGalaxy" Long)); change (pn_to Long (mkPn "V" Alias)) with (@Ok pname (mkPn "Void" Long)); cbn [rbind pn_name]; rewrite ?L1, ?L2, ?L3; cbn [rbind]; rewrite ?F4; cbn [rbind as_flag]; rewrite L4; reflexivity.
  Qed.
  (** The box for a file of multipoles is not read. *)
  Theorem C123_box_refuted fsky model fl pars disps (l : lensw) v ph sp off n b : 
    dump (shipped fsky model fl pars disps (mkLensw (mkEllw (e_n (l_ells l)) (e_log (l_ells l)) (e_max (l_ells l)) (e_min (l_ells l)) n (e_file (l_ells l))) (l_on l) (l_dens l) (l_a l) (l_c l) (l_eta l) (l_beta l) (l_ia l)) v ph sp off) =
    dump (shipped fsky model fl pars disps (mkLensw (mkEllw (e_n (l_ells l)) (e_log (l_ells l)) (e_max (l_ells l)) (e_min (l_ells l)) b (e_file (l_ells l))) (l_on l) (l_dens l) (l_a l) (l_c l) (l_eta l) (l_beta l) (l_ia l)) v ph sp off).
  Proof. reflexivity. Qed.
End Props.

(** ** The name of the file *)
Lemma lstrip_plain n r : has "." n = false -> n <> "" -> lstrip_dots (n ++ r)%string = (n ++ r)%string.
Proof. destruct n as [|a n]; intros H N; [congruence|]. cbn in *. apply orb_false_iff in H. destruct H as [-> _]. reflexivity. Qed.
Lemma out_extend n : smem ".json" (suffixes n) = false -> out_name n None = (n ++ ".json")%string.
Proof. unfold out_name. intros ->. reflexivity. Qed.
Lemma suffixes_dot n r : has "." n = false -> n <> "" -> suffixes (n ++ "." ++ r)%string = if String.eqb (last (split_char "." r) "") "" then [] else map (fun s => ("." ++ s)%string) (split_char "." r).
Proof.
  intros H N. unfold suffixes. rewrite (lstrip_plain n ("." ++ r)%string H N). change ("." ++ r)%string with (String "." r). rewrite (split_app "." n r H). cbn [tl].
  destruct (split_char "." r) as [|x l] eqn:E; [exfalso; exact (split_nonempty _ _ E)|reflexivity].
Qed.
Theorem C123_file n e : has "." n = false -> n <> "" -> out_name n None = (n ++ ".json")%string /\ out_name (n ++ ".json")%string None = (n ++ ".json")%string /\
  (has "." e = false -> e <> "json" -> out_name (n ++ "." ++ e)%string None = (n ++ "." ++ e ++ ".json")%string).
Proof.
  intros H N. split; [|split].
  - apply out_extend. unfold suffixes. rewrite <- (sapp_nil_r n) at 2. rewrite (lstrip_plain n "" H N), sapp_nil_r, (split_none "." n H). cbn. destruct (String.eqb_spec n ""); [congruence|reflexivity].
  - unfold out_name. change ".json" with ("." ++ "json")%string. rewrite (suffixes_dot n "json" H N). reflexivity.
  - intros He Ne. rewrite out_extend; [rewrite !sapp_assoc; reflexivity|]. rewrite (suffixes_dot n e H N), (split_none "." e He). cbn [last]. destruct (String.eqb_spec e ""); [reflexivity|]. cbn [map]. unfold smem. cbn [existsb]. rewrite orb_false_r. apply String.eqb_neq. change ("." ++ e)%string with (String "." e). congruence.
Qed.
(** A stamp with a version number is put behind an extension that is given. *)
Theorem C123_file_stamp n v1 v2 r : has "." n = false -> n <> "" -> has "." v1 = false -> has "." v2 = false -> has "." r = false -> r <> "" -> v1 <> "json" -> v2 <> "json" -> r <> "json" ->
  out_name n (Some (v1 ++ "." ++ v2 ++ "." ++ r)%string) = (n ++ "_" ++ v1 ++ "." ++ v2 ++ "." ++ r ++ ".json")%string /\
  out_name (n ++ ".json") (Some (v1 ++ "." ++ v2 ++ "." ++ r)%string) = (n ++ ".json_" ++ v1 ++ "." ++ v2 ++ "." ++ r ++ ".json")%string.
Proof.
  intros H N A1 A2 A3 N3 B1 B2 B3.
  assert (P : forall a b : string, has "." a = false -> has "." b = false -> has "." (a ++ b) = false) by (intros a b E1 E2; rewrite has_app, E1, E2; reflexivity).
  split.
  - transitivity (out_name ((n ++ "_" ++ v1) ++ "." ++ v2 ++ "." ++ r)%string None); [unfold out_name; rewrite !sapp_assoc; reflexivity|].
    rewrite out_extend; [rewrite !sapp_assoc; reflexivity|]. rewrite suffixes_dot; [|apply P; [exact H|apply P; [reflexivity|exact A1]]|destruct n; [congruence|discriminate]].
    change ("." ++ r)%string with (String "." r). rewrite (split_app "." v2 r A2), (split_none "." r A3). cbn [last]. destruct (String.eqb_spec r ""); [congruence|]. cbn [map]. unfold smem. cbn [existsb]. rewrite orb_false_r. apply orb_false_iff. split; apply String.eqb_neq; cbn; congruence.
  - transitivity (out_name (n ++ "." ++ ("json_" ++ v1) ++ "." ++ v2 ++ "." ++ r)%string None); [unfold out_name; rewrite !sapp_assoc; reflexivity|].
    rewrite out_extend; [rewrite !sapp_assoc; reflexivity|]. rewrite (suffixes_dot n _ H N). change ("." ++ v2 ++ "." ++ r)%string with (String "." (v2 ++ String "." r)). rewrite (split_app "." ("json_" ++ v1)%string); [|apply P; [reflexivity|exact A1]].
    rewrite (split_app "." v2 r A2), (split_none "." r A3). cbn [last]. destruct (String.eqb_spec r ""); [congruence|]. cbn [map]. unfold smem. cbn [existsb]. rewrite orb_false_r. repeat (apply orb_false_iff; split); apply String.eqb_neq; cbn; congruence.
Qed.
Theorem C123_file_inner_refuted n e : has "." n = false -> n <> "" -> has "." e = false -> e <> "" -> out_name (n ++ ".json." ++ e)%string None = (n ++ ".json." ++ e)%string.
Proof.
  intros H N A B. unfold out_name. change (n ++ ".json." ++ e)%string with (n ++ "." ++ ("json" ++ String "." e))%string. rewrite (suffixes_dot n _ H N), (split_app "." "json" e eq_refl), (split_none "." e A). cbn [last]. destruct (String.eqb_spec e ""); [congruence|]. reflexivity.
Qed.

(** ** A window *)
Definition ex_float (s : string) : option Qc := if String.eqb s "0.4" then Some (qq 2 5) else if String.eqb s "1.5" then Some (qq 3 2) else if String.eqb s "0" then Some (qz 0) else None.
Definition ex_e : ellw (F := Qc) := mkEllw 100%Z 2 (qz 3000) (qz 10) 0 "".
Definition ex_l : lensw (F := Qc) := mkLensw ex_e 2 "wl.h5" "1.5" "0.4" "0" "1.5" 2.
Definition ex_v : voidw (F := Qc) := mkVoidw ex_e 0 "v.h5" "vb.h5" 0 (qq 1 2) (qq 1 5).
Definition ex_g : galw (F := Qc) := mkGalw ex_e 2 "ph.h5" "phb.h5" 2 "SteM".
Definition ex_s : galw (F := Qc) := mkGalw ex_e 0 "sp.h5" "spb.h5" 2 "vecSteM".
Definition ex_pars := [("h", ["0.4"; "True"; "None"; "1.5"; "SteM"])].
Definition ex_win := shipped "0.4" "CPL" 2 ex_pars ["0.4"; "1.5"] ex_l ex_v ex_g ex_s 0.
Definition ex_bias (f : string) : res (dict string Qc) := if String.eqb f "phb.h5" then Ok [("bgph0", qz 1)] else Err EFileNotFound.
Example C123_instance : good_texts ex_float "0.4" ex_pars ex_l /\
  (match (j <- dump ex_float ex_win ;; ps <- load_probes j ;; c <- load_params ex_float ex_bias j ps ;; Ok (ps, c)) with
   | Ok (ps, c) => dkeys ps = ["Lensing"; "PhotometricGalaxy"] /\ dkeys (params c) = ["h"; "aIA"; "cIA"; "etaIA"; "betaIA"; "bgph0"] /\ flat c = true /\ pget c "h" = Some (mkPar "h" (qq 2 5) (qq 2 5) true None (qq 3 2) true "" "None" "SteM") /\ nuisance_for "Lensing" c = []
   | Err _ => False
   end).
Proof.
  split.
  - split; [eexists; reflexivity|]. split.
    + intros nr [<-|[]]. eexists. unfold row_par. do 8 eexists. repeat split; reflexivity.
    + intros t H. cbn in H. decompose [or] H; subst; try contradiction; eexists; reflexivity.
  - vm_compute. repeat split; reflexivity.
Qed.

Print Assumptions C123_parameters.
Print Assumptions C123_displacements.
Print Assumptions C123_box.
Print Assumptions C123_no_lensing_parameters_refuted.
Print Assumptions C123_alignment_refuted.
Print Assumptions C123_zero_derivative_refuted.
Print Assumptions C123_loaded.
Print Assumptions C123_void_refuted.
Print Assumptions C123_box_refuted.
Print Assumptions C123_file.
Print Assumptions C123_file_stamp.
Print Assumptions C123_file_inner_refuted.
