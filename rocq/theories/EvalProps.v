(** Properties C04-C11: multipoles, covariance and Fisher elements of a data
    vector. *)
From Verif Require Import Base SortLib StrLib MatInv LabLin LinalgModel FrameModel FrameLemmas KeyModel KeySpec KeyLemmas
  ParamModel EvalModel EvalSpec EllLemmas CovLemmas CovLemmas2 DerivLemmas FishEval FishEval2 FishEval3 Wick FishEval4.
From Coq Require Import Sorted Permutation Field.
Open Scope list_scope.

Section Props.
  Context {F : Type} {K : Fld F} {O : OFld (F := F)} {SO : SetOrder}.
  Open Scope fld_scope.

  (** ** C04 *)
  Theorem C04_exact_intersection (arrays : list (list F)) : (2 <= length arrays)%nat ->
    exists r, arrays_intersection arrays = Ok r /\ increasing r /\ forall x, In x r <-> forall a, In a arrays -> In x a.
  Proof. exact (intersection_spec arrays). Qed.
  Theorem C04_any_order (arrays arrays' : list (list F)) :
    Permutation arrays arrays' -> arrays_intersection arrays = arrays_intersection arrays'.
  Proof. exact (intersection_perm arrays arrays'). Qed.
  Theorem C04_empty_rejected : exists e, arrays_intersection (F := F) [] = Err e.
  Proof. exact (ex_intro _ _ eq_refl). Qed.
  Theorem C04_single_as_given (a : list F) : arrays_intersection [a] = Ok a.
  Proof. exact eq_refl. Qed.

  (** ** C05 *)
  Theorem C05_aligned {Key} vals lget (items : list (Key * cube F)) ells masked :
    mask_common vals lget items = Ok (ells, masked) ->
    (forall a, In a vals -> increasing a) ->
    (forall k c l, In (k, c) items -> lget k = Ok l -> In l vals) ->
    increasing ells /\ (forall x, In x ells <-> forall a, In a vals -> In x a) /\
    Forall2 (fun kc kc' => fst kc' = fst kc /\ exists l, lget (fst kc) = Ok l /\ aligned ells l (snd kc) (snd kc')) items masked.
  Proof. exact (mask_common_aligned vals lget items ells masked). Qed.
  Theorem C05_succeeds {Key} vals lget (items : list (Key * cube F)) : vals <> [] ->
    (forall k c, In (k, c) items -> exists l, lget k = Ok l /\ length l = length (crows c)) ->
    exists r, mask_common vals lget items = Ok r.
  Proof. exact (mask_common_ok vals lget items). Qed.

  (** ** C06 *)
  Theorem C06_block nb (d : spectra (F := F)) k k' A B C D AB CD :
    wf_spectra nb d -> is_key k A B AB -> is_key k' C D CD ->
    (forall p q, In p [A; B; C; D] -> In q [A; B; C; D] -> available d p q) ->
    exists sells scls ells blk,
      smart_of (ells_of (raw_spectra d)) = Ok sells /\ smart_of (cls_of (raw_spectra d)) = Ok scls /\
      cov_block AB CD sells scls = Ok (ells, blk) /\ increasing ells /\
      (forall x, In x ells <-> In x (ells_at d A C) /\ In x (ells_at d B D) /\ In x (ells_at d A D) /\ In x (ells_at d B C)) /\
      laid ells (map (pair (A, B)) (bin_pairs nb A B)) (map (pair (C, D)) (bin_pairs nb C D)) (gauss d) blk.
  Proof.
    intros W HAB HCD Av. apply is_key_iff in HAB, HCD. subst AB CD. destruct (smart_pair d) as (sl & sc & El & Ec & L).
    destruct (cov_block_ok nb d sl sc k k' A B C D W L Av) as (ells & blk & E & Si & MM & La).
    exists sl, sc, ells, blk. exact (conj El (conj Ec (conj E (conj Si (conj MM La))))).
  Qed.
  Theorem C06_assembled nb (d : spectra (F := F)) l dv : l <> [] -> dv_of (map spell1 l) = Ok dv ->
    wf_spectra nb d -> symmetric_spectra d ->
    (forall p q, In p (probes_of l) -> In q (probes_of l) -> available d p q) ->
    exists ells m, assemble dv (raw_spectra d) = Ok (ells, m) /\ increasing ells /\
      (forall x, In x ells <-> common d l x) /\ laid ells (components nb l) (components nb l) (gauss d) m.
  Proof. intros Nl E. rewrite dv_of_key in E. injection E as <-. exact (assemble_ok nb d l Nl). Qed.

  (** ** C07 *)
  Theorem C07_symmetric nb (d : spectra (F := F)) l dv : l <> [] -> dv_of (map spell1 l) = Ok dv -> wf_spectra nb d ->
    (forall p q, p <> q -> stored d p q = None \/ stored d q p = None) ->
    (forall p ls c M i j, stored d p p = Some (ls, c) -> In M (crows c) -> M i j = M j i) ->
    (forall p q, In p (probes_of l) -> In q (probes_of l) -> available d p q) ->
    exists ells m, assemble dv (raw_spectra d) = Ok (ells, m) /\ cnr m = cnc m /\ length (crows m) = length ells /\
      forall M r c, In M (crows m) -> (r < cnr m)%nat -> (c < cnr m)%nat -> M r c = M c r.
  Proof.
    intros Nl E W H1 H2 Av. pose proof (one_orientation d H1 H2) as S. rewrite dv_of_key in E. injection E as <-.
    destruct (assemble_ok nb d l Nl W S Av) as (ells & m & Ea & Si & MM & (L1 & L2 & L3 & L4)).
    exists ells, m. split; [exact Ea|]. split; [congruence|]. split; [exact L3|]. intros M r c HM Hr Hc.
    apply In_nth_error in HM. destruct HM as (t & Ht).
    destruct (nth_error ells t) as [x|] eqn:Ex.
    2:{ apply nth_error_None in Ex. pose proof (proj1 (nth_error_Some (crows m) t) (fun C => match eq_trans (eq_sym C) Ht with eq_refl => I end)). lia. }
    rewrite L1 in Hr, Hc. pose proof (nth_error_nth' (components nb l) ((Ph, Ph), (0, 0)%nat) Hr) as Er. pose proof (nth_error_nth' (components nb l) ((Ph, Ph), (0, 0)%nat) Hc) as Ec.
    pose proof (L4 t x M r c _ _ Ex Ht Er Ec) as G1. pose proof (L4 t x M c r _ _ Ex Ht Ec Er) as G2. rewrite (gauss_sym d x _ _ S) in G1. congruence.
  Qed.

  (** ** C08 *)
  Theorem C08_terms nb l dv c d ds autos m fe : dv_of (map spell1 l) = Ok dv -> good_inputs nb l d ds ->
    compute_fisher dv c (raw_derivs ds) (raw_spectra d) autos = Ok (m, fe) ->
    exists pars ells (Inv : F -> nat -> nat -> F), free_parameters dv c = Ok pars /\ NoDup (dkeys pars) /\
      increasing ells /\ (forall x, In x ells <-> common d l x) /\
      (forall x, In x ells -> inverse_at (length (components nb l)) (cov_at nb l d x) (Inv x)) /\
      fe_ells fe = ells /\
      (forall a b, dget spair_eqb (fe_cols fe) (a, b) =
         if smem a (dkeys pars) && smem b (dkeys pars) then Some (map (fisher_term nb l ds Inv a b) ells) else None) /\
      (* a data vector of one auto-correlation: the sum over the multipoles *)
      ((exists k p, l = [(k, (p, p))]) -> ix m = ssort (dkeys pars) /\ cx m = ssort (dkeys pars) /\
         forall a b, f_get m a b = if smem a (dkeys pars) && smem b (dkeys pars) then Some (Fsum (fisher_term nb l ds Inv a b) ells) else None).
  Proof.
    intros E G H. rewrite dv_of_key in E. injection E as <-.
    destruct (fisher_main nb l c d ds autos m fe G H) as (pars & cov & Ep & Ec & N & Si & MM & Hi & Ho & Hs & _).
    exists pars, (cv_ells cov), (inv_of cov). destruct Ho as (He & Hg & Hk).
    split; [exact Ep|]. split; [exact N|]. split; [exact Si|]. split; [exact MM|]. split; [exact Hi|]. split; [exact He|]. split.
    - intros a b. destruct (smem_spec a (dkeys pars)) as [Ha|Ha], (smem_spec b (dkeys pars)) as [Hb|Hb]; cbn [andb]; [exact (Hg a b Ha Hb)| | |];
        (destruct (dget spair_eqb (fe_cols fe) (a, b)) as [col|] eqn:Ed; [|reflexivity]; apply (dget_In _ spair_spec) in Ed; destruct (Hk _ _ Ed) as (H1 & H2 & _); contradiction).
    - intros (k & p & ->). rewrite Hs by (cbn; destruct p; reflexivity). exact (joint_cells _ _ _ _ _ _ _ (conj He (conj Hg Hk)) N).
  Qed.
  Theorem C08_symmetric_terms nb l dv c d ds autos m fe : dv_of (map spell1 l) = Ok dv -> good_inputs nb l d ds ->
    compute_fisher dv c (raw_derivs ds) (raw_spectra d) autos = Ok (m, fe) ->
    forall a b, dget spair_eqb (fe_cols fe) (a, b) = dget spair_eqb (fe_cols fe) (b, a) /\
      ((exists k p, l = [(k, (p, p))]) -> f_get m a b = f_get m b a).
  Proof.
    intros E G H a b. destruct (C08_terms nb l dv c d ds autos m fe E G H) as (pars & ells & Inv & _ & _ & _ & _ & Hi & _ & Ht & Hm).
    assert (S : forall x, In x ells -> fisher_term nb l ds Inv a b x = fisher_term nb l ds Inv b a x)
      by (intros x Hx; apply (term_symm nb l d); [exact (proj1 (proj2 G))|apply Hi; exact Hx]).
    split.
    - rewrite !Ht. rewrite (andb_comm (smem b _)). destruct (_ && _); [|reflexivity]. f_equal. apply map_ext_in. exact S.
    - intros Hl. destruct (Hm Hl) as (_ & _ & Hc). rewrite !Hc. rewrite (andb_comm (smem b _)). destruct (_ && _); [|reflexivity]. f_equal. apply Fsum_ext. exact S.
  Qed.
  Theorem C08_order_of_parameters nb l dv c c' d ds autos m fe m' fe' : dv_of (map spell1 l) = Ok dv -> good_inputs nb l d ds ->
    NoDup (dkeys (params c)) -> Permutation (params c) (params c') ->
    compute_fisher dv c (raw_derivs ds) (raw_spectra d) autos = Ok (m, fe) ->
    compute_fisher dv c' (raw_derivs ds) (raw_spectra d) autos = Ok (m', fe') ->
    forall a b, f_get m a b = f_get m' a b.
  Proof. intros E. rewrite dv_of_key in E. injection E as <-. exact (order_independent nb l c c' d ds autos m fe m' fe'). Qed.
  (** The computation succeeds when the inputs cover what it needs: at least
      two common multipoles, the same for every derivative; a non-singular
      covariance; for more than one auto-correlation the single-probe terms. *)
  Theorem C08_succeeds nb l dv c d ds autos pars : dv_of (map spell1 l) = Ok dv -> good_inputs nb l d ds -> l <> [] ->
    free_parameters dv c = Ok pars -> dkeys pars <> [] ->
    (forall n, In n (dkeys pars) -> exists dd, In (n, dd) ds) ->
    (forall n dd, In (n, dd) ds -> forall x, (forall e, In e l -> In x (ells_at dd (fst (snd e)) (snd (snd e)))) <-> common d l x) ->
    (exists x y, x <> y /\ common d l x /\ common d l y) ->
    (forall x, common d l x -> regular (length (components nb l)) (cov_at nb l d x)) ->
    ((forall k p, l <> [(k, (p, p))]) -> exists au, autos = Some au /\ forall p, In p (auto_probes l) -> dget String.eqb au (pname Alias p) <> None) ->
    exists m fe, compute_fisher dv c (raw_derivs ds) (raw_spectra d) autos = Ok (m, fe).
  Proof.
    intros E G Nl Ep Nn H1 H2 H3 H4 H5. rewrite dv_of_key in E. injection E as <-.
    apply (compute_ok nb l c d ds autos pars G Nl Ep Nn H1 H2 H3 H4). intros Hs. apply H5. intros k p ->.
    cbn in Hs. destruct p; discriminate.
  Qed.

  (** ** C09 *)
  Theorem C09_positive_semidefinite nb l dv c d ds autos m fe : dv_of (map spell1 l) = Ok dv -> good_inputs nb l d ds ->
    compute_fisher dv c (raw_derivs ds) (raw_spectra d) autos = Ok (m, fe) ->
    (forall x, common d l x -> psd (seq 0 (length (components nb l))) (cov_at nb l d x)) ->
    (forall au p fa, autos = Some au -> dget String.eqb au p = Some fa -> wf_fell fa /\ psd_terms fa) ->
    wf_fell fe /\ psd_terms fe /\ forall L v, fle 0 (quad L v (fun a b => oval (f_get m a b))).
  Proof. intros E. rewrite dv_of_key in E. injection E as <-. exact (fisher_psd nb l c d ds autos m fe). Qed.
  (** The hypothesis on the covariance holds when the spectra themselves form a
      positive semi-definite matrix. *)
  Theorem C09_positive_covariance nb l (d : spectra (F := F)) x : wf_spectra nb d -> symmetric_spectra d ->
    common d l x -> fle 0 x -> psd_spectra nb l d x ->
    psd (seq 0 (length (components nb l))) (cov_at nb l d x).
  Proof. exact (cov_psd nb l d x). Qed.

  (** ** C10 *)
  Theorem C10_counted_once nb l dv c d ds autos m fe : dv_of (map spell1 l) = Ok dv -> good_inputs nb l d ds ->
    (forall k p, l <> [(k, (p, p))]) ->
    compute_fisher dv c (raw_derivs ds) (raw_spectra d) autos = Ok (m, fe) ->
    exists pars ells Inv au, free_parameters dv c = Ok pars /\ autos = Some au /\
      (forall x, In x ells <-> common d l x) /\
      (forall x, In x ells -> inverse_at (length (components nb l)) (cov_at nb l d x) (Inv x)) /\
      (forall p, In p (auto_probes l) -> exists fa, dget String.eqb au (pname Alias p) = Some fa) /\
      forall a b,
        oval (f_get m a b) =
          (if smem a (dkeys pars) && smem b (dkeys pars) then Fsum (fisher_term nb l ds Inv a b) ells else 0) +
          Fsum (fun p => match dget String.eqb au (pname Alias p) with Some fa => own fa ells a b | None => 0 end) (auto_probes l) /\
        (f_get m a b <> None <->
          (In a (dkeys pars) /\ In b (dkeys pars)) \/
          exists p fa, In p (auto_probes l) /\ dget String.eqb au (pname Alias p) = Some fa /\
            dget spair_eqb (fe_cols fa) (a, b) <> None /\ exists x, In x (fe_ells fa) /\ ~ In x ells).
  Proof.
    intros E G Ns H. rewrite dv_of_key in E. injection E as <-.
    destruct (fisher_main nb l c d ds autos m fe G H) as (pars & cov & Ep & Ec & N & Si & MM & Hi & Ho & _ & Hm).
    assert (Es : single l = false).
    { destruct l as [|[k [p q]] [|e l']]; [reflexivity| |reflexivity]. cbn. destruct (probe_eqb_spec p q) as [->|]; [|reflexivity]. exfalso. apply (Ns k q). reflexivity. }
    destruct (Hm Es) as (au & Ea & Hin & Hc). exists pars, (cv_ells cov), (inv_of cov), au.
    split; [exact Ep|]. split; [exact Ea|]. split; [exact MM|]. split; [exact Hi|]. split.
    - intros p Hp. specialize (Hin p Hp). destruct (dget String.eqb au (pname Alias p)) as [fa|]; [eauto|congruence].
    - intros a b. destruct (Hc a b) as [V D]. split; [exact V|]. rewrite D. split; (intros [Hl|Hr]; [left; exact Hl|right]).
      + destruct Hr as (p & Hp & fa & R). exists p, fa. tauto.
      + destruct Hr as (p & fa & Hp & R). exists p. split; [exact Hp|]. exists fa. exact R.
  Qed.

  (** ** C11 *)
  Theorem C11_free_parameters l dv (c : coll F) : dv_of (map spell1 l) = Ok dv -> NoDup (dkeys (params c)) ->
    exists pars, free_parameters dv c = Ok pars /\ NoDup (dkeys pars) /\
    forall k p, dget String.eqb pars k = Some p <->
       dget String.eqb (params c) k = Some p /\ is_free p = true /\
       (is_cosmo p = true \/ is_cosmo p = false /\ exists q, In q (probes_of l) /\ pprobe p = Some (pname Long q)).
  Proof. intros E. rewrite dv_of_key in E. injection E as <-. exact (free_params_spec l c). Qed.
End Props.

From Coq Require Import Qcanon.
Open Scope nat_scope.
(** ** C05: multipoles out of order *)
Theorem C05_unsorted_misaligned_refuted :
  exists (vals : list (list Qc)) (lget : bool -> res (list Qc)) items ells masked,
    mask_common vals lget items = Ok (ells, masked) /\
    (forall k, lget k = Ok (if k then nth 0 vals [] else nth 1 vals [])) /\
    exists c c', In (true, c) items /\ In (true, c') masked /\ ~ aligned ells (nth 0 vals []) c c'.
Proof.
  set (q := fun n => qq (Z.of_nat n) 1).
  exists [[q 2; q 1]; [q 1; q 2]], (fun k => Ok (if k : bool then [q 2; q 1] else [q 1; q 2])),
    [(true, mkCube 1 1 [(fun _ _ => q 5); (fun _ _ => q 6)]); (false, mkCube 1 1 [(fun _ _ => q 7); (fun _ _ => q 8)])],
    [q 1; q 2], [(true, mkCube 1 1 [(fun _ _ => q 5); (fun _ _ => q 6)]); (false, mkCube 1 1 [(fun _ _ => q 7); (fun _ _ => q 8)])].
  split; [vm_compute; reflexivity|]. split; [intros []; reflexivity|].
  exists (mkCube 1 1 [(fun _ _ => q 5); (fun _ _ => q 6)]), (mkCube 1 1 [(fun _ _ => q 5); (fun _ _ => q 6)]).
  split; [left; reflexivity|]. split; [left; reflexivity|]. intros (_ & _ & _ & H).
  specialize (H 0 1 (q 1) eq_refl eq_refl). cbn in H. injection H as H. apply (f_equal (fun f => f 0 0)) in H. vm_compute in H. discriminate H.
Qed.

(** ** Cases meeting the hypotheses *)
Section Examples.
  #[local] Instance keep : SetOrder := {| ord := fun l => l; ord_perm := fun l => Permutation_refl l |}.
  Definition qn (n : Z) : Qc := qq n 1.
  Definition one_bin (_ : probe) : nat := 1.
  Definition blk (vals : list Z) : cube Qc := mkCube 1 1 (map (fun v _ _ => qn v) vals).
  Definition sp (k : kind) (p q : probe) (ells vals : list Z) : spelled * (list Qc * cube Qc) := ((k, (p, q)), (map qn ells, blk vals)).
  (** Lensing on multipoles 10, 20; galaxies on 10, 20, 30; the cross spectrum
      stored as galaxies x lensing. *)
  Definition exD : spectra (F := Qc) :=
    [sp Alias Wl Wl [10; 20]%Z [2; 4]%Z; sp Short Ph Ph [10; 20; 30]%Z [3; 5; 6]%Z; sp Long Ph Wl [10; 20]%Z [1; 2]%Z].
  Definition exDs : list (string * spectra (F := Qc)) :=
    [("h"%string, [sp Alias Wl Wl [10; 20]%Z [1; 3]%Z; sp Alias Ph Ph [10; 20]%Z [2; 1]%Z]);
     ("w0"%string, [sp Alias Wl Wl [10; 20]%Z [2; 1]%Z; sp Alias Ph Ph [10; 20]%Z [1; 1]%Z]);
     ("aIA"%string, [sp Alias Wl Wl [10; 20]%Z [1; 1]%Z; sp Alias Ph Ph [10; 20]%Z [0; 0]%Z])].
  Definition exPar (n : string) (cosmo : bool) (pr : option string) (free : bool) : string * param Qc :=
    (n, mkPar n (qn 1) (qn 1) cosmo pr (qn 1) free "" "" "SteM").
  Definition exC : coll Qc := mkColl [exPar "h" true None true; exPar "aIA" false (Some "Lensing"%string) true;
    exPar "w0" true None true; exPar "Omb" true None false; exPar "bgsp0" false (Some "SpectroscopicGalaxy"%string) true] [] [] false.
  Definition exL1 : list spelled := [(Alias, (Wl, Wl))].
  Definition exL2 : list spelled := [(Alias, (Wl, Wl)); (Short, (Ph, Ph))].
  Definition exAutos : dict string (fell Qc) :=
    [("WL"%string, mkFell [qn 10; qn 20] [(("h", "h")%string, [qn 1; qn 1])]);
     ("GCph"%string, mkFell [qn 10; qn 20; qn 30] [(("h", "h")%string, [qn 1; qn 1; qn 7])])].

  Ltac qlt := split; [intros C; vm_compute in C; discriminate C|intros C; apply (f_equal this) in C; vm_compute in C; discriminate C].
  Lemma inc2 : increasing (map qn [10; 20]%Z).
  Proof. unfold increasing; cbn [map]; repeat (apply SSorted_cons || apply SSorted_nil || apply Forall_cons || apply Forall_nil); qlt. Qed.
  Lemma inc3 : increasing (map qn [10; 20; 30]%Z).
  Proof. unfold increasing; cbn [map]; repeat (apply SSorted_cons || apply SSorted_nil || apply Forall_cons || apply Forall_nil); qlt. Qed.
  Lemma exD_wf : wf_spectra one_bin exD.
  Proof.
    intros p q l c. destruct p, q; cbn; intros E; try discriminate E; injection E as <- <-;
      (split; [reflexivity|split; [reflexivity|split; [reflexivity|]]]).
    - exact inc3.
    - exact inc2.
    - exact inc2.
  Qed.
  Lemma exD_one_orientation p q : p <> q -> stored exD p q = None \/ stored exD q p = None.
  Proof. destruct p, q; cbn; intros N; try congruence; auto. Qed.
  Lemma exD_auto p (ls : list Qc) c (M : nat -> nat -> Qc) i j : stored exD p p = Some (ls, c) -> In M (crows c) -> M i j = M j i.
  Proof. destruct p; cbn; intros E; try discriminate E; injection E as <- <-; cbn; intuition (subst; reflexivity). Qed.
  Lemma exD_sym : symmetric_spectra exD.
  Proof. exact (one_orientation exD exD_one_orientation exD_auto). Qed.
  Lemma exD_available p q : In p (probes_of exL2) -> In q (probes_of exL2) -> available exD p q.
  Proof. unfold available. cbn. intros Hp Hq. destruct p, q; cbn; intuition discriminate. Qed.
  Lemma exDs_wf n dd : In (n, dd) exDs -> wf_spectra one_bin dd /\ forall e, In e exL2 -> available dd (fst (snd e)) (snd (snd e)).
  Proof.
    intros H. assert (G : forall a b, wf_spectra one_bin [sp Alias Wl Wl [10; 20]%Z [fst a; snd a]; sp Alias Ph Ph [10; 20]%Z [fst b; snd b]] /\
      forall e, In e exL2 -> available [sp Alias Wl Wl [10; 20]%Z [fst a; snd a]; sp Alias Ph Ph [10; 20]%Z [fst b; snd b]] (fst (snd e)) (snd (snd e))).
    { intros a b. split.
      - intros p q l c. destruct p, q; cbn; intros E; try discriminate E; injection E as <- <-;
          (split; [reflexivity|split; [reflexivity|split; [reflexivity|exact inc2]]]).
      - unfold available. intros e [<-|[<-|[]]]; cbn; left; discriminate. }
    destruct H as [E|[E|[E|[]]]]; injection E as <- <-; [apply (G (1, 3)%Z (2, 1)%Z)|apply (G (2, 1)%Z (1, 1)%Z)|apply (G (1, 1)%Z (0, 0)%Z)].
  Qed.
  (** C06-C11: the inputs fit together, for one probe and for two ... *)
  Example C06_C11_ex : good_inputs one_bin exL2 exD exDs /\ good_inputs one_bin exL1 exD exDs /\ NoDup (dkeys (params exC)) /\
      common exD exL2 (qn 10) /\ ~ common exD exL2 (qn 30).
  Proof.
    assert (G2 : good_inputs one_bin exL2 exD exDs).
    { split; [exact exD_wf|]. split; [exact exD_sym|]. split; [exact exD_available|exact exDs_wf]. }
    split; [exact G2|]. split; [|split; [|split]].
    - destruct G2 as (A & B & C & D). split; [exact A|]. split; [exact B|]. split.
      + intros p q Hp Hq. apply C; cbn in *; tauto.
      + intros n dd Hin. destruct (D n dd Hin) as [D1 D2]. split; [exact D1|]. intros e [<-|[]]. apply D2. left; reflexivity.
    - repeat constructor; cbn; intuition discriminate.
    - intros p q Hp Hq. destruct p, q; cbn in Hp, Hq; try (exfalso; intuition discriminate). all: left; reflexivity.
    - intros H. specialize (H Wl Wl (or_introl eq_refl) (or_introl eq_refl)). cbn in H. destruct H as [H|[H|[]]]; apply (f_equal this) in H; vm_compute in H; discriminate H.
  Qed.
  Definition cell_of (r : res (frame Qc * fell Qc)) (a b : string) : option QArith_base.Q :=
    match r with Ok (m, _) => option_map this (f_get m a b) | Err _ => None end.
  (** ... and the computation runs.  One probe: 21/8 + 9 * 41/32; two probes:
      galaxies add their 7 at multipole 30 and nothing else. *)
  Example C08_ex : cell_of (compute_fisher (map skey exL1) exC (raw_derivs exDs) (raw_spectra exD) None) "h" "h" = Some (QArith_base.Qmake 453 32).
  Proof. vm_compute. reflexivity. Qed.
  Example C10_ex : exists r0 r7, 
    cell_of (compute_fisher (map skey exL2) exC (raw_derivs exDs) (raw_spectra exD) (Some exAutos)) "h" "h" = Some r7 /\
      cell_of (compute_fisher (map skey exL2) exC (raw_derivs exDs) (raw_spectra exD)
               (Some [("WL"%string, mkFell [qn 10] []); ("GCph"%string, mkFell [qn 10] [])])) "h" "h" = Some r0 /\
      Qreduction.Qred (QArith_base.Qminus r7 r0) = QArith_base.Qmake 7 1 /\ 
    cell_of (compute_fisher (map skey exL2) exC (raw_derivs exDs) (raw_spectra exD) (Some exAutos)) "h" "bgsp0" = None.
  Proof. eexists. eexists. split; [vm_compute; reflexivity|]. split; [vm_compute; reflexivity|]. split; vm_compute; reflexivity. Qed.
  Example C11_ex : exists pars, free_parameters (map skey exL2) exC = Ok pars /\ dkeys pars = ["h"; "w0"; "aIA"]%string.
  Proof. eexists. split; vm_compute; reflexivity. Qed.
  (** C09: these spectra are positive semi-definite at multipole 10. *)
  Example C09_ex : psd_spectra one_bin exL2 exD (qn 10) /\ fle 0%F (qn 10).
  Proof.
    split; [|intros C; vm_compute in C; discriminate C]. intros y.
    match goal with |- fle _ ?t => replace t with (fadd (fmul (fadd (fmul (qn 2) (y (Wl, 0))) (y (Ph, 0))) (fmul (fadd (fmul (qn 2) (y (Wl, 0))) (y (Ph, 0))) (qq 1 2)))
       (fmul (fmul (y (Ph, 0)) (y (Ph, 0))) (qq 5 2))) end.
    - replace (0 : Qc)%F with (0 + 0 : Qc)%F by reflexivity. apply fle_add2.
      + match goal with |- fle _ (fmul ?a (fmul ?b ?c)) => replace (fmul a (fmul b c)) with (fmul (fmul a b) c) by (cbn; ring) end.
        apply fle_mul; [apply fle_sq|intros C; vm_compute in C; discriminate C].
      + apply fle_mul; [apply fle_sq|intros C; vm_compute in C; discriminate C].
    - cbn. unfold spec_mat. cbn.
      replace (qn 1) with 1%Qc by (apply Qc_is_canon; reflexivity). 
      replace (qn 2) with (1 + 1)%Qc by (apply Qc_is_canon; reflexivity).
      replace (qn 3) with (1 + 1 + 1)%Qc by (apply Qc_is_canon; reflexivity).
      replace (qq 1 2) with (1 / (1 + 1))%Qc by (apply Qc_is_canon; reflexivity).
      replace (qq 5 2) with ((1 + 1 + 1 + 1 + 1) / (1 + 1))%Qc by (apply Qc_is_canon; reflexivity).
      field. intros C. discriminate C.
  Qed.
End Examples.

Print Assumptions C04_exact_intersection.
Print Assumptions C04_any_order.
Print Assumptions C04_empty_rejected.
Print Assumptions C04_single_as_given.
Print Assumptions C05_aligned.
Print Assumptions C05_succeeds.
Print Assumptions C05_unsorted_misaligned_refuted.
Print Assumptions C06_block.
Print Assumptions C06_assembled.
Print Assumptions C07_symmetric.
Print Assumptions C08_terms.
Print Assumptions C08_symmetric_terms.
Print Assumptions C08_order_of_parameters.
Print Assumptions C08_succeeds.
Print Assumptions C09_positive_semidefinite.
Print Assumptions C09_positive_covariance.
Print Assumptions C10_counted_once.
Print Assumptions C11_free_parameters.
