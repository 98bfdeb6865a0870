(** Vocabulary of the statements about the Fisher evaluator: multipole arrays,
    collections of spectra and the components of a data vector. *)
From Verif Require Import Base StrLib SortLib KeyModel KeySpec EvalModel.
From Coq Require Import Sorted.

Section Spec.
  Context {F : Type} {K : Fld F} {O : OFld (F := F)}.
  Open Scope fld_scope.

  (** A multipole array in strictly increasing order. *)
  Definition increasing (l : list F) : Prop := StronglySorted (fun x y => flt x y) l.

  (** A collection of spectra: for spelled probe pairs, multipoles and block. *)
  Definition spectra := list (spelled * (list F * cube F)).
  Definition raw_spectra (d : spectra) : list (rawkey * (list F * cube F)) :=
    map (fun ev => (spell1 (fst ev), snd ev)) d.
  (** The row an array of blocks has at multipole x. *)
  Definition row_at {A} (l : list F) (rows : list A) (x : F) : option A :=
    match find (fun lr => if fdec (fst lr) x then true else false) (combine l rows) with
    | Some lr => Some (snd lr) | None => None end.
  (** The spectrum of the ordered pair (p,q) at multipole x, bins i and j, read
      from whichever orientation is stored. *)
  Definition cl_at (d : spectra) (p q : probe) (x : F) (i j : nat) : option F :=
    match stored d p q with
    | Some (l, c) => option_map (fun m => m i j) (row_at l (crows c) x)
    | None =>
        match stored d q p with
        | Some (l, c) => option_map (fun m => m j i) (row_at l (crows c) x)
        | None => None
        end
    end.
  (** The multipoles at which the pair is known. *)
  Definition ells_at (d : spectra) (p q : probe) : list F :=
    match stored d p q with
    | Some (l, _) => l
    | None => match stored d q p with Some (l, _) => l | None => [] end
    end.
  Definition available (d : spectra) (p q : probe) : Prop := stored d p q <> None \/ stored d q p <> None.

  (** Well-formed: [nb p] bins for probe p; one row per multipole; multipoles
      strictly increasing. *)
  Definition wf_spectra (nb : probe -> nat) (d : spectra) : Prop :=
    forall p q l c, stored d p q = Some (l, c) ->
      cnr c = nb p /\ cnc c = nb q /\ length l = length (crows c) /\ increasing l.
  (** Symmetric: the spectrum of (p,q) in bins (i,j) is that of (q,p) in bins (j,i). *)
  Definition symmetric_spectra (d : spectra) : Prop :=
    forall p q, ells_at d p q = ells_at d q p /\ forall x i j, cl_at d p q x i j = cl_at d q p x j i.

  (** The bin pairs of an entry of a data vector, in order: upper triangle by
      columns for an auto-correlation, everything by columns otherwise. *)
  Definition bin_pairs (nb : probe -> nat) (p q : probe) : list (nat * nat) :=
    flat_map (fun j => map (fun i => (i, j)) (seq 0 (if probe_eqb p q then S j else nb p))) (seq 0 (nb q)).
  (** The components of a data vector. *)
  Definition components (nb : probe -> nat) (l : list spelled) : list ((probe * probe) * (nat * nat)) :=
    flat_map (fun e => map (pair (pair_of e)) (bin_pairs nb (fst (pair_of e)) (snd (pair_of e)))) l.

  (** The Gaussian covariance of two components at multipole x. *)
  Definition gauss (d : spectra) (x : F) (u v : (probe * probe) * (nat * nat)) : option F :=
    let '((A, B), (i, j)) := u in
    let '((C, D), (k, m)) := v in
    match cl_at d A C x i k, cl_at d B D x j m, cl_at d A D x i m, cl_at d B C x j k with
    | Some ac, Some bd, Some ad, Some bc => Some ((ac * bd + ad * bc) / ((1 + 1) * x + 1))
    | _, _, _, _ => None
    end.

  (** A block [c] whose rows are numbered by R, whose columns by C, and whose
      values at multipole x are those of g. *)
  Definition laid {X Y} (ells : list F) (R : list X) (C : list Y) (g : F -> X -> Y -> option F) (c : cube F) : Prop :=
    cnr c = length R /\ cnc c = length C /\ length (crows c) = length ells /\
    forall t x M r s u v, nth_error ells t = Some x -> nth_error (crows c) t = Some M ->
      nth_error R r = Some u -> nth_error C s = Some v -> g x u v = Some (M r s).
  (** The block c' restricts c from the multipoles l to the multipoles ells:
      its row r is the row c has at the r-th multipole of ells. *)
  Definition aligned (ells l : list F) (c c' : cube F) : Prop :=
    cnr c' = cnr c /\ cnc c' = cnc c /\ length (crows c') = length ells /\
    forall r s x, nth_error ells r = Some x -> nth_error l s = Some x -> nth_error (crows c') r = nth_error (crows c) s.
  (** The probes occurring in a data vector. *)
  Definition probes_of (l : list spelled) : list probe := flat_map (fun e => [fst (snd e); snd (snd e)]) l.
End Spec.

Section Spec2.
  Context {F : Type} {K : Fld F} {O : OFld (F := F)}.
  Open Scope fld_scope.
  Definition oval (o : option F) : F := match o with Some x => x | None => 0 end.
  (** Component number r of a data vector. *)
  Definition comp (nb : probe -> nat) (l : list spelled) (r : nat) := nth r (components nb l) ((Ph, Ph), (0, 0)%nat).
  (** Covariance of components r and c; derivative of component r. *)
  Definition cov_at nb l (d : spectra) (x : F) (r c : nat) : F := oval (gauss d x (comp nb l r) (comp nb l c)).
  Definition der_at nb l (d : spectra) (x : F) (r : nat) : F :=
    let '((p, q), (i, j)) := comp nb l r in oval (cl_at d p q x i j).
  (** The multipoles at which every pair of probes of the data vector is known. *)
  Definition common (d : spectra (F := F)) (l : list spelled) (x : F) : Prop :=
    forall p q, In p (probes_of l) -> In q (probes_of l) -> In x (ells_at d p q).
  (** The derivative of the spectra with respect to the parameter n. *)
  Definition deriv (ds : list (string * spectra (F := F))) (n : string) : spectra :=
    match dget String.eqb ds n with Some d => d | None => [] end.
  Definition raw_derivs (ds : list (string * spectra (F := F))) := map (fun nd => (fst nd, raw_spectra (snd nd))) ds.
  (** d_a^T Inv d_b at multipole x. *)
  Definition fisher_term nb l (ds : list (string * spectra)) (Inv : F -> nat -> nat -> F) (a b : string) (x : F) : F :=
    let n := length (components nb l) in
    Fsum (fun r => Fsum (fun c => der_at nb l (deriv ds a) x r * Inv x r c * der_at nb l (deriv ds b) x c) (seq 0 n)) (seq 0 n).
  (** [Inv] is the inverse of the covariance at multipole x. *)
  Definition inverse_at (n : nat) (C I : nat -> nat -> F) : Prop :=
    forall r c, (r < n)%nat -> (c < n)%nat ->
      Fsum (fun k => C r k * I k c) (seq 0 n) = (if Nat.eqb r c then 1 else 0) /\
      Fsum (fun k => I r k * C k c) (seq 0 n) = (if Nat.eqb r c then 1 else 0).
  (** Inputs of a forecast that fit together. *)
  Definition good_inputs nb l (d : spectra) (ds : list (string * spectra)) : Prop :=
    wf_spectra nb d /\ symmetric_spectra d /\
    (forall p q, In p (probes_of l) -> In q (probes_of l) -> available d p q) /\
    forall n dd, In (n, dd) ds -> wf_spectra nb dd /\ forall e, In e l -> available dd (fst (snd e)) (snd (snd e)).
End Spec2.

Section Spec3.
  Context {F : Type} {K : Fld F} {O : OFld (F := F)}.
  Open Scope fld_scope.
  (** The probes whose auto-correlation is an entry of the data vector, each once. *)
  Definition auto_probes (l : list spelled) : list probe :=
    filter (fun p => existsb (fun e => probe_eqb (fst (pair_of e)) p && probe_eqb (snd (pair_of e)) p) l) [Ph; Sp; Wl; Vd].
  (** The sum of a probe's own terms for (a,b) at the multipoles outside ells;
      zero when the probe does not have the pair. *)
  Definition own (fe : fell F) (ells : list F) (a b : string) : F :=
    match dget spair_eqb (fe_cols fe) (a, b) with
    | Some col => Fsum (fun xv => if in_dec fdec (fst xv) ells then 0 else snd xv) (combine (fe_ells fe) col)
    | None => 0
    end.
  (** The term of (a,b) in row number t, zero when the pair is missing. *)
  Definition term_at (fe : fell F) (t : nat) (a b : string) : F :=
    match dget spair_eqb (fe_cols fe) (a, b) with Some col => oval (nth_error col t) | None => 0 end.
  Definition wf_fell (fe : fell F) : Prop :=
    forall a b col, dget spair_eqb (fe_cols fe) (a, b) = Some col -> length col = length (fe_ells fe).
  (** The quadratic form of a family of cells over a list of labels. *)
  Definition quad (L : list string) (v : string -> F) (M : string -> string -> F) : F :=
    Fsum (fun a => Fsum (fun b => v a * M a b * v b) L) L.
  (** All (probe, bin) states of a data vector and the spectra between them at x. *)
  Definition state_dec (u v : probe * nat) : {u = v} + {u <> v}.
  Proof. repeat decide equality. Defined.
  Definition states (nb : probe -> nat) (l : list spelled) : list (probe * nat) :=
    nodup state_dec (flat_map (fun p => map (pair p) (seq 0 (nb p))) (probes_of l)).
  Definition spec_mat (d : spectra (F := F)) (x : F) (u v : probe * nat) : F := oval (cl_at d (fst u) (fst v) x (snd u) (snd v)).
  (** Positive semi-definite spectra: y^T C(x) y >= 0 for every y. *)
  Definition psd_spectra (nb : probe -> nat) (l : list spelled) (d : spectra (F := F)) (x : F) : Prop :=
    forall y : probe * nat -> F,
      fle 0 (Fsum (fun u => Fsum (fun v => y u * spec_mat d x u v * y v) (states nb l)) (states nb l)).
  (** Non-singular covariance: only the zero vector is mapped to zero. *)
  Definition regular (n : nat) (C : nat -> nat -> F) : Prop :=
    forall w : nat -> F, (forall r, (r < n)%nat -> Fsum (fun c => C r c * w c) (seq 0 n) = 0) -> forall r, (r < n)%nat -> w r = 0.
  Definition psd_terms (fe : fell F) : Prop := forall t L v, fle 0 (quad L v (term_at fe t)).
End Spec3.
