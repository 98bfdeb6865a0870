(** Vocabulary of the statements about noisy spectra. *)
From Verif Require Import Base SortLib StrLib MatInv EvalModel EvalSpec FrameModel NameModel DeltaModel.
Open Scope list_scope.

Section Spec.
  Context {F : Type} {K : Fld F} {O : OFld (F := F)}.
  Open Scope fld_scope.
  (** An array of shape (e, r, k), and its entry (t, i, j). *)
  Definition shape (c : cube F) (e r k : nat) : Prop := length (crows c) = e /\ cnr c = r /\ cnc c = k.
  Definition at3 (c : cube F) (t i j : nat) : option F :=
    match nth_error (crows c) t with
    | Some m => if Nat.ltb i (cnr c) && Nat.ltb j (cnc c) then Some (m i j) else None
    | None => None
    end.
  (** y^T C y >= 0 for every y; y^T C y > 0 for every non-zero y. *)
  Definition form (n : nat) (C : nat -> nat -> F) (y : nat -> F) : F :=
    Fsum (fun i => Fsum (fun j => y i * C i j * y j) (seq 0 n)) (seq 0 n).
  Definition semidefinite (n : nat) (C : nat -> nat -> F) : Prop := forall y, fle 0 (form n C y).

  (** The galaxies per unit solid angle a density has in bin i. *)
  Definition has_surface (d : density F) (i : nat) (x : F) : Prop :=
    if dn_niz d then exists l, dn_bins d = Some l /\ nth_error l i = Some x
    else exists a b, nth_error (dn_edges d) i = Some a /\ nth_error (dn_edges d) (Datatypes.S i) = Some b /\ x = dn_quad d a b.
  (** 0.3^2 for lensing, 1 for the other probes. *)
  Definition factor_of (p : string) : option F :=
    if String.eqb p "Lensing" then
      let ten := (1+1+1+1+1+1+1+1+1+1)%F in Some ((1+1+1+1+1+1+1+1+1) / (ten * ten))
    else if existsb (String.eqb p) ["PhotometricGalaxy"; "SpectroscopicGalaxy"; "Void"]%string then Some 1 else None.
  (** What the noise of bin i of probe p is multiplied by: the ratio of the
      numbers of galaxies when the reduced noise is asked for. *)
  Definition reduction (fc : fconf F) (p : string) (x : F) : Prop :=
    if String.eqb p "SpectroscopicGalaxy" && fc_reduced fc then
      exists ds dp ss sp, dget String.eqb (fc_probes fc) p = Some ds /\ dget String.eqb (fc_probes fc) "PhotometricGalaxy"%string = Some dp /\
        dn_simps ds = Some ss /\ dn_simps dp = Some sp /\ x = (ss * dn_fsky ds) / (sp * dn_fsky dp)
    else x = 1.
  (** The shot noise of the pair (p,q) in bins (i,j). *)
  Definition shot (fc : fconf F) (p q : string) (i j : nat) (x : F) : Prop :=
    if String.eqb p q then
      exists d f n r, dget String.eqb (fc_probes fc) p = Some d /\ factor_of p = Some f /\ has_surface d i n /\ reduction fc p r /\
        x = if Nat.eqb i j then r * f / n else 0
    else x = 0.
End Spec.

Section Spec2.
  Context {F : Type} {K : Fld F} {O : OFld (F := F)}.
  Open Scope fld_scope.
  (** Dictionaries of blocks and of multipoles under the keys of probe pairs. *)
  Definition pair_block (md : dict string (option (cube F))) (ld : dict string (list F)) (p q : string) : option (list F * cube F) :=
    match dget String.eqb md (comb_key p q), dget String.eqb ld (comb_key p q) with
    | Some (Some c), Some l => Some (l, c)
    | _, _ => None
    end.
  (** The multipoles of the pair and its entry for bins i of p and j of q at
      multipole x, from whichever orientation is stored. *)
  Definition pair_ells md ld (p q : string) : list F :=
    match pair_block md ld p q with
    | Some (l, _) => l
    | None => match pair_block md ld q p with Some (l, _) => l | None => [] end
    end.
  Definition pair_value md ld (x : F) (u v : string * nat) : option F :=
    match pair_block md ld (fst u) (fst v) with
    | Some (l, c) => option_map (fun m => m (snd u) (snd v)) (row_at l (crows c) x)
    | None =>
        match pair_block md ld (fst v) (fst u) with
        | Some (l, c) => option_map (fun m => m (snd v) (snd u)) (row_at l (crows c) x)
        | None => None
        end
    end.
  (** Every pair of the probes is stored in exactly one orientation, with one
      matrix per multipole, one row and column per bin, increasing multipoles. *)
  Definition good_blocks (nb : string -> nat) (probes : list string) md ld : Prop :=
    forall p q, In p probes -> In q probes ->
      (dget String.eqb md (comb_key p q) = None -> dget String.eqb md (comb_key q p) <> None) /\
      (p <> q -> dget String.eqb md (comb_key p q) <> None -> dget String.eqb md (comb_key q p) = None) /\
      (dget String.eqb md (comb_key p q) <> None -> exists l c, pair_block md ld p q = Some (l, c) /\
         cnr c = nb p /\ cnc c = nb q /\ length l = length (crows c) /\ increasing l).
  (** The (probe, bin) pairs in the order of the rows and columns. *)
  Definition positions (nb : string -> nat) (probes : list string) : list (string * nat) :=
    flat_map (fun p => map (pair p) (seq 0 (nb p))) probes.
End Spec2.
