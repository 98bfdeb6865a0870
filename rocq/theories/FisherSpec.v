(** Vocabulary of the statements about Fisher matrices. *)
From Verif Require Import Base SortLib LabLin FrameModel FrameLemmas FisherModel.

Section FisherSpec.
  Context {F : Type} {K : Fld F} {SO : SetOrder}.
  Open Scope fld_scope.
  Implicit Types f g t : fisher F.

  (** The parameters labelling the matrix, in order. *)
  Definition labels f : list string := ix (fmat f).
  (** Matrix entry. *)
  Definition fval f (a b : string) : F := fv (fmat f) a b.
  (** Matrix entry, or zero when a parameter is missing. *)
  Definition pval f (a b : string) : F :=
    if smem a (labels f) && smem b (labels f) then fval f a b else 0.
  (** A consistent object: unique labels, the same on both axes, no NaN, and
      the labels are the declared parameters. *)
  Definition wf f : Prop :=
    frame_ok (fmat f) /\ NoDup (fcosmo f) /\ NoDup (fnuis f) /\
    forall x, In x (labels f) <-> In x (fcosmo f) \/ In x (fnuis f).
  (** Same content: the same parameters of each kind and the same entries; the
      order of the labels, the name and cached results aside. *)
  Definition same f g : Prop :=
    (forall x, In x (labels f) <-> In x (labels g)) /\
    (forall a b, In a (labels f) -> In b (labels f) -> fval f a b = fval g a b) /\
    (forall x, In x (fcosmo f) <-> In x (fcosmo g)) /\
    (forall x, In x (fnuis f) <-> In x (fnuis g)).
  (** Sum of a non-empty list, left to right. *)
  Definition sum_list f (l : list (fisher F)) : fisher F := fold_left fisher_add l f.
  (** [t] is the object holding the result of a successful
      marginalizeParameters(ps, ret_copy=rc) on [f]. *)
  Definition margd ps rc f t : Prop :=
    exists f' r, marginalize ps rc f = (f', Ok r) /\ t = match r with Some u => u | None => f' end.
  (** [C] is the matrix inverse of [f], by labels. *)
  Definition covariance f (C : string -> string -> F) : Prop := isinv string_dec (labels f) (fval f) C.
  (** What a prior dictionary adds to entry (a,b). *)
  Definition prior_term (fid : dict string F) (frac : F) (a b : string) : F :=
    match dget String.eqb fid a with
    | Some v => if String.eqb a b then 1 / ((frac * v) * (frac * v)) else 0
    | None => 0
    end.
End FisherSpec.

Section FisherSpecO.
  Context {F : Type} {K : Fld F} {O : OFld (F := F)}.
  (** Symmetric and x^T F x > 0 for every x that is not zero on the labels. *)
  Definition posdef (f : fisher F) : Prop := pd (labels f) (fval f).
End FisherSpecO.
