(** Histories of calls on one FisherMatrix object (fisher_matrix.py:195-311).
    [reach f0 f s]: the calls made so far on the object [f0] left it as [f].
    [s] records whether an inverse is held and whether the matrix was edited
    (fixParameters, addPriorToParameters) after that inverse was computed.
    Calls that raise without touching the object need no constructor. *)
From Verif Require Import Base FrameModel FisherModel.

Inductive istate := INone | IFresh | IStale.
Definition touch (s : istate) : istate := match s with INone => INone | _ => IStale end.

Section Hist.
  Context {F : Type} {K : Fld F} {O : OFld (F := F)} {S : SqrtFld F} {SO : SetOrder}.

  Inductive reach (f0 : fisher F) : fisher F -> istate -> Prop :=
  | r_init : finverse f0 = None -> reach f0 f0 INone
  | r_inverse f s f' : reach f0 f s -> eval_inverse f = (f', Ok tt) -> reach f0 f' IFresh
  | r_fix f s ps f' : reach f0 f s -> fix_parameters ps f = (f', Ok tt) -> reach f0 f' (touch s)
  | r_prior f s fid frac f' : reach f0 f s ->
      (forall x, In x (dkeys fid) -> In x (ix (fmat f))) -> NoDup (dkeys fid) ->
      add_prior fid frac f = (f', Ok tt) -> reach f0 f' (touch s)
  | r_marg f s ps f' r : reach f0 f s -> marginalize ps false f = (f', Ok r) -> reach f0 f' IFresh
  | r_margcopy f s ps f' r : reach f0 f s -> marginalize ps true f = (f', Ok r) -> reach f0 f' IFresh
  | r_errors f s fom oc f' e : reach f0 f s -> marginalized_errors fom oc f = (f', Ok e) ->
      reach f0 f' (match s with INone => IFresh | _ => s end)
  | r_corr f s f' r : reach f0 f s -> eval_correlation f = (f', r) -> reach f0 f' s.
End Hist.
