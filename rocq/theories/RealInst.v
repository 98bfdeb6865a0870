(** The real numbers as an instance of the field, order and square-root classes
    (rests on the standard library's axioms for the reals). *)
From Coq Require Import Reals Lra.
From Verif Require Import Base FrameModel.

#[export] Instance R_Fld : Fld R := {
  fz := 0%R; fo := 1%R; fadd := Rplus; fmul := Rmult; fsub := Rminus;
  fopp := Ropp; fdiv := Rdiv; finv := Rinv; fdec := Req_EM_T; fth := Rfield }.

#[export] Instance R_OFld : OFld (F := R).
Proof.
  refine {| fle := Rle |}.
  - intros x y. destruct (Rle_dec x y); [left|right]; assumption.
  - apply Rle_refl.
  - apply Rle_trans.
  - apply Rle_antisym.
  - intros x y. destruct (Rle_or_lt x y) as [H|H]; [left; exact H|right; apply Rlt_le; exact H].
  - intros x y z H. cbn. lra.
  - intros x y Hx Hy. cbn in *. apply Rmult_le_pos; assumption.
Defined.

#[export] Instance R_Sqrt : SqrtFld R.
Proof.
  refine {| fsqrt := sqrt |}.
  - intros x _. apply sqrt_pos.
  - intros x H. apply sqrt_sqrt. exact H.
Defined.
