(** Vocabulary of the statements about redshift densities (C87-C90). *)
From Verif Require Import Base SortLib ParamModel OrdLib EvalModel EvalSpec NumModel DensModel.
Open Scope string_scope.
Open Scope list_scope.

Section Spec.
  Context {F : Type} {K : Fld F} {O : OFld (F := F)}.
  Open Scope fld_scope.

  Definition between (a b z : F) : Prop := fle a z /\ fle z b.
  (** What is assumed of scipy: quadrature is exact (an integral: linear,
      additive over adjoining intervals, monotone), splines pass through their
      points, are linear in the ordinates and vanish outside the domain. *)
  Record ideal (N : numerics F) : Prop := {
    quad_ext : forall f g a b, fle a b -> (forall z, between a b z -> f z = g z) -> quad N f a b = quad N g a b;
    quad_scale : forall c f a b, fle a b -> quad N (fun z => c * f z) a b = c * quad N f a b;
    quad_split : forall f a b c, fle a b -> fle b c -> quad N f a c = quad N f a b + quad N f b c;
    quad_nonneg : forall f a b, fle a b -> (forall z, between a b z -> fle 0 (f z)) -> fle 0 (quad N f a b);
    spline_nodes : forall x y i u v, increasing x -> length x = length y -> nth_error x i = Some u -> nth_error y i = Some v -> spline N x y u = v;
    spline_scale : forall c x y z, spline N x (map (fmul c) y) z = c * spline N x y z;
    spline_outside : forall x y a r z, x = a :: r -> flt z a \/ flt (last r a) z -> spline N x y z = 0;
    exp_pos : forall x, flt 0 (nexp N x);
    root2pi_pos : flt 0 (root2pi N);
    pi_pos : flt 0 (npi N)
  }.

  (** An instrument response: fraction of outliers; offset, width and scale of
      the good measurements and of the outliers. *)
  Record response := mkResp { r_fo : F; r_zb : F; r_sb : F; r_cb : F; r_zo : F; r_so : F; r_co : F }.
  (** Counts dN/dz/dOmega on a redshift domain [zlo, zhi], bins between edges
      and an instrument response: what a density that is not given directly
      must hold to be used. *)
  Record counts (d : density F) (y : list F) (zlo zhi : F) (r : response) : Prop := {
    co_has : dhas d = false;
    co_input : dinput d = Some y;
    co_len : length y = length (ddom d);
    co_many : (3 < length (ddom d))%nat;
    co_inc : increasing (ddom d);
    co_lo : nth_error (ddom d) 0 = Some zlo;
    co_hi : nth_error (ddom d) (length (ddom d) - 1) = Some zhi;
    co_fo : dget String.eqb (dresp d) "f_out" = Some (r_fo r);
    co_zb : dget String.eqb (dresp d) "z_b" = Some (r_zb r);
    co_sb : dget String.eqb (dresp d) "sigma_b" = Some (r_sb r);
    co_cb : dget String.eqb (dresp d) "c_b" = Some (r_cb r);
    co_zo : dget String.eqb (dresp d) "z_o" = Some (r_zo r);
    co_so : dget String.eqb (dresp d) "sigma_o" = Some (r_so r);
    co_co : dget String.eqb (dresp d) "c_o" = Some (r_co r)
  }.
  (** The normal density of mean c z_p + m and width s (1 + z) at z. *)
  Definition normal (N : numerics F) (m s c z_p z : F) : F :=
    nexp N (- ((z - (c * z_p + m)) * (z - (c * z_p + m)) / (fnat 2 * (s * (1 + z)) * (s * (1 + z))))) / (root2pi N * (s * (1 + z))).
  (** A fraction 1 - fo of the galaxies is scattered by one, fo by the other. *)
  Definition scatter (N : numerics F) (r : response) (z_p z : F) : F :=
    (1 - r_fo r) * normal N (r_zb r) (r_sb r) (r_cb r) z_p z + r_fo r * normal N (r_zo r) (r_so r) (r_co r) z_p z.
  (** Counts at z of galaxies whose measured redshift is in [a, b]... *)
  Definition counts_in (N : numerics F) (d : density F) (y : list F) (r : response) (a b z : F) : F :=
    spline N (ddom d) y z * quad N (fun z_p => scatter N r z_p z) a b.
  (** ... and their number; bin i lies between edges i and i + 1. *)
  Definition edge (d : density F) (i : nat) : F := nth i (dedges d) 0.
  Definition number_in (N : numerics F) (d : density F) (y : list F) (r : response) (zlo zhi a b : F) : F :=
    quad N (counts_in N d y r a b) zlo zhi.
End Spec.
Arguments response : clear implicits.
