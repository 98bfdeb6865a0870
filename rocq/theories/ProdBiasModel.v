(** Model of seyfert/utils/ist_comparison.py:91-142: Fisher matrices of the galaxy
    biases and sigma8 expressed in the products of the two.

    Simplifications: a symbol is its TeX text (tex_utils.py:76-93); a text with a space,
    which sympy splits into a tuple of symbols, raises AttributeError at once.  The
    inverse of the Jacobian is taken after the substitution of the fiducial values, and
    a singular one raises ValueError (sympy: NonInvertibleMatrixError, or an error in
    the conversion of its infinities to floats).  Frames are square with distinct
    labels and no NaN. *)
From Verif Require Import Base SortLib StrLib NameModel KeyModel TexModel FrameModel MatInv.
Open Scope string_scope.
Open Scope list_scope.

Definition is_bias (n : string) : bool := starts "bg" n.
(** 97: the key of a parameter in the second basis. *)
Definition key (n : string) : string := if is_bias n then (n ++ "_sigma8")%string else n.

Section Bias.
  Context {F : Type} {K : Fld F}.
  Open Scope fld_scope.

  (** A frame: its labels and its entries by label. *)
  Record sq := mkSq { labels : list string; entry : string -> string -> F }.

  (** symbols([...]) *)
  Definition symbol (n : string) : res string :=
    t <- phys_par_to_tex n false ;;
    if String.eqb t "" then Err EValueError else if has " " t then Err EAttributeError else Ok t.
  (** Elements of the second basis, their derivatives and values. *)
  Inductive expr := Sym (s : string) | Mul (s t : string).
  Definition diff (e : expr) (s : string) (val : string -> F) : F :=
    match e with
    | Sym a => if String.eqb a s then 1 else 0
    | Mul a b => (if String.eqb a s then val b else 0) + (if String.eqb b s then val a else 0)
    end.

  Definition theta_t := dict string string.
  Definition need {A} (d : dict string A) (k : string) : res A := match dget String.eqb d k with Some a => Ok a | None => Err EKeyError end.
  (** 92-93.  fid_theta has a value per symbol, that of the last parameter with it. *)
  Definition theta_of (l : list string) : res theta_t := rmapM (fun n => s <- symbol n ;; Ok (n, s)) l.
  Definition fid_of (theta : theta_t) (fid : dict string F) : res (dict string F) :=
    l <- rmapM (fun ns => x <- need fid (fst ns) ;; Ok (snd ns, x)) theta ;; Ok (rev l).
  (** 95-100: by parameter, with the keys given by [key]. *)
  Definition thetap_of (theta : theta_t) : res (dict string expr) :=
    rmapM (fun ns => if is_bias (fst ns) then s8 <- need theta "sigma8" ;; Ok (fst ns, Mul (snd ns) s8) else Ok (fst ns, Sym (snd ns))) theta.
  (** .subs(fid_theta); every symbol has a value. *)
  Definition value_of (fid : dict string F) (s : string) : F := match dget String.eqb fid s with Some x => x | None => 0 end.

  (** 110-115 T1.  The label of the row of a parameter is its key. *)
  Definition unkey (l : list string) (x : string) : string := match find (fun n => String.eqb (key n) x) l with Some n => n | None => x end.
  Definition T1 (f : sq) (theta : theta_t) (thetap : dict string expr) (fid : dict string F) : res sq :=
    let l := labels f in
    let n := length l in
    let J i j := match nth_error thetap i, nth_error theta j with
                 | Some (_, e), Some (_, s) => diff e s (value_of fid)
                 | _, _ => 0
                 end in
    match mat_inv n J with
    | None => Err EValueError
    | Some B =>
        let b c a := B (pos c l) (pos a l) in
        Ok (mkSq (map key l)
              (fun x y => Fsum (fun c => Fsum (fun d => b c (unkey l x) * entry f c d * b d (unkey l y)) l) l))
    end.
  (** .drop("sigma8", axis=0).drop("sigma8", axis=1) *)
  Definition drop8 (f : sq) : res sq :=
    if smem "sigma8" (labels f) then Ok (mkSq (filter (fun x => negb (String.eqb x "sigma8")) (labels f)) (entry f)) else Err EKeyError.
  (** 118-123 T2: the Jacobian of the elements of the second basis but sigma8 with
      respect to the parameters that are no biases.  The labels of [f] are their keys. *)
  Definition T2 (f : sq) (theta : theta_t) (thetapp : dict string expr) (fid : dict string F) : sq :=
    let l := filter (fun n => negb (is_bias n)) (dkeys theta) in
    let j x c := match find (fun ne => String.eqb (key (fst ne)) x) thetapp, dget String.eqb theta c with
                 | Some (_, e), Some s => diff e s (value_of fid)
                 | _, _ => 0
                 end in
    mkSq l (fun c d => Fsum (fun x => Fsum (fun y => j x c * entry f x y * j y d) (labels f)) (labels f)).

  (** 91-107 get_params_bases: the first two bases and the fiducial values; [thetapp]
      is the second without sigma8. *)
  Definition bases (f : sq) (fid : dict string F) : res (theta_t * dict string expr * dict string F) :=
    theta <- theta_of (labels f) ;;
    fd <- fid_of theta fid ;;
    thetap <- thetap_of theta ;;
    if dmem String.eqb theta "sigma8" then Ok (theta, thetap, fd) else Err EKeyError.
  (** 136-142. *)
  Definition apply_T1 (f : sq) (fid : dict string F) : res sq :=
    b <- bases f fid ;;
    let '(theta, thetap, fd) := b in
    f1 <- T1 f theta thetap fd ;;
    drop8 f1.
  (** 126-133. *)
  Definition apply_T1_T2 (f : sq) (fid : dict string F) : res sq :=
    b <- bases f fid ;;
    let '(theta, thetap, fd) := b in
    f1 <- T1 f theta thetap fd ;;
    f1 <- drop8 f1 ;;
    Ok (T2 f1 theta (filter (fun ne => negb (String.eqb (fst ne) "sigma8")) thetap) fd).
End Bias.
Arguments sq : clear implicits.
