(** What result sets are compared by, and the shape of combination names. *)
From Verif Require Import Base SortLib StrLib FrameModel FisherModel HeapModel ResultsModel.
Open Scope list_scope.

Section ResultsSpec.
  Context {F : Type} {K : Fld F} {O : OFld (F := F)} {S : SqrtFld F} {SO : SetOrder}.

  (** What can be read off a result set: each matrix under its key, the
      fiducials and both tables. *)
  Definition contents (h : heap F) (d : odict) : list (string * option (fisher F)) :=
    map (fun ka => (fst ka, view h (snd ka))) d.
  Definition observe (o : heap F * res (analysis F)) :
    res (list (string * option (fisher F)) * dict string F * option (table (F := F)) * option (table (F := F))) :=
    match o with
    | (h, Ok an) => Ok (contents h (an_fishers an), an_fid an, an_errs an, an_rel an)
    | (_, Err e) => Err e
    end.
  (** Every entry refers to an object. *)
  Definition live (h : heap F) (d : odict) : Prop := forall k a, In (k, a) d -> view h a <> None.

  (** A run of the program: any number of result sets, whatever they ask for,
      and whether or not they fail. *)
  Inductive session : heap F -> heap F -> Prop :=
  | ses_refl h : session h h
  | ses_step h h' base cosmology fids posts mb fx :
      live h base -> session (fst (create_results base cosmology fids posts mb fx h)) h' -> session h h'.

  (** Combination names: an operand, then operators with operands. *)
  Definition op_text (plus : bool) : string := if plus then " + " else " - ".
  Definition comb_text (n0 : string) (ops : list (bool * string)) : string :=
    (n0 ++ String.concat "" (map (fun on => op_text (fst on) ++ snd on) ops))%string.
  (** Names without blanks, other than the operators themselves. *)
  Definition plain (n : string) : Prop := ~ In " "%char (list_ascii_of_string n) /\ n <> "+"%string /\ n <> "-"%string.
  (** Left-to-right sums and differences of matrices. *)
  Definition comb_value (f0 : fisher F) (ops : list (bool * fisher F)) : fisher F :=
    fold_left (fun acc (of : bool * fisher F) => if fst of then fisher_add acc (snd of) else fisher_sub acc (snd of)) ops f0.
  (** The matrix a dictionary holds under a name. *)
  Definition at_key (h : heap F) (d : odict) (n : string) : option (fisher F) :=
    match dget String.eqb d n with Some a => view h a | None => None end.
End ResultsSpec.
