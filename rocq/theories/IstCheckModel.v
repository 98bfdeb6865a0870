(** Model of seyfert/file_io/ext_input.py:65-72: the check of the parameters
    before the files of the comparison are converted. *)
From Verif Require Import Base SortLib FrameModel ParamModel IstModel.
From Coq Require Import Qcanon.
Open Scope list_scope.

(** parameter.py:161-162 cosmological_parameters. *)
Definition cosmo_of (d : dict string (param Qc)) : dict string (param Qc) := filter (fun kp => is_cosmo (snd kp)) d.
(** generic_dict.py:27-28. *)
Definition del_key (d : dict string (param Qc)) (k : string) : dict string (param Qc) := filter (fun kp => negb (String.eqb (fst kp) k)) d.
(** 68-71: the loop over the keys of the dictionary itself.  After a removal the
    next step of the iterator is a RuntimeError, also after the last key. *)
Fixpoint remove_others (ours keys : list string) (d : dict string (param Qc)) : dict string (param Qc) * res unit :=
  match keys with
  | [] => (d, Ok tt)
  | k :: keys => if smem k ours then remove_others ours keys d else (del_key d k, Err ERuntime)
  end.
(** 65-72 checkISTParams; without a collection its attribute is missing. *)
Definition check_params (o : option (coll Qc)) : option (coll Qc) * res unit :=
  match o with
  | None => (None, Err EAttributeError)
  | Some c =>
      let ours := map snd ist_map in
      if negb (forallb (fun n => smem n (dkeys (cosmo_of (params c)))) ours) then (o, Err EAssertion)
      else
        let (d, r) := remove_others ours (dkeys (params c)) (params c) in
        (Some (with_params c d),
         _ <- r ;;
         match dget String.eqb (cosmo_of d) "h"%string with
         | None => Err EKeyError
         | Some p => if fdec (fiducial p) (qq 67 100) then Ok tt else Err EAssertion
         end)
  end.
