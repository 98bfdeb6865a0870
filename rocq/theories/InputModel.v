(** Model of the inputs of the Fisher stage: seyfert/main/fisher_core.py:17-35
    prepare_inputs, called by bin/compute_fisher_matrix.

    The saved noisy spectra come back from their file (fisher/delta_cl.py:233-247,
    295-313; the file itself is in H5Model) as separate objects.  Left out:
    logging, the derivatives (DerModel) and the forecast_config of the blocks,
    which is None after loading and not used since the noise is set and the
    fraction of the sky is given. *)
From Verif Require Import Base SortLib StrLib FrameModel NameModel DeltaModel.
Open Scope string_scope.

Section Input.
  Context {F : Type} {K : Fld F} {O : OFld (F := F)} {SQ : SqrtFld F}.

  (** The members of a group of the file, in alphabetical order. *)
  Definition members (d : dict string nat) : dict string nat := isort (fun a b : string * nat => String.leb (fst a) (fst b)) d.
  Definition renumber (n : nat) (d : dict string nat) : dict string nat := combine (dkeys d) (seq n (length d)).
  (** delta_cl.py:295-313 save and load of a collection: every block becomes an
      object of its own, also one that was both an entry and a single block.  The
      groups delta_cls and single_blocks are made by their first member. *)
  Definition reload (cl : dcoll F) : res (dcoll F) :=
    match entries cl, singles cl with
    | [], _ | _, [] => Err EKeyError
    | _, _ =>
        let e := members (entries cl) in
        let s := members (singles cl) in
        Ok (mkColl (map (fun kr => deref cl (snd kr)) e ++ map (fun kr => deref cl (snd kr)) s)%list
                   (renumber (length e) s) (renumber 0 e))
    end.
  (** 17-35.  [arg]: the argument; [cfg]: forecast_config.shot_noise_file.  A file
      that is not there is [Some None]. *)
  Definition prepare (fc : fconf F) (arg cfg : option (option (noise_file F))) (cl : dcoll F) : res (dcoll F) :=
    let file := match arg with Some f => Some f | None => cfg end in
    c0 <- reload cl ;;
    match file with
    | None => Ok c0
    | Some f => c1 <- load_noise f c0 ;; evaluate_singles fc (Some (fc_fsky fc)) c1
    end.
  (** delta_cls.single_blocks[key] and delta_cls[name]. *)
  Definition single (cl : dcoll F) (k : string) : option (block F) := option_map (deref cl) (dget String.eqb (singles cl) k).
  Definition entry (cl : dcoll F) (k : string) : option (block F) := option_map (deref cl) (dget String.eqb (entries cl) k).
End Input.
