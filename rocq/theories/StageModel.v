(** Model of the stages of a forecast that keep their result in one HDF5 file:
    seyfert/main/seyfert_core.py:66-79 (densities), 82-94 (fiducial spectra) and
    172-177 (Delta C_l).

    Simplifications: a stage's computation is a value (its result or the error
    it raises), since it writes nothing; its file is a file of H5Model or absent;
    is_file is true of any file that is there.  An interruption falls between
    two operations on the file, after which the file has what was written. *)
From Verif Require Import Base SortLib StrLib FrameModel FsModel KeyModel NameModel H5Model SpectraModel.
Open Scope list_scope.

Section Stage.
  Context {F : Type} {K : Fld F}.

  (** if not file.is_file(): compute, save; else load. *)
  Definition stage {X} (compute : res X) (save : X -> option (hfile F) * res unit) (load : option (hfile F) -> res X) (st : option (hfile F)) : option (hfile F) * res X :=
    match st with
    | Some _ => (st, load st)
    | None =>
        match compute with
        | Err e => (None, Err e)
        | Ok x => let '(st', r) := save x in (st', rmap (fun _ => x) r)
        end
    end.
  (** 66-79. *)
  Definition densities_stage (meta : string * string) (compute : res (dict string (obj F))) : option (hfile F) -> option (hfile F) * res (dict string (obj F)) :=
    stage compute (fun d => save_densities meta d None) load_densities.
  (** 82-94. *)
  Definition spectra_stage (meta : string * string) (compute : res (spectra F)) : option (hfile F) -> option (hfile F) * res (spectra F) :=
    stage compute (fun c => save_steps meta (spectra_steps c) [] None) (load spectra_rd []).
  (** 172-177. *)
  Definition deltas_stage (meta : string * string) (compute : res (deltas F)) : option (hfile F) -> option (hfile F) * res (deltas F) :=
    stage compute (fun c => save meta (deltas_ops c) [] None) (load deltas_rd []).

  (** The same stages interrupted while saving: after [k] of the densities, after
      [k] operations on the file of Delta C_l. *)
  Definition densities_cut (meta : string * string) (d : dict string (obj F)) (k : nat) : option (hfile F) := fst (save_densities meta (firstn k d) None).
  Definition deltas_cut (meta : string * string) (c : deltas F) (k : nat) : option (hfile F) :=
    match k with 0 => None | S _ => Some (fst (run_ops (firstn k (open_ops meta [] true ++ deltas_ops c [])) empty_file)) end.
End Stage.
