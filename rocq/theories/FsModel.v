(** File systems and HDF5 files as the models use them.  No SEYFERT code.

    A path is its list of parts; a file system maps paths to directories or
    regular files with a content of type [C].  Simplifications: no links, no
    permissions, no relative parts ("..", "."); a part never contains "/". *)
From Verif Require Import Base SortLib StrLib FrameModel.
Open Scope list_scope.

Definition path := list string.

Section Fs.
  Context {C : Type}.
  Inductive node := NDir | NFile (c : C).
  Definition fs := dict path node.

  Definition lookup (s : fs) (p : path) : option node := dget sl_eqb s p.
  (** p.exists(), p.is_dir(); the root always exists. *)
  Definition p_exists (s : fs) (p : path) : bool := match lookup s p with Some _ => true | None => false end.
  Definition p_isdir (s : fs) (p : path) : bool :=
    match p with [] => true | _ => match lookup s p with Some NDir => true | _ => false end end.
  Definition remove_path (s : fs) (p : path) : fs := filter (fun e => negb (sl_eqb (fst e) p)) s.
  (** p.unlink(). *)
  Definition p_unlink (p : path) (s : fs) : fs * res unit :=
    match lookup s p with
    | Some (NFile _) => (remove_path s p, Ok tt)
    | Some NDir => (s, Err EOSError)
    | None => (s, Err EFileNotFound)
    end.
  (** Opening for writing: the parent must be a directory, the path must not
      be one; the file becomes [c]. *)
  Definition p_write (p : path) (c : C) (s : fs) : fs * res unit :=
    if negb (p_isdir s (removelast p)) then (s, Err EOSError)
    else match p, lookup s p with
         | [], _ | _, Some NDir => (s, Err EOSError)
         | _, _ => (dset sl_eqb s p (NFile c), Ok tt)
         end.
  (** Reading a regular file. *)
  Definition p_read (s : fs) (p : path) : res C :=
    match lookup s p with
    | Some (NFile c) => Ok c
    | Some NDir => Err EOSError
    | None => Err EFileNotFound
    end.
  (** p.mkdir(exist_ok=...) without parents. *)
  Definition p_mkdir (exist_ok : bool) (p : path) (s : fs) : fs * res unit :=
    match p with
    | [] => if exist_ok then (s, Ok tt) else (s, Err EFileExists)
    | _ =>
      match lookup s p with
      | Some NDir => if exist_ok then (s, Ok tt) else (s, Err EFileExists)
      | Some (NFile _) => (s, Err EFileExists)
      | None => if p_isdir s (removelast p) then (dset sl_eqb s p NDir, Ok tt) else (s, Err EFileNotFound)
      end
    end.
End Fs.
Arguments node : clear implicits.
Arguments fs : clear implicits.

(** HDF5 files holding text, text arrays and float arrays ([None] is NaN). *)
Inductive dval (F : Type) := DText (s : string) | DTexts (l : list string) | DMatrix (rows : list (list (option F))).
Arguments DText {F} _. Arguments DTexts {F} _. Arguments DMatrix {F} _.
Definition h5 (F : Type) := dict string (dval F).
(** requirements.txt pins h5py 2.10 (texts are read back as str), pyproject.toml
    asks for 3.7 (texts are read back as bytes).  A bytes object b"x" is
    represented by its repr; for a scalar that is what str() of it gives. *)
Inductive h5ver := H2 | H3.
Definition h5_text (v : h5ver) (s : string) : string :=
  match v with H2 => s | H3 => ("b'" ++ s ++ "'")%string end.
Definition h5_get {F} (d : h5 F) (n : string) : res (dval F) :=
  match dget String.eqb d n with Some x => Ok x | None => Err EKeyError end.
Definition as_text {F} (x : dval F) : res string := match x with DText s => Ok s | _ => Err ETypeError end.
Definition as_texts {F} (x : dval F) : res (list string) := match x with DTexts s => Ok s | _ => Err ETypeError end.
Definition as_matrix {F} (x : dval F) : res (list (list (option F))) := match x with DMatrix s => Ok s | _ => Err ETypeError end.
