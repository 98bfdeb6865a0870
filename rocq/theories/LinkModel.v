(** File systems with symbolic links, as the workspace uses them.  No SEYFERT
    code.

    A path of the program is absolute or relative to the working directory and
    may have parts ".." and "."; a physical path is the list of names from the
    root.  Simplifications: no permissions; no hard links; a part never
    contains "/"; writing through a dangling link is an error (the system would
    create its target). *)
From Verif Require Import Base SortLib StrLib FrameModel FsModel.
Open Scope string_scope.
Open Scope list_scope.

Record gpath := mkG { g_abs : bool; g_parts : list string }.
(** p / "x" / "y", p.parent, p.name. *)
Definition g_sub (g : gpath) (l : list string) : gpath := mkG (g_abs g) (g_parts g ++ l).
Definition g_parent (g : gpath) : gpath := mkG (g_abs g) (removelast (g_parts g)).
Definition g_name (g : gpath) : string := last (g_parts g) "".
(** p / q: an absolute q replaces p. *)
Definition g_join (g q : gpath) : gpath := if g_abs q then q else mkG (g_abs g) (g_parts g ++ g_parts q).

(** os.path.normpath of the parts of an absolute path. *)
Definition norm_step (acc : list string) (x : string) : list string :=
  if String.eqb x ".." then removelast acc else if String.eqb x "." then acc else acc ++ [x].
Definition normal (l : list string) : list string := fold_left norm_step l [].
(** os.path.abspath with working directory [cwd]. *)
Definition abspath (cwd : path) (g : gpath) : list string := normal ((if g_abs g then [] else cwd) ++ g_parts g).
Fixpoint common (a b : list string) : nat :=
  match a, b with
  | x :: a', y :: b' => if String.eqb x y then S (common a' b') else 0
  | _, _ => 0
  end.
(** os.path.relpath(g, start). *)
Definition relpath (cwd : path) (g start : gpath) : gpath :=
  let a := abspath cwd start in
  let b := abspath cwd g in
  let i := common a b in
  let l := repeat ".." (length a - i) ++ skipn i b in
  mkG false (match l with [] => ["."] | _ => l end).

Section Links.
  Context {C : Type}.
  Inductive lnode := LDir | LFile (c : C) | LLink (t : gpath).
  Definition lfs := dict path lnode.
  Definition llookup (s : lfs) (p : path) : option lnode := match p with [] => Some LDir | _ => dget sl_eqb s p end.

  (** The physical path that [todo] leads to from the directory [cur], through
      at most [links] links. *)
  Fixpoint walk (s : lfs) (links : nat) : path -> list string -> res path :=
    fix go (cur : path) (todo : list string) {struct todo} : res path :=
      match todo with
      | [] => Ok cur
      | x :: r =>
          if String.eqb x ".." then go (removelast cur) r
          else if String.eqb x "." then go cur r
          else match llookup s (cur ++ [x]) with
               | None => Err EFileNotFound
               | Some LDir => go (cur ++ [x]) r
               | Some (LFile _) => match r with [] => Ok (cur ++ [x]) | _ => Err EOSError end
               | Some (LLink t) =>
                   match links with
                   | 0 => Err EOSError
                   | S k => walk s k (if g_abs t then [] else cur) (g_parts t ++ r)
                   end
               end
      end.

  (** [L] is the number of links the system follows, [cwd] the working
      directory. *)
  Context (L : nat) (cwd : path).
  Definition locate (s : lfs) (g : gpath) : res path := walk s L (if g_abs g then [] else cwd) (g_parts g).
  (** g.exists(), g.is_dir(), reading g. *)
  Definition lexists (s : lfs) (g : gpath) : bool := match locate s g with Ok _ => true | Err _ => false end.
  Definition lisdir (s : lfs) (g : gpath) : bool :=
    match locate s g with Ok p => match llookup s p with Some LDir => true | _ => false end | Err _ => false end.
  Definition lread (s : lfs) (g : gpath) : res C :=
    p <- locate s g ;;
    match llookup s p with Some (LFile c) => Ok c | Some LDir => Err EOSError | _ => Err EFileNotFound end.
  (** The directory entry that g names, its last part not followed. *)
  Definition entry (s : lfs) (g : gpath) : res path :=
    match g_parts g with
    | [] => Err EFileExists
    | _ => p <- locate s (g_parent g) ;;
           match llookup s p with Some LDir => Ok (p ++ [g_name g]) | _ => Err EOSError end
    end.
  Definition lput (s : lfs) (p : path) (n : lnode) : lfs := dset sl_eqb s p n.
  (** open(g, 'w') and writing [c]. *)
  Definition lwrite (g : gpath) (c : C) (s : lfs) : lfs * res unit :=
    match entry s g with
    | Err e => (s, Err e)
    | Ok p =>
        match llookup s p with
        | None | Some (LFile _) => (lput s p (LFile c), Ok tt)
        | Some LDir => (s, Err EOSError)
        | Some (LLink _) =>
            match walk s L [] p with
            | Ok q => match llookup s q with Some (LFile _) => (lput s q (LFile c), Ok tt) | _ => (s, Err EOSError) end
            | Err _ => (s, Err EOSError)
            end
        end
    end.
  (** g.symlink_to(target). *)
  Definition lsymlink (target g : gpath) (s : lfs) : lfs * res unit :=
    match entry s g with
    | Err e => (s, Err e)
    | Ok p => match llookup s p with None => (lput s p (LLink target), Ok tt) | Some _ => (s, Err EFileExists) end
    end.
  (** g.mkdir(exist_ok=True). *)
  Definition lmkdir (g : gpath) (s : lfs) : lfs * res unit :=
    match entry s g with
    | Err e => (s, if lisdir s g then Ok tt else Err e)
    | Ok p => match llookup s p with
              | None => (lput s p LDir, Ok tt)
              | Some _ => (s, if lisdir s g then Ok tt else Err EFileExists)
              end
    end.
  (** g.mkdir(exist_ok=True, parents=True): every missing directory on the way. *)
  Fixpoint mkdirs_from (cur : path) (todo : list string) (s : lfs) : lfs * res unit :=
    match todo with
    | [] => (s, Ok tt)
    | x :: r =>
        if String.eqb x ".." then mkdirs_from (removelast cur) r s
        else if String.eqb x "." then mkdirs_from cur r s
        else match llookup s (cur ++ [x]) with
             | None => mkdirs_from (cur ++ [x]) r (lput s (cur ++ [x]) LDir)
             | Some LDir => mkdirs_from (cur ++ [x]) r s
             | Some (LFile _) => (s, Err EFileExists)
             | Some (LLink _) =>
                 match walk s L cur [x] with
                 | Ok q => match llookup s q with Some LDir => mkdirs_from q r s | _ => (s, Err EFileExists) end
                 | Err _ => (s, Err EFileExists)
                 end
             end
    end.
  Definition lmkdirs (g : gpath) (s : lfs) : lfs * res unit :=
    mkdirs_from (if g_abs g then [] else cwd) (g_parts g) s.
  (** shutil.copy(src, dst): into dst if it is a directory; the same file is an
      error. *)
  Definition lcopy (src dst : gpath) (s : lfs) : lfs * res unit :=
    let dst' := if lisdir s dst then g_sub dst [g_name src] else dst in
    match locate s src with
    | Err e => (s, Err e)
    | Ok p =>
        if match locate s dst' with Ok q => sl_eqb p q | Err _ => false end then (s, Err EOSError)
        else match lread s src with Err e => (s, Err e) | Ok c => lwrite dst' c s end
    end.
End Links.
Arguments lnode : clear implicits.
Arguments lfs : clear implicits.
