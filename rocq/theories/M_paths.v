(** Model of dataio/iotools.py ensurepath over a tree of files and directories.
    A path is the list of its components, innermost first, so that its parent is its tail; [] is the root.
    Simplifications: no links, no permissions, components already normalised. *)
From Coq Require Import String.
From Verif Require Import Prelude.

Definition path : Type := list string.
Definition path_eqb (p q : path) : bool := if list_eq_dec string_dec p q then true else false.
Inductive kind : Type := File | Folder.
Definition tree : Type := list (path * kind).
(** What stands at a path. *)
Fixpoint node (t : tree) (p : path) : option kind :=
  match t with
  | [] => None
  | (q, k) :: r => if path_eqb p q then Some k else node r p
  end.
Definition kind_of (t : tree) (p : path) : option kind := match p with [] => Some Folder | _ => node t p end.
(** os.path.exists *)
Definition there (t : tree) (p : path) : bool := match kind_of t p with Some _ => true | None => false end.
(** os.mkdir *)
Definition mkdir (t : tree) (p : path) : result tree :=
  match p with
  | [] => Err FileExistsError
  | _ :: parent =>
    match kind_of t parent with
    | Some Folder => if there t p then Err FileExistsError else Ok ((p, Folder) :: t)
    | _ => Err OtherError
    end
  end.
(** The tree after some of the created directories. *)
Definition made (ops : list path) (t : tree) : tree := fold_left (fun t p => (p, Folder) :: t) ops t.
(** os.makedirs: missing parents first (a FileExistsError for them is swallowed), then the directory itself.
    Result: the directories created, in order, and the outcome. *)
Fixpoint makedirs (t : tree) (p : path) : list path * result unit :=
  match p with
  | [] => ([], Err FileExistsError)
  | _ :: parent =>
    let (ops, r) := if there t parent then ([], Ok tt) else makedirs t parent in
    match r with
    | Ok _ | Err FileExistsError =>
      match mkdir (made ops t) p with
      | Ok _ => (ops ++ [p], Ok tt)
      | Err e => (ops, Err e)
      end
    | Err e => (ops, Err e)
    end
  end.
(** iotools.py:64-77 ensurepath *)
Definition ensurepath (t : tree) (p : path) : list path * result unit :=
  if there t p then ([], Ok tt) else makedirs t p.
