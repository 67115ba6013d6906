(** Model of dataio/iotools.py ensurepath while other processes create directories, over the tree of M_paths.
    [env i] lists the directories that others try to create just before the i-th system call of this process.
    Simplifications: as in M_paths; the others only create directories (they delete nothing). No proofs here. *)
From Coq Require Import String.
From Verif Require Import Prelude M_paths.

(** Another process's os.mkdir, its own failure being its own concern. *)
Definition mkdir_other (t : tree) (p : path) : tree := match mkdir t p with Ok t' => t' | Err _ => t end.
(** Number of system calls so far, and the tree. *)
Definition world : Type := (nat * tree)%type.
Definition tick (env : nat -> list path) (w : world) : world := (S (fst w), fold_left mkdir_other (env (fst w)) (snd w)).
(** os.path.exists as a system call *)
Definition sys_exists (env : nat -> list path) (w : world) (p : path) : bool * world :=
  let w' := tick env w in (there (snd w') p, w').
(** os.mkdir as a system call *)
Definition sys_mkdir (env : nat -> list path) (w : world) (p : path) : result unit * world :=
  let w' := tick env w in
  match mkdir (snd w') p with Ok t => (Ok tt, (fst w', t)) | Err e => (Err e, w') end.
(** os.makedirs with exist_ok=False (iotools.py:77): missing parents first, their FileExistsError swallowed. *)
Fixpoint makedirs_env (env : nat -> list path) (w : world) (p : path) : result unit * world :=
  match p with
  | [] => (Err FileExistsError, w)
  | _ :: parent =>
    let (b, w1) := sys_exists env w parent in
    let (r, w2) := if b then (Ok tt, w1) else makedirs_env env w1 parent in
    match r with
    | Ok _ | Err FileExistsError => sys_mkdir env w2 p
    | Err e => (Err e, w2)
    end
  end.
(** iotools.py:64-77 ensurepath *)
Definition ensurepath_env (env : nat -> list path) (t : tree) (p : path) : result unit * tree :=
  let (b, w) := sys_exists env (0%nat, t) p in
  if b then (Ok tt, snd w) else let (r, w') := makedirs_env env w p in (r, snd w').
