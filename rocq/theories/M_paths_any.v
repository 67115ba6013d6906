(** Model of dataio/iotools.py ensurepath while other processes do whatever they like to the tree of M_paths: create, delete, replace
    directories and files. [env i] is the change the others make just before the i-th system call of this process.
    Simplifications: as in M_paths. No proofs here. *)
From Coq Require Import String.
From Verif Require Import Prelude M_paths.

(** Number of system calls so far, the directories this process has made (latest first), and the tree. *)
Record world : Type := World { calls : nat; own : list path; now : tree }.
Definition tick (env : nat -> tree -> tree) (w : world) : world := World (S (calls w)) (own w) (env (calls w) (now w)).
(** os.path.exists as a system call *)
Definition sys_exists (env : nat -> tree -> tree) (w : world) (p : path) : bool * world :=
  let w' := tick env w in (there (now w') p, w').
(** os.mkdir as a system call *)
Definition sys_mkdir (env : nat -> tree -> tree) (w : world) (p : path) : result unit * world :=
  let w' := tick env w in
  match mkdir (now w') p with Ok t => (Ok tt, World (calls w') (p :: own w') t) | Err e => (Err e, w') end.
(** os.makedirs with exist_ok=False (iotools.py:77): missing parents first, their FileExistsError swallowed. *)
Fixpoint makedirs_any (env : nat -> tree -> tree) (w : world) (p : path) : result unit * world :=
  match p with
  | [] => (Err FileExistsError, w)
  | _ :: parent =>
    let (b, w1) := sys_exists env w parent in
    let (r, w2) := if b then (Ok tt, w1) else makedirs_any env w1 parent in
    match r with
    | Ok _ | Err FileExistsError => sys_mkdir env w2 p
    | Err e => (Err e, w2)
    end
  end.
(** iotools.py:64-77 ensurepath *)
Definition ensurepath_any (env : nat -> tree -> tree) (t : tree) (p : path) : result unit * world :=
  let (b, w) := sys_exists env (World 0 [] t) p in
  if b then (Ok tt, w) else makedirs_any env w p.
