(** Vocabulary: a tree changed in turns by the others and by this process. *)
From Coq Require Import String.
From Verif Require Import Prelude M_paths.

(** From tree [t] before call [i] to tree [u] before call [j]: at every call the others make their change [env i]; this process only ever
    adds directories that are missing and whose parent is a directory at that moment, in the order of [made]. *)
Inductive woven (env : nat -> tree -> tree) : nat -> tree -> list path -> nat -> tree -> Prop :=
| woven_start i t : woven env i t [] i t
| woven_look i t made j u : woven env i t made j u -> woven env i t made (S j) (env j u)
| woven_make i t made j u q v : woven env i t made j u -> kind_of (env j u) q = None -> kind_of (env j u) (tl q) = Some Folder ->
    v = (q, Folder) :: env j u -> woven env i t (made ++ [q]) (S j) v.
(** From the outside in: each directory lies below the one before. *)
Fixpoint inwards (l : list path) : Prop :=
  match l with a :: (b :: _) as r => length a < length b /\ inwards r | _ => True end.
