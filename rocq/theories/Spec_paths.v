(** Independent vocabulary for paths: components innermost first. *)
From Coq Require Import String.
From Verif Require Import Prelude M_paths.

(** [q] is [p] itself or lies above it. *)
Definition above (q p : path) : Prop := exists inner, p = inner ++ q.
Definition strictly_above (q p : path) : Prop := above q p /\ q <> p.
(** Everything that exists lies in a directory. *)
Definition well_formed (t : tree) : Prop := forall c p k, kind_of t (c :: p) = Some k -> kind_of t p = Some Folder.
