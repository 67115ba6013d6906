(** Vocabulary for the pool of worker processes. *)
From Verif Require Import Prelude M_field_pool.

(** The plain loop: one task after the other, each result used before the next task starts. *)
Definition one_after_another {A B S} (task : A -> result B) (use : S -> B -> result S) (tasks : list A) (s : S) : result S :=
  foldM (fun s a => let! b := task a in use s b) tasks s.

(** What the main process ends with, if it has ended. *)
Definition outcome {S} (m : mainproc (S := S)) : option (result S) :=
  match m with Waiting _ _ => None | Ended s => Some (Ok s) | Stopped e => Some (Err e) end.

(** No worker is killed. *)
Definition nobody_killed (evs : list event) : Prop := forall w, ~ In (Kill w) evs.

(** The schedule cannot be continued. *)
Definition at_rest {A B S} (task : A -> result B) (use : S -> B -> result S) (workers n : nat) (p : pool) : Prop :=
  forall ev, pool_step task use workers n ev p = None.
