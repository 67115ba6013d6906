(** Independent vocabulary for gaps in records that are cut into segments. *)
From Verif Require Import Prelude RealBase Spec_welch.
Local Open Scope R_scope.

(** Row [t] of [n] lies in one of the segments the arguments ask for. *)
Definition row_read (n navgs : nat) (overlap : R) (t : nat) : Prop :=
  exists N V s, welch_grid n navgs overlap N V /\ (s * (N - V) + N <= n)%nat /\ (s * (N - V) <= t < s * (N - V) + N)%nat.
(** A sample is missing in a row that is read. *)
Definition gap_read (n navgs : nat) (overlap : R) (s : list (option R)) : Prop :=
  exists t, row_read n navgs overlap t /\ nth_error s t = Some None.
(** [x] is [s] in all rows that are read, and arbitrary elsewhere. *)
Definition same_where_read (n navgs : nat) (overlap : R) (s : list (option R)) (x : list R) : Prop :=
  length x = length s /\ forall t, row_read n navgs overlap t -> nth_error s t = Some (nth_error x t).
