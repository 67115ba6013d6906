(** Independent vocabulary for the cloud field demo (C114). *)
From Verif Require Import Prelude RealBase.
Local Open Scope R_scope.

(** Coordinate of a point along the direction [dir], and across it (to the left). *)
Definition along (dir : R) (p : R * R) : R := fst p * cos dir + snd p * sin dir.
Definition across (dir : R) (p : R * R) : R := snd p * cos dir - fst p * sin dir.
(** [lo] and [hi] are the smallest and largest value of [f] on the labelled points. *)
Definition ranges {K} (f : R * R -> R) (pos : list (K * (R * R))) (lo hi : R) : Prop :=
  (exists k p, In (k, p) pos /\ f p = lo) /\ (exists k p, In (k, p) pos /\ f p = hi) /\
  forall k p, In (k, p) pos -> lo <= f p <= hi.
(** A whole number *)
Definition whole (x : R) : Prop := exists z : Z, x = IZR z.
(** [z] whole steps cover [x], and no fewer do. *)
Definition covers (z : nat) (x : R) : Prop := INR z - 1 < x <= INR z.
(** [z] whole steps fit into [x], and no more do. *)
Definition fits (z : nat) (x : R) : Prop := INR z <= x < INR z + 1.
(** Every second from [t0] to [t0] + [T]. *)
Definition every_second (t0 : R) (T : nat) : list R := map (fun i => t0 + INR i) (seq 0 (T + 1)).
Definition moved {K} (v : R * R) (pos : list (K * (R * R))) : list (K * (R * R)) :=
  map (fun p => (fst p, (fst (snd p) + fst v, snd (snd p) + snd v))) pos.
