(** Independent vocabulary for a field in which several sensors are mislabelled. *)
From Verif Require Import Prelude RealBase Spec_spatial.
Local Open Scope R_scope.

(** How far the sensor [k] really stands from where the plan lists it. *)
Definition displacement {K} `{Label K} (pos : list (K * (R * R))) (X : K -> R * R) (k : K) : R * R :=
  match dget pos k with Some P => sub2 (X k) P | None => (0, 0) end.
Definition avg_of {A} (f : A -> R) (l : list A) : R := Rsum (map f l) / INR (length l).
(** Mean displacement of the sensors [used], measured along [v] (times the length of [v]). *)
Definition mean_shift {K} `{Label K} (pos : list (K * (R * R))) (X : K -> R * R) (v : R * R) (used : list K) : R :=
  avg_of (fun k => inner (displacement pos X k) v) used.
