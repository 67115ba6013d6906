(** src/solarspatialtools/spatial.py in binary64: pol2rect, project_vectors and compute_vectors, every arithmetic operation
    rounded to nearest even (Flocq). Overflow is not represented. No proofs in this file. *)
From Flocq Require Import Core.
From Verif Require Import Prelude RealBase M_spatial M_spatial_float M_dist_float.
Local Open Scope R_scope.

(** spatial.py:361-380 pol2rect; [c], [s] are the float64 values of np.cos(theta) and np.sin(theta). *)
Definition pol2rect_b64 (r c s : R) : R * R := (b64 (r * c), b64 (r * s)).

(** spatial.py:451-453 project_vectors: one vector. numpy rounds the two products and their sum. *)
Definition project1_b64 (dir v : R * R) : R :=
  let w := unit_b64 dir in b64 (b64 (fst v * fst w) + b64 (snd v * snd w)).
(** spatial.py:416-459 project_vectors on an array of float64 vectors and a direction that is not zero. *)
Definition project_vectors_b64 (vectors : list (R * R)) (dir : R * R) : list R := map (project1_b64 dir) vectors.

(** spatial.py:462-504 compute_vectors with a reference point of two coordinates. *)
Definition compute_vectors_b64 (points : list (R * R)) (refpt : R * R) : list (R * R) :=
  map (fun p => (b64 (fst p - fst refpt), b64 (snd p - snd refpt))) points.
