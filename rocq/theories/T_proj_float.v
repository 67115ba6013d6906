(** Property theorems. spatial.py projections in floating point.
    Proofs are in the X_ file of the same name. *)
From Flocq Require Import Core Relative.
From Verif Require Import Prelude PreludeFacts RealBase M_spatial M_spatial_float X_spatial_zone X_trunc_float Spec_spatial P_plane Spec_dist_float M_dist_float X_dist_float M_proj_float.
Local Open Scope R_scope.
From Verif Require Import X_proj_float.

(** C137. A projection computed in floating point is the exact one to within sixteen rounding units of the length of the
    projected vector (and 2^-1000), for every vector and every direction in the ordinary range. *)
Theorem C137_project_close :
  forall v dir, ordinary (fst dir) -> ordinary (snd dir) -> dir <> (0, 0) ->
  Rabs (project1_b64 dir v - inner v dir / len dir) <= 16 * u * len v + bpow radix2 (-1000).
Proof. exact (@project_close). Qed.
Print Assumptions C137_project_close.

(** C137. The length of the direction is ignored, as documented, up to the same errors. *)
Theorem C137_project_scale :
  forall v dir k, ordinary (fst dir) -> ordinary (snd dir) -> dir <> (0, 0) -> 0 < k ->
  ordinary (k * fst dir) -> ordinary (k * snd dir) ->
  Rabs (project1_b64 (k * fst dir, k * snd dir) v - project1_b64 dir v) <= 32 * u * len v + 2 * bpow radix2 (-1000).
Proof. exact (@project_scale). Qed.
Print Assumptions C137_project_scale.

(** C137. Reversing the vector or the direction reverses the sign of the computed projection and changes nothing else, bit
    for bit. *)
Theorem C137_project_reversed :
  forall x y a b,
  project1_b64 (a, b) (- x, - y) = - project1_b64 (a, b) (x, y) /\ project1_b64 (- a, - b) (x, y) = - project1_b64 (a, b) (x, y).
Proof. exact (@project_reversed). Qed.
Print Assumptions C137_project_reversed.

(** C137. The two ends of a pair exchanged: the computed separation vector changes sign exactly, so its projection on any
    direction does too; and a site is at distance zero from itself. *)
Theorem C137_separation_reversed :
  forall p q dir vp vq,
  compute_vectors_b64 [p] q = [vp] -> compute_vectors_b64 [q] p = [vq] ->
  vq = (- fst vp, - snd vp) /\ project_vectors_b64 [vq] dir = map Ropp (project_vectors_b64 [vp] dir) /\
  (p = q -> vp = (0, 0)).
Proof. exact (@separation_reversed). Qed.
Print Assumptions C137_separation_reversed.

(** C137. The computed vector from the reference to a point is the exact one to one rounding unit in each component, in the
    order of the points. *)
Theorem C137_vectors_close :
  forall points q i p, nth_error points i = Some p ->
  exists v, nth_error (compute_vectors_b64 points q) i = Some v /\
    Rabs (fst v - (fst p - fst q)) <= u * Rabs (fst p - fst q) + bpow radix2 (-1074) /\
    Rabs (snd v - (snd p - snd q)) <= u * Rabs (snd p - snd q) + bpow radix2 (-1074).
Proof. exact (@vectors_close). Qed.
Print Assumptions C137_vectors_close.

(** C137. The components pol2rect computes are the exact ones to a little over two rounding units of the radius, if the cosine
    and the sine are right to one rounding unit. *)
Theorem C137_pol2rect_close :
  forall r theta c s, Rabs (c - cos theta) <= u -> Rabs (s - sin theta) <= u ->
  Rabs (fst (pol2rect_b64 r c s) - r * cos theta) <= (2 * u + u ^ 2) * Rabs r + bpow radix2 (-1074) /\
  Rabs (snd (pol2rect_b64 r c s) - r * sin theta) <= (2 * u + u ^ 2) * Rabs r + bpow radix2 (-1074).
Proof. exact (@pol2rect_close). Qed.
Print Assumptions C137_pol2rect_close.

(** C137. Projecting a whole list is projecting each vector, in order. *)
Theorem C137_project_list :
  forall vs dir i v, nth_error vs i = Some v -> length (project_vectors_b64 vs dir) = length vs /\
  nth_error (project_vectors_b64 vs dir) i = nth_error (project_vectors_b64 [v] dir) 0.
Proof. exact (@project_list). Qed.
Print Assumptions C137_project_list.

(** C137. The direction (3, 4) is ordinary and not zero, and so is twice it; the vector (10, 0) has length 10 and its exact
    projection is 6. *)
Example C137_proj_float_example :
  ordinary 3 /\ ordinary 4 /\ (3, 4) <> (0, 0) /\ ordinary (2 * 3) /\ ordinary (2 * 4) /\
  len (10, 0) = 10 /\ inner (10, 0) (3, 4) / len (3, 4) = 6 /\ compute_vectors_b64 [(7, 5)] (4, 1) = [(3, 4)].
Proof. exact (@proj_float_example). Qed.

