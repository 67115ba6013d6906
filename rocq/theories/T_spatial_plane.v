(** Property theorems. spatial.py rect2pol, pol2rect, rotate_vector, dot, unit, magnitude, project_vectors,
    compute_vectors, compute_intersection.
    Proofs are in the X_ file of the same name. *)
From Coq Require Import String.
From Verif Require Import Prelude PreludeFacts RealBase Fl M_spatial Spec_spatial P_plane.
Local Open Scope R_scope.
From Verif Require Import X_spatial_plane.

(** C07. Cartesian to polar and back is the identity everywhere, including the origin. *)
Theorem C07_polar_of_cartesian :
  forall x y : R,
  let (r, t) := rect2pol x y in pol2rect r t = (x, y) /\ 0 <= r /\ - PI < t <= PI /\ r = sqrt (x * x + y * y).
Proof. exact (@polar_of_cartesian). Qed.
Print Assumptions C07_polar_of_cartesian.

(** C07. Polar to Cartesian and back is the identity for positive radius and angle in (-pi, pi]. *)
Theorem C07_cartesian_of_polar :
  forall r t : R, 0 < r -> - PI < t <= PI ->
  let (x, y) := pol2rect r t in rect2pol x y = (r, t).
Proof. exact (@cartesian_of_polar). Qed.
Print Assumptions C07_cartesian_of_polar.

(** C07. Outside that range the representation is not unique: a negative radius is turned around. *)
Theorem C07_negative_radius :
  forall r t : R, r < 0 -> - PI < t <= PI ->
  let (x, y) := pol2rect r t in
  let (r', t') := rect2pol x y in r' = - r /\ t' = (if Rleb t 0 then t + PI else t - PI).
Proof. exact (@negative_radius). Qed.
Print Assumptions C07_negative_radius.

Example C07_polar_example :
  rect2pol (-1) 0 = (1, PI) /\ pol2rect 1 PI = (-1, 0).
Proof. exact (@polar_example). Qed.

(** C08. Rotation preserves inner and cross products: lengths, angles, orientation. *)
Theorem C08_rotation_rigid :
  forall (a b : R * R) (t : R),
  inner (rotate_vector a t) (rotate_vector b t) = inner a b /\
  cross (rotate_vector a t) (rotate_vector b t) = cross a b /\
  len (rotate_vector a t) = len a.
Proof. exact (@rotation_rigid). Qed.
Print Assumptions C08_rotation_rigid.

(** C08. Rotations compose additively and -t undoes t; zero is the identity. *)
Theorem C08_rotation_group :
  forall (v : R * R) (s t : R),
  rotate_vector (rotate_vector v s) t = rotate_vector v (s + t) /\
  rotate_vector (rotate_vector v t) (- t) = v /\ rotate_vector v 0 = v.
Proof. exact (@rotation_group). Qed.
Print Assumptions C08_rotation_group.

(** C08. Rotation adds the angle to the polar form (counter-clockwise). *)
Theorem C08_rotation_adds_angle :
  forall r a t : R, rotate_vector (pol2rect r a) t = pol2rect r (a + t).
Proof. exact (@rotation_adds_angle). Qed.
Print Assumptions C08_rotation_adds_angle.

(** C08. A block of points is rotated point by point. *)
Theorem C08_rotation_blockwise :
  forall (xs ys : list R) (t : R) (i : nat) (x y : R), length xs = length ys ->
  nth_error xs i = Some x -> nth_error ys i = Some y ->
  nth_error (fst (rotate_block xs ys t)) i = Some (fst (rotate_vector (x, y) t)) /\
  nth_error (snd (rotate_block xs ys t)) i = Some (snd (rotate_vector (x, y) t)) /\
  length (fst (rotate_block xs ys t)) = length xs /\ length (snd (rotate_block xs ys t)) = length xs.
Proof. exact (@rotation_blockwise). Qed.
Print Assumptions C08_rotation_blockwise.

Example C08_rotation_quarter :
  rotate_vector (1, 0) (PI / 2) = (0, 1).
Proof. exact (@rotation_quarter). Qed.

(** C09. Signed length along a direction, one entry per vector, in order. *)
Theorem C09_project_signed_length :
  forall (vs : list (R * R)) (d : R * R), d <> (0, 0) ->
  project_vectors vs d = map (fun v => Fin (inner v d / len d)) vs.
Proof. exact (@project_signed_length). Qed.
Print Assumptions C09_project_signed_length.

(** C09. Projecting on a zero direction gives NaN for every vector. *)
Theorem C09_project_zero_direction :
  forall vs : list (R * R), project_vectors vs (0, 0) = map (fun _ => Nan) vs.
Proof. exact (@project_zero_direction). Qed.
Print Assumptions C09_project_zero_direction.

(** C09. Only the direction matters: rescaling it changes nothing, reversing it negates. *)
Theorem C09_project_direction_only :
  forall (vs : list (R * R)) (d : R * R) (k : R), d <> (0, 0) -> 0 < k ->
  project_vectors vs (scale2 k d) = project_vectors vs d /\
  project_vectors vs (scale2 (- k) d) = map fopp (project_vectors vs d).
Proof. exact (@project_direction_only). Qed.
Print Assumptions C09_project_direction_only.

(** C09. Linear in the vector. *)
Theorem C09_project_linear :
  forall (u v d : R * R) (a b pu pv : R), d <> (0, 0) ->
  project_vectors [u] d = [Fin pu] -> project_vectors [v] d = [Fin pv] ->
  project_vectors [add2 (scale2 a u) (scale2 b v)] d = [Fin (a * pu + b * pv)].
Proof. exact (@project_linear). Qed.
Print Assumptions C09_project_linear.

(** C09. Never longer than the vector, with equality exactly for parallel vectors; together with
    the perpendicular projection it reconstructs the length. *)
Theorem C09_project_pythagoras :
  forall (v d : R * R) (p q : R), d <> (0, 0) ->
  project_vectors [v] d = [Fin p] -> project_vectors [v] (- snd d, fst d) = [Fin q] ->
  Rabs p <= len v /\ (Rabs p = len v <-> parallel v d) /\ p ^ 2 + q ^ 2 = len v ^ 2.
Proof. exact (@project_pythagoras). Qed.
Print Assumptions C09_project_pythagoras.

(** C09. A plain list must not be empty; otherwise it is projected entry by entry. *)
Theorem C09_project_list :
  forall (vs : list (R * R)) (d : R * R),
  (vs = [] -> project_vectors_list vs d = Err IndexError) /\
  (vs <> [] -> d <> (0, 0) -> project_vectors_list vs d = Ok (map (fun v => Fin (inner v d / len d)) vs)).
Proof. exact (@project_list). Qed.
Print Assumptions C09_project_list.

(** C09. Pandas input: the index of the vectors is kept, entry by entry. *)
Theorem C09_project_keeps_index :
  forall (K : Type) (idx : list K) (vs : list (R * R)) (d : R * R),
  length idx = length vs ->
  map fst (project_vectors_frame idx vs d) = idx /\ map snd (project_vectors_frame idx vs d) = project_vectors vs d.
Proof. exact (@project_keeps_index). Qed.
Print Assumptions C09_project_keeps_index.

(** C09. unit(d) has length one and the direction of d. *)
Theorem C09_unit_vector_length :
  forall d : R * R, d <> (0, 0) ->
  exists u, unit_vec d = (Fin (fst u), Fin (snd u)) /\ len u = 1 /\ scale2 (len d) u = d.
Proof. exact (@unit_vector_length). Qed.
Print Assumptions C09_unit_vector_length.

(** C09. dot and magnitude are the inner product and Euclidean length. *)
Theorem C09_dot_magnitude :
  forall a b : R * R, dot a b = inner a b /\ magnitude a = len a /\ Rabs (dot a b) <= magnitude a * magnitude b.
Proof. exact (@dot_magnitude). Qed.
Print Assumptions C09_dot_magnitude.

Example C09_project_example :
  project_vectors [(3, 4); (0, 5)] (2, 0) = [Fin 3; Fin 0].
Proof. exact (@project_example). Qed.

(** C10. One vector per site, in order: site minus reference; extra entries of the reference are
    ignored. *)
Theorem C10_vectors_from_reference :
  forall (x y : list R) (rx ry : R) (extra : list R), length x = length y ->
  exists vs, compute_vectors x y (rx :: ry :: extra) = Ok vs /\ length vs = length x /\
    compute_vectors x y [rx; ry] = Ok vs /\
    forall i xi yi, nth_error x i = Some xi -> nth_error y i = Some yi -> nth_error vs i = Some (sub2 (xi, yi) (rx, ry)).
Proof. exact (@vectors_from_reference). Qed.
Print Assumptions C10_vectors_from_reference.

(** C10. Differences of rows do not depend on the reference, and adding it back recovers the site. *)
Theorem C10_vectors_reference_free :
  forall (x y : list R) (r s : R * R) vr vs i j ai aj bi bj,
  compute_vectors x y [fst r; snd r] = Ok vr -> compute_vectors x y [fst s; snd s] = Ok vs ->
  nth_error vr i = Some ai -> nth_error vr j = Some aj -> nth_error vs i = Some bi -> nth_error vs j = Some bj ->
  sub2 ai aj = sub2 bi bj /\ add2 ai r = add2 bi s.
Proof. exact (@vectors_reference_free). Qed.
Print Assumptions C10_vectors_reference_free.

(** C10. A reference with a single entry is subtracted from both coordinates; an empty one fails as soon as there is a site. *)
Theorem C10_vectors_short_reference :
  forall (x y : list R) (r : R), compute_vectors x y [r] = compute_vectors x y [r; r] /\
  (compute_vectors x y [] = Ok [] <-> x = [] \/ y = []) /\ (compute_vectors x y [] = Err ValueError <-> x <> [] /\ y <> []).
Proof. exact (@vectors_short_reference). Qed.
Print Assumptions C10_vectors_short_reference.

(** C10. With pandas input there is one labelled vector per site: this succeeds exactly when there is a site, a reference
    and a y for every x, everything else being a ValueError. *)
Theorem C10_vectors_frame :
  forall {K} (idx : list K) (x y r : list R), length idx = length x ->
  ((exists rows, compute_vectors_frame idx x y r = Ok rows) <-> x <> [] /\ (length x <= length y)%nat /\ r <> []) /\
  (forall rows, compute_vectors_frame idx x y r = Ok rows ->
     map fst rows = idx /\ exists vs, compute_vectors x y r = Ok vs /\ map snd rows = vs) /\
  (forall e, compute_vectors_frame idx x y r = Err e -> e = ValueError).
Proof. exact (@vectors_frame). Qed.
Print Assumptions C10_vectors_frame.

(** C10. A table of two sites. *)
Example C10_vectors_frame_example :
  compute_vectors_frame ["a"; "b"]%string [1; 2] [3; 5] [1; 1] = Ok [("a"%string, (1 - 1, 3 - 1)); ("b"%string, (2 - 1, 5 - 1))].
Proof. exact (@vectors_frame_example). Qed.

Example C10_vectors_example :
  compute_vectors [1; 2] [3; 5] [1; 1; 77] = Ok [(1 - 1, 3 - 1); (2 - 1, 5 - 1)].
Proof. exact (@vectors_example). Qed.

(** C11. Non-parallel rows: the answer is the unique point on both tip perpendiculars. *)
Theorem C11_intersection_unique_point :
  forall (A B : list (R * R)) (i : nat) (a b : R * R),
  length A = length B -> nth_error A i = Some a -> nth_error B i = Some b -> ~ parallel a b ->
  exists C c, compute_intersection A B = Ok C /\ length C = length A /\
    nth_error C i = Some (Fin (fst c), Fin (snd c)) /\
    on_tip_perpendicular a c /\ on_tip_perpendicular b c /\
    forall c', on_tip_perpendicular a c' -> on_tip_perpendicular b c' -> c' = c.
Proof. exact (@intersection_unique_point). Qed.
Print Assumptions C11_intersection_unique_point.

(** C11. Swapping the two vectors gives the same points. *)
Theorem C11_intersection_symmetric :
  forall A B : list (R * R),
  (forall a b, In a A -> In b B -> ~ parallel a b) ->
  compute_intersection A B = compute_intersection B A.
Proof. exact (@intersection_symmetric). Qed.
Print Assumptions C11_intersection_symmetric.

(** C11. Equal row counts: already two rows that are not parallel, pair by pair, are enough. *)
Theorem C11_intersection_symmetric_rows :
  forall A B : list (R * R), length A = length B ->
  (forall i a b, nth_error A i = Some a -> nth_error B i = Some b -> ~ parallel a b) ->
  compute_intersection A B = compute_intersection B A.
Proof. exact (@intersection_symmetric_rows). Qed.
Print Assumptions C11_intersection_symmetric_rows.

(** C11. Parallel rows (a zero vector included) never yield a finite coordinate. *)
Theorem C11_intersection_parallel_not_finite :
  forall (A B : list (R * R)) (i : nat) (a b : R * R) C p, length A = length B ->
  nth_error A i = Some a -> nth_error B i = Some b -> parallel a b ->
  compute_intersection A B = Ok C -> nth_error C i = Some p ->
  is_finite (fst p) = false /\ is_finite (snd p) = false.
Proof. exact (@intersection_parallel_not_finite). Qed.
Print Assumptions C11_intersection_parallel_not_finite.

(** C11. A single row is paired with every row of the other array, on either side. *)
Theorem C11_intersection_single_row :
  forall (a : R * R) (B : list (R * R)),
  compute_intersection [a] B = compute_intersection (repeat a (length B)) B /\ compute_intersection B [a] = compute_intersection B (repeat a (length B)).
Proof. exact (@intersection_single_row). Qed.
Print Assumptions C11_intersection_single_row.

(** C11. Otherwise row counts must agree. *)
Theorem C11_intersection_row_mismatch :
  forall A B : list (R * R),
  compute_intersection A B = Err ValueError <-> length A <> length B /\ length A <> 1%nat /\ length B <> 1%nat.
Proof. exact (@intersection_row_mismatch). Qed.
Print Assumptions C11_intersection_row_mismatch.

Example C11_intersection_example :
  ~ parallel (2, 0) (0, 3) /\ parallel (1, 2) (2, 4) /\
  compute_intersection [(2, 0)] [(0, 3)] = Ok [(Fin 2, Fin 3)].
Proof. exact (@intersection_example). Qed.

