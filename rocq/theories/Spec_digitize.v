(** Independent vocabulary for outlines and their centroids. *)
From Coq Require Import String.
From Verif Require Import Prelude RealBase Spec_spatial.
Local Open Scope R_scope.

(** Corner [i] of a ring of corners and the one after it, the last being followed by the first. *)
Definition side_of (ring : list (R * R)) (i : nat) (p q : R * R) : Prop :=
  nth_error ring i = Some p /\ nth_error ring (if Nat.eqb (S i) (length ring) then 0 else S i)%nat = Some q.
(** Signed area of the triangle o p q, and its centroid. *)
Definition tri_area (o p q : R * R) : R := cross (sub2 p o) (sub2 q o) / 2.
Definition tri_mid (o p q : R * R) : R * R := scale2 (/ 3) (add2 o (add2 p q)).
(** The sum of a quantity over the sides of a ring. *)
Definition over_sides (ring : list (R * R)) (f : R * R -> R * R -> R) (total : R) : Prop :=
  exists vals, length vals = length ring /\ (forall i p q, side_of ring i p q -> nth_error vals i = Some (f p q)) /\ total = Rsum vals.
(** [area] and [c] are signed area and centroid of a ring: it is put together from triangles with tip [o], which are added with their signs. *)
Definition made_of_triangles (o : R * R) (ring : list (R * R)) (area : R) (c : R * R) : Prop :=
  over_sides ring (tri_area o) area /\
  over_sides ring (fun p q => tri_area o p q * fst (tri_mid o p q)) (area * fst c) /\
  over_sides ring (fun p q => tri_area o p q * snd (tri_mid o p q)) (area * snd c).
(** All of the ring can be seen from its corner [o] (true for every corner of a convex ring): the triangles have one orientation. *)
Definition seen_from (o : R * R) (ring : list (R * R)) : Prop :=
  In o ring /\ ((forall i p q, side_of ring i p q -> 0 <= tri_area o p q) \/ (forall i p q, side_of ring i p q -> tri_area o p q <= 0)).
(** An affine map of the plane *)
Definition affine (a b c d : R) (t : R * R) (p : R * R) : R * R := (a * fst p + b * snd p + fst t, c * fst p + d * snd p + snd t).
(** An outline whose pieces all have area. *)
Definition has_area (parts : list (list (R * R))) : Prop :=
  parts <> [] /\ forall ring, In ring parts -> exists o area, over_sides ring (tri_area o) area /\ area <> 0.
(** The same ring, drawn from another corner or the other way round. *)
Definition redrawn (r r' : list (R * R)) : Prop := exists k, (k <= length r)%nat /\ (r' = skipn k r ++ firstn k r \/ r' = rev (skipn k r ++ firstn k r)).
