(** Property theorems. C121: from digitised outlines to the table of combiner positions
    Proofs are in the X_ file of the same name. *)
From Coq Require Import String Lra Psatz Permutation.
From Verif Require Import Prelude PreludeFacts RealBase P_list Spec_spatial Spec_digitize M_digitize P_digitize.
Local Open Scope R_scope.
From Verif Require Import X_digitize.

(** C121. When every digitised asset is a combiner, the table has one row per asset, in order: its own name with the centroid of its own outline, projected about the least longitude and least latitude that any corner has. *)
Theorem C121_centroid_rows :
  forall thin proj data o,
  (forall a ring p, In a data -> In ring (a_parts a) -> In p ring -> fst o <= fst p /\ snd o <= snd p) ->
  (exists a ring p, In a data /\ In ring (a_parts a) /\ In p ring /\ fst p = fst o) ->
  (exists a ring p, In a data /\ In ring (a_parts a) /\ In p ring /\ snd p = snd o) ->
  (forall a, In a data -> a_type a = "combiner"%string) ->
  exists rows, digitize thin proj data = Ok rows /\ length rows = length data /\
    forall i a, nth_error data i = Some a -> nth_error rows i = Some (a_name a, centroid thin (map (map (proj o)) (a_parts a))).
Proof. exact (@centroid_rows). Qed.
Print Assumptions C121_centroid_rows.

(** C121. If any other asset was digitised too, there is no table: ValueError. *)
Theorem C121_others_refused :
  forall thin proj data a, In a data -> a_type a <> "combiner"%string -> digitize thin proj data = Err ValueError.
Proof. exact (@others_refused). Qed.
Print Assumptions C121_others_refused.

(** C121. With a projection that looks at longitudes only as differences from the origin's, moving the plant east or west leaves the table as it is. *)
Theorem C121_longitude_hidden :
  forall thin proj data s,
  (forall o p, proj (fst o + s, snd o) (fst p + s, snd p) = proj o p) ->
  (exists a ring p, In a data /\ In ring (a_parts a) /\ In p ring) ->
  digitize thin proj (map (fun a => mkAsset (a_name a) (a_type a) (map (map (fun p => (fst p + s, snd p))) (a_parts a))) data) = digitize thin proj data.
Proof. exact (@longitude_hidden). Qed.
Print Assumptions C121_longitude_hidden.

(** C121. The centroid of a one-piece outline is what its triangles from any point o make, added with their signs, whenever the outline has area. *)
Theorem C121_centroid_triangles :
  forall thin o ring area, over_sides ring (tri_area o) area -> area <> 0 ->
  made_of_triangles o ring area (centroid thin [ring]).
Proof. exact (@centroid_triangles). Qed.
Print Assumptions C121_centroid_triangles.

(** C121. The centroid of an outline in several pieces is the mean of the pieces' centroids weighted with their areas, whichever way round each piece was drawn. *)
Theorem C121_centroid_pieces :
  forall thin o (pieces : list (list (R * R) * R * (R * R))),
  (forall ring area c, In (ring, area, c) pieces -> made_of_triangles o ring area c) ->
  let total := Rsum (map (fun x => Rabs (snd (fst x))) pieces) in
  total <> 0 ->
  total * fst (centroid thin (map (fun x => fst (fst x)) pieces)) = Rsum (map (fun x => Rabs (snd (fst x)) * fst (snd x)) pieces) /\
  total * snd (centroid thin (map (fun x => fst (fst x)) pieces)) = Rsum (map (fun x => Rabs (snd (fst x)) * snd (snd x)) pieces).
Proof. exact (@centroid_pieces). Qed.
Print Assumptions C121_centroid_pieces.

(** C121. An outline without area gets whatever the geometry library falls back to. *)
Theorem C121_centroid_thin :
  forall thin o parts, (forall ring, In ring parts -> over_sides ring (tri_area o) 0) -> centroid thin parts = thin parts.
Proof. exact (@centroid_thin). Qed.
Print Assumptions C121_centroid_thin.

(** C121. Moving, turning, mirroring or stretching an outline does the same to its centroid. *)
Theorem C121_centroid_affine :
  forall thin a b c d t parts, a * d - b * c <> 0 -> has_area parts ->
  centroid thin (map (map (affine a b c d t)) parts) = affine a b c d t (centroid thin parts).
Proof. exact (@centroid_affine). Qed.
Print Assumptions C121_centroid_affine.

(** C121. The centroid does not depend on the corner at which each piece was begun, on the direction in which it was drawn, or on the order of the pieces. *)
Theorem C121_centroid_redrawn :
  forall thin parts mid parts', has_area parts -> Forall2 redrawn parts mid -> Permutation mid parts' ->
  centroid thin parts' = centroid thin parts.
Proof. exact (@centroid_redrawn). Qed.
Print Assumptions C121_centroid_redrawn.

(** C121. When every piece of an outline can be seen as a whole from one of its corners, as every convex piece can, the centroid lies on the side of any straight line on which all the corners lie: it is in the convex hull of the corners. *)
Theorem C121_centroid_inside :
  forall thin parts n k, has_area parts ->
  (forall ring, In ring parts -> exists o, seen_from o ring) ->
  (forall ring p, In ring parts -> In p ring -> inner n p <= k) -> inner n (centroid thin parts) <= k.
Proof. exact (@centroid_inside). Qed.
Print Assumptions C121_centroid_inside.

(** C121. The centroid of a rectangle, or of any parallelogram, is its middle; that of a triangle is the mean of its corners. *)
Theorem C121_centroid_simple :
  forall thin p u v, cross u v <> 0 ->
  centroid thin [[p; add2 p u; add2 (add2 p u) v; add2 p v]] = add2 p (scale2 (/ 2) (add2 u v)) /\
  centroid thin [[p; add2 p u; add2 p v]] = add2 p (scale2 (/ 3) (add2 u v)).
Proof. exact (@centroid_simple). Qed.
Print Assumptions C121_centroid_simple.

(** C121. Two rectangular combiners, about the corner (7, 50). *)
Example C121_plant_example :
  forall thin, digitize thin flat plant = Ok [("CMB-001-01"%string, (100, 55)); ("CMB-001-02"%string, (350, 440))].
Proof. exact (@plant_example). Qed.

(** C121. The notebook suggests to digitise inverters too and to filter them out: with one inverter there is no table. *)
Example C121_inverter_example :
  forall thin, digitize thin flat plant_inv = Err ValueError.
Proof. exact (@inverter_example). Qed.

(** C121. An L-shaped outline meets what centroid_inside asks: it can be seen from its inner corner. *)
Example C121_ell_example :
  exists ring, seen_from (1, 1) ring /\ has_area [ring] /\ length ring = 6%nat /\ forall thin, centroid thin [ring] = (5 / 6, 5 / 6).
Proof. exact (@ell_example). Qed.

