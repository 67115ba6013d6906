(** Model of demos/plant_digitization_example.ipynb: from digitised outlines to the table of combiner positions. No proofs in this file. *)
From Coq Require Import String.
From Verif Require Import Prelude RealBase.
Local Open Scope R_scope.

(** One row of the GeoJSON file: asset_name, asset_type and the outline, a list of polygons without holes, each given by its corners
    (x, y) in order, the first one not repeated. Simplification: no outline crosses itself, and every row has an outline. *)
Record asset : Type := mkAsset { a_name : string; a_type : string; a_parts : list (list (R * R)) }.

(** plant_digitization_example.ipynb:279-280 get_coordinates().x.min() and .y.min() over all rows. *)
Definition corners (data : list asset) : list (R * R) := concat (map (fun a => concat (a_parts a)) data).
Definition origin (data : list asset) : R * R := (Rmin_of (map fst (corners data)), Rmin_of (map snd (corners data))).

(** The sides of a closed ring: each corner with the next one, the last with the first. *)
Definition next {A} (l : list A) : list A := match l with [] => [] | a :: r => r ++ [a] end.
Definition sides {A} (ring : list A) : list (A * A) := combine ring (next ring).
(** The sums behind shapely's centroid of one ring: twice the area and six times the first moments, signs chosen so that the area counts
    as positive (GEOS asks for the orientation of the ring). *)
Definition side_cross (s : (R * R) * (R * R)) : R := fst (fst s) * snd (snd s) - fst (snd s) * snd (fst s).
Definition raw_sums (ring : list (R * R)) : R * R * R :=
  (Rsum (map side_cross (sides ring)),
   Rsum (map (fun s => (fst (fst s) + fst (snd s)) * side_cross s) (sides ring)),
   Rsum (map (fun s => (snd (fst s) + snd (snd s)) * side_cross s) (sides ring))).
Definition ring_sums (ring : list (R * R)) : R * R * R :=
  let '(a, mx, my) := raw_sums ring in if Rltb a 0 then (- a, - mx, - my) else (a, mx, my).
Definition outline_sums (parts : list (list (R * R))) : R * R * R :=
  (Rsum (map (fun r => fst (fst (ring_sums r))) parts), Rsum (map (fun r => snd (fst (ring_sums r))) parts), Rsum (map (fun r => snd (ring_sums r)) parts)).

Section Digitize.
  (** What GEOS takes for an outline without area (it falls back to lengths, then to points). *)
  Variable thin : list (list (R * R)) -> R * R.
  (** The azimuthal equidistant projection about an origin (proj=aeqd), both as (longitude or east, latitude or north). *)
  Variable proj : R * R -> R * R -> R * R.

  (** .centroid.get_coordinates() of one row *)
  Definition centroid (parts : list (list (R * R))) : R * R :=
    let '(a, mx, my) := outline_sums parts in
    if Reqb a 0 then thin parts else (mx / (3 * a), my / (3 * a)).

  (** plant_digitization_example.ipynb:301-306 data.to_crs(custom_crs): every corner projected. *)
  Definition to_crs (data : list asset) : list asset :=
    let o := origin data in map (fun a => mkAsset (a_name a) (a_type a) (map (map (proj o)) (a_parts a))) data.

  (** plant_digitization_example.ipynb:483-487. The values are those of the combiners, but the index is asset_name of all rows: pandas
      raises ValueError unless there are as many. *)
  Definition centroid_table (data_utm : list asset) : result (list (string * (R * R))) :=
    let data_boundaries := filter (fun a => String.eqb (a_type a) "combiner") data_utm in
    let values := map (fun a => centroid (a_parts a)) data_boundaries in
    let index := map a_name data_utm in
    if Nat.eqb (length values) (length index) then Ok (combine index values) else Err ValueError.

  (** The whole notebook. *)
  Definition digitize (data : list asset) : result (list (string * (R * R))) := centroid_table (to_crs data).
End Digitize.
