(** src/solarspatialtools/spatial.py in binary64: magnitude, unit and spacetime_distances, every arithmetic operation and
    np.sqrt rounded to nearest even (Flocq). Overflow is not represented: values above 2^1024 are not infinity here.
    No proofs in this file. *)
From Flocq Require Import Core.
From Verif Require Import Prelude RealBase M_spatial M_spatial_float.
Local Open Scope R_scope.

(** spatial.py:319-336 magnitude of an (x, y) pair of float64. numpy computes [v**2] as the product [v*v]. *)
Definition magnitude_b64 (v : R * R) : R :=
  b64 (sqrt (b64 (b64 (fst v * fst v) + b64 (snd v * snd v)))).

(** spatial.py:301-316 unit of an (x, y) array of float64 that is not the zero vector. *)
Definition unit_b64 (v : R * R) : R * R :=
  let m := magnitude_b64 v in (b64 (fst v / m), b64 (snd v / m)).

(** spatial.py:592-594 the drift along one axis; [g] is the float64 that np.cos or np.sin returned, [dur] the elapsed
    seconds as float64. The products are taken left to right. *)
Definition drift_b64 (cs g : R) (dur : list R) : list R := map (fun d => b64 (b64 (cs * d) * g)) dur.

(** spatial.py:596-606 one coordinate of all the sites at all the times, flattened site by site. *)
Definition flat_b64 (x drift : list R) : list R :=
  let X := map (fun xi => map (fun d => b64 (xi - d)) drift) x in
  let X := transpose (length drift) X in
  ravelF (length x) X.

(** spatial.py:555-613 spacetime_distances on float64 coordinates. Simplifications: [dur], the seconds since the first time
    as float64, and [c], [s], the values of np.cos(cd) and np.sin(cd), are arguments; [dur] is not empty; x and y of
    different lengths are a ValueError, as in M_spatial.v. *)
Definition spacetime_distances_b64 (x y dur : list R) (cs c s : R) : result (list (list R)) :=
  if negb (Nat.eqb (length x) (length y)) then Err ValueError else
  let xf := flat_b64 x (drift_b64 cs c dur) in
  let yf := flat_b64 y (drift_b64 cs s dur) in
  let dx := map (fun a => map (fun b => b64 (a - b)) xf) xf in
  let dy := map (fun a => map (fun b => b64 (a - b)) yf) yf in
  Ok (map2 (map2 (fun a b => magnitude_b64 (a, b))) dx dy).
