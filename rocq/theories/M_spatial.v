(** Model of src/solarspatialtools/spatial.py. No proofs in this file.
    Finite floats are reals; [fl] is used where a division can meet zero. *)
From Coq Require Import String.
From Verif Require Import Prelude RealBase Fl.
Local Open Scope R_scope.

(** Python int(x) on a finite float: truncation toward zero. *)
Definition py_int (x : R) : Z := if Rleb 0 x then Int_part x else (- Int_part (- x))%Z.

(** spatial.py:7-23 _calc_zone. Simplification: lon finite (int(nan) raises). *)
Definition calc_zone (lon : R) : Z :=
  let z := py_int ((lon - (-180)) / 6 + 1) in
  Z.min z 60.

(** A coordinate argument: a number, a list/array, or a pandas Series with its index. *)
Inductive coord (K : Type) : Type :=
| CScalar (x : R)
| CArray (l : list R)
| CSeries (idx : list K) (l : list R).
Arguments CScalar {K}. Arguments CArray {K}. Arguments CSeries {K}.

(** Results of the same three shapes. *)
Inductive shaped (K A : Type) : Type :=
| SScalar (a : A)
| SArray (l : list A)
| SFrame (idx : list K) (l : list A).
Arguments SScalar {K A}. Arguments SArray {K A}. Arguments SFrame {K A}.

Definition coord_len {K} (c : coord K) : option nat :=
  match c with CScalar _ => None | CArray l => Some (length l) | CSeries _ l => Some (length l) end.
Definition coord_vals {K} (c : coord K) : list R :=
  match c with CScalar x => [x] | CArray l => l | CSeries _ l => l end.

Section Projection.
  Context {K : Type}.
  (** pyproj.Proj(proj='utm', zone, south)(lon, lat) and its inverse. External. *)
  Variable proj_fwd : Z -> bool -> R -> R -> R * R.   (* zone south lon lat -> (E, N) *)
  Variable proj_inv : Z -> bool -> R -> R -> R * R.   (* zone south E N -> (lon, lat) *)
  (** pyproj.Proj(proj='tmerc', lat_0, lon_0)(lon, lat). External. *)
  Variable proj_tmerc : R -> R -> R -> R -> R * R.    (* lat_0 lon_0 lon lat -> (E, N) *)

  (** spatial.py:66-75, the scalar branch of latlon2utm. *)
  Definition latlon2utm1 (zone : option Z) (lat lon : R) : R * R * Z :=
    let zone := match zone with None => calc_zone lon | Some z => z end in
    let south := Rltb lat 0 in
    let '(E, N) := proj_fwd zone south lon lat in
    (E, N, zone).

  (** spatial.py:26-75 latlon2utm. For an empty Series np.array([]) has no three columns to name: ValueError.
      Simplification: a scalar latitude with a sequence longitude is a TypeError whatever the zone. *)
  Definition latlon2utm (lat lon : coord K) (zone : option Z) : result (shaped K (R * R * Z)) :=
    match lat with
    | CScalar la =>
        match lon with
        | CScalar lo => Ok (SScalar (latlon2utm1 zone la lo))
        | _ => Err TypeError
        end
    | _ =>
        match coord_len lat, coord_len lon with
        | Some n, Some m =>
            if negb (Nat.eqb n m) then Err ValueError
            else
              let data := map (fun p => latlon2utm1 zone (fst p) (snd p))
                              (combine (coord_vals lat) (coord_vals lon)) in
              match lat, data with
              | CSeries _ _, [] => Err ValueError
              | CSeries idx _, _ => Ok (SFrame idx data)
              | _, _ => Ok (SArray data)
              end
        | _, _ => Err TypeError   (* len() of a scalar lon *)
        end
    end.

  (** spatial.py:117-121, the scalar branch of utm2latlon: (lat, lon). *)
  Definition utm2latlon1 (zone : Z) (south : bool) (e n : R) : R * R :=
    let '(lon, lat) := proj_inv zone south e n in (lat, lon).

  (** spatial.py:78-121 utm2latlon. Simplification: a scalar easting with a sequence of northings is a TypeError (pyproj
      raises its own error). *)
  Definition utm2latlon (e n : coord K) (zone : Z) (south : bool) : result (shaped K (R * R)) :=
    match e with
    | CScalar ee =>
        match n with
        | CScalar nn => Ok (SScalar (utm2latlon1 zone south ee nn))
        | _ => Err TypeError
        end
    | _ =>
        match coord_len e, coord_len n with
        | Some a, Some b =>
            if negb (Nat.eqb a b) then Err ValueError
            else
              let data := map (fun p => utm2latlon1 zone south (fst p) (snd p))
                              (combine (coord_vals e) (coord_vals n)) in
              match e with
              | CSeries idx _ => Ok (SFrame idx data)
              | _ => Ok (SArray data)
              end
        | _, _ => Err TypeError
        end
    end.

  (** spatial.py:124-177 latlon2lcs. Simplification: the origin is a single point (as
      documented: numeric; see M_lcs.v for sequences of origins); an empty target array is a ValueError (unpacking a 1-d empty
      array into three names). The result lists (E, N) per target in the target's shape. *)
  Definition latlon2lcs (lat lon : coord K) (origin_lat origin_lon : R) (zone : option Z)
    : result (shaped K (R * R)) :=
    let '(e_i, n_o, _) := latlon2utm1 zone origin_lat origin_lon in
    let! utm_t := latlon2utm lat lon zone in
    let shift := fun r : R * R * Z => let '(e_t, n_t, _) := r in (e_t - e_i, n_t - n_o) in
    match utm_t with
    | SScalar r => Ok (SScalar (shift r))
    | SArray [] => Err ValueError
    | SArray l => Ok (SArray (map shift l))
    | SFrame idx l => Ok (SFrame idx (map shift l))
    end.

  (** What [lat, lon = utm2latlon(...)] binds. For a sequence the right-hand side is a list of
      (lat, lon) pairs, for a Series a DataFrame whose iteration yields its column names. *)
  Inductive lcs_answer : Type :=
  | LPoint (lat lon : R)
  | LTwoRows (first second : R * R)
  | LColumnNames.

  (** spatial.py:180-221 lcs2latlon, for a single origin. The origin is converted with no
      zone argument (line 213); the target is inverted in the requested zone. *)
  Definition lcs2latlon (east north : coord K) (origin_lat origin_lon : R) (zone : option Z)
    : result lcs_answer :=
    let zone := match zone with None => calc_zone origin_lon | Some z => z end in
    let south := Rltb origin_lat 0 in
    let '(e_o, n_o, _) := latlon2utm1 None origin_lat origin_lon in
    let sh := fun o (c : coord K) => match c with
                          | CScalar x => CScalar (o + x)
                          | CArray l => CArray (map (fun x => o + x) l)
                          | CSeries i l => CSeries i (map (fun x => o + x) l)
                          end in
    let! r := utm2latlon (sh e_o east) (sh n_o north) zone south in
    match r with
    | SScalar (lat, lon) => Ok (LPoint lat lon)
    | SArray [a; b] => Ok (LTwoRows a b)
    | SArray _ => Err ValueError
    | SFrame _ _ => Ok LColumnNames
    end.

  (** np.deg2rad *)
  Definition deg2rad (x : R) : R := x * PI / 180.

  (** spatial.py:259-260: WGS84 constants *)
  Definition r_earth : R := 6378137.
  Definition flattening : R := 1 / (298257223563 / 1000000000).

  (** spatial.py:262 transverse radius *)
  Definition radius_n (mu0 : R) : R :=
    r_earth / sqrt (1 - (2 * flattening - flattening ^ 2) * (sin mu0) ^ 2).
  (** spatial.py:263 meridional radius *)
  Definition radius_m (mu0 : R) : R :=
    radius_n mu0 * ((1 - (2 * flattening - flattening ^ 2)) /
                    (1 - (2 * flattening - flattening ^ 2) * (sin mu0) ^ 2)).

  (** spatial.py:224-279 lla2flat, one point; (East, North). *)
  Definition lla2flat (lat lon latref lonref : R) (method : string) : result (R * R) :=
    if String.eqb method "matlab" then
      let mu0 := deg2rad latref in
      let lam0 := deg2rad lonref in
      let dmu := deg2rad lat - mu0 in
      let dlam := deg2rad lon - lam0 in
      let dN := radius_m mu0 * dmu in
      let dE := radius_n mu0 * cos mu0 * dlam in
      Ok (dE, dN)
    else if String.eqb method "tmerc" then Ok (proj_tmerc latref lonref lon lat)
    else Err ValueError.
End Projection.

(** spatial.py:282-299 dot *)
Definition dot (a b : R * R) : R := fst a * fst b + snd a * snd b.

(** spatial.py:319-336 magnitude *)
Definition magnitude (v : R * R) : R := sqrt (fst v ^ 2 + snd v ^ 2).

(** spatial.py:302-316 unit; NaN/inf components for the zero vector. *)
Definition unit_vec (v : R * R) : fl * fl :=
  (fdiv (Fin (fst v)) (Fin (magnitude v)), fdiv (Fin (snd v)) (Fin (magnitude v))).

(** numpy.arctan2, without signed zeros. *)
Definition arctan2 (y x : R) : R :=
  if Rltb 0 x then atan (y / x)
  else if Rltb x 0 then (if Rleb 0 y then atan (y / x) + PI else atan (y / x) - PI)
  else if Rltb 0 y then PI / 2 else if Rltb y 0 then - PI / 2 else 0.

(** spatial.py:339-358 rect2pol *)
Definition rect2pol (x y : R) : R * R := (magnitude (x, y), arctan2 y x).

(** spatial.py:361-381 pol2rect *)
Definition pol2rect (r theta : R) : R * R := (r * cos theta, r * sin theta).

(** spatial.py:384-413 rotate_vector: matmul of the 2x2 matrix with the (xs, ys) block,
    one column per point. *)
Definition rotate_block (xs ys : list R) (theta : R) : list R * list R :=
  (map2 (fun x y => cos theta * x + - sin theta * y) xs ys,
   map2 (fun x y => sin theta * x + cos theta * y) xs ys).
Definition rotate_vector (v : R * R) (theta : R) : R * R :=
  (cos theta * fst v + - sin theta * snd v, sin theta * fst v + cos theta * snd v).

(** spatial.py:416-459 project_vectors on an array of vectors. *)
Definition project_vectors (vectors : list (R * R)) (dir : R * R) : list fl :=
  let '(ux, uy) := unit_vec dir in
  map (fun v => fadd (fmul (Fin (fst v)) ux) (fmul (Fin (snd v)) uy)) vectors.
(** spatial.py:451-453 as called with a plain list: np.array([]) has no second axis to index. *)
Definition project_vectors_list (vectors : list (R * R)) (dir : R * R) : result (list fl) :=
  match vectors with [] => Err IndexError | _ => Ok (project_vectors vectors dir) end.
(** spatial.py:455-457: pandas input, the result carries the input's index. *)
Definition project_vectors_frame {K} (idx : list K) (vectors : list (R * R)) (dir : R * R) : list (K * fl) :=
  combine idx (project_vectors vectors dir).

(** spatial.py:462-504 compute_vectors; extra entries of [refpt] are cut by [0:2]. numpy broadcasting: a single entry is
    subtracted from both coordinates, and no entry at all is a ValueError at the first point. *)
Definition compute_vectors (x y : list R) (refpt : list R) : result (list (R * R)) :=
  match refpt with
  | rx :: ry :: _ => Ok (map (fun p => (fst p - rx, snd p - ry)) (combine x y))
  | [r] => Ok (map (fun p => (fst p - r, snd p - r)) (combine x y))
  | [] => match combine x y with [] => Ok [] | _ => Err ValueError end
  end.

(** spatial.py:500-502 as called with pandas objects: the vectors are labelled with the index of [x]. No vector at all has
    no two columns to name, and a [y] shorter than [x] leaves labels over: ValueError both. *)
Definition compute_vectors_frame {K} (idx : list K) (x y : list R) (refpt : list R) : result (list (K * (R * R))) :=
  let! vecs := compute_vectors x y refpt in
  match vecs with
  | [] => Err ValueError
  | _ => if Nat.eqb (length vecs) (length idx) then Ok (combine idx vecs) else Err ValueError
  end.

(** spatial.py:507-552 compute_intersection, one row *)
Definition intersection1 (A B : R * R) : fl * fl :=
  let '(Ax, Ay) := A in
  let '(Bx, By) := B in
  let Amag2 := Ax ^ 2 + Ay ^ 2 in
  let Bmag2 := Bx ^ 2 + By ^ 2 in
  (fdiv (Fin (Bmag2 * Ay - By * Amag2)) (Fin (Bx * Ay - Ax * By)),
   fdiv (Fin (Amag2 * Bx - Ax * Bmag2)) (Fin (Bx * Ay - Ax * By))).
(** spatial.py:507-552 compute_intersection; of arrays of different length a single row is paired with every row of the
    other (numpy broadcasting), anything else is a ValueError. *)
Definition compute_intersection (A B : list (R * R)) : result (list (fl * fl)) :=
  if Nat.eqb (length A) (length B) then Ok (map2 intersection1 A B)
  else match A, B with
       | [a], _ => Ok (map (intersection1 a) B)
       | _, [b] => Ok (map (fun a => intersection1 a b) A)
       | _, _ => Err ValueError
       end.

(** numpy 2-d arrays as lists of rows. *)
Definition transpose (ncols : nat) (m : list (list R)) : list (list R) :=
  map (fun j => map (fun row => nth j row 0) m) (seq 0 ncols).
(** a.reshape(-1, order='F'): column after column. *)
Definition ravelF (ncols : nat) (m : list (list R)) : list R := concat (transpose ncols m).

(** spatial.py:555-613 spacetime_distances. [times] are seconds on an absolute axis.
    Simplification: x and y of different lengths are a ValueError (numpy's broadcasting error); numpy would let a single
    site coordinate at a single time be paired with several. *)
Definition spacetime_distances (x y : list R) (times : list R) (cs cd : R) : result (list (list R)) :=
  match times with
  | [] => Err IndexError
  | t0 :: _ =>
      if negb (Nat.eqb (length x) (length y)) then Err ValueError else
      let dur := map (fun t => t - t0) times in
      let x_drift := map (fun d => cs * d * cos cd) dur in
      let y_drift := map (fun d => cs * d * sin cd) dur in
      let X := map (fun xi => map (fun d => xi - d) x_drift) x in
      let Y := map (fun yi => map (fun d => yi - d) y_drift) y in
      let X := transpose (length times) X in
      let Y := transpose (length times) Y in
      let xf := ravelF (length x) X in
      let yf := ravelF (length y) Y in
      let dx := map (fun a => map (fun b => a - b) xf) xf in
      let dy := map (fun a => map (fun b => a - b) yf) yf in
      Ok (map2 (map2 (fun a b => sqrt (a ^ 2 + b ^ 2))) dx dy)
  end.
