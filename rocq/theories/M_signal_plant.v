(** Model of src/solarspatialtools/signalproc.py, last part: get_1d_plant, plant1d_to_camfilter,
    apply_filter, get_camfilter, get_marcosfilter, cleanfreq.
    Exact real arithmetic; [None] in a plant, center or filter entry is NaN. *)
From Coq Require Import String.
From Verif Require Import Prelude RealBase Fl RealStat Dft Phase M_spatial M_cmv M_signal_corr M_signal_tf.
From Coquelicot Require Import Complex.
Local Open Scope R_scope.

(** np.arange(a, b, d): ceil((b - a) / d) points a, a + d, ... *)
Definition ceil_nat (x : R) : nat := Z.to_nat (- Int_part (- x)).
Definition arange (a b d : R) : result (list R) :=
  if Reqb d 0 then Err ZeroDivisionError
  else Ok (map (fun i => a + INR i * d) (seq 0 (ceil_nat ((b - a) / d)))).
(** x // 2 *)
Definition half_floor (x : R) : R := IZR (Int_part (x / 2)).

(** signalproc.py:944-945, 949-950: within half a width of the center, left-closed. *)
Definition in_window (w c x : R) : bool := (Rleb (c - w / 2) x && Rltb x (c + w / 2))%bool.
(** signalproc.py:943-946 one square; a NaN center matches nothing. *)
Definition place_square (w : R) (xs : list R) (plant : list (option R)) (c : option R) : list (option R) :=
  match c with
  | None => plant
  | Some c => map2 (fun x p => if in_window w c x then Some 1 else p) xs plant
  end.
(** signalproc.py:948-951 one triangle (a ramp that overwrites what is there). *)
Definition place_triangle (w : R) (xs : list R) (plant : list (option R)) (c : option R) : list (option R) :=
  match c with
  | None => plant
  | Some c => map2 (fun x p => if in_window w c x then Some (x - c + w / 2) else p) xs plant
  end.
(** signalproc.py:954-955 one bump; a zero width is 0/0 at the center and exp(-inf) elsewhere. *)
Definition bump (w : R) (c : option R) (x : R) : option R :=
  match c with
  | None => None
  | Some c => if Reqb w 0 then (if Reqb x c then None else Some 0)
              else Some (exp (- (x - c) ^ 2 / (2 * (w / 2.355) ^ 2)))
  end.
Definition place_gaussian (w : R) (xs : list R) (plant : list (option R)) (c : option R) : list (option R) :=
  map2 (fun x p => match p, bump w c x with Some a, Some b => Some (a + b) | _, _ => None end) xs plant.

(** signalproc.py:883-959 get_1d_plant. Simplification: float centers (integer centers are in M_plant_int.v). *)
Definition get_1d_plant (centers : list (option R)) (ref_center : R) (width : option R) (shape : string)
    (dx xmax : R) : result (list (option R) * list R) :=
  let w := match width with None => dx | Some w => w end in
  let centers := map (option_map (fun c => c - ref_center)) centers in
  let! x_vec := arange (half_floor (- xmax)) (half_floor xmax) dx in
  let plant := map (fun _ => Some 0) x_vec in
  if String.eqb (lower shape) "square" then Ok (fold_left (place_square w x_vec) centers plant, x_vec)
  else if String.eqb (lower shape) "triangle" then Ok (fold_left (place_triangle w x_vec) centers plant, x_vec)
  else if String.eqb (lower shape) "gaussian" then Ok (fold_left (place_gaussian w x_vec) centers plant, x_vec)
  else Err ValueError.

(** np.fft.fftfreq(n, d): 0, 1, .., (n-1)//2, -(n//2), .., -1 over n d. *)
Definition signed_bin (n k : nat) : Z := if Nat.ltb k ((n - 1) / 2 + 1) then Z.of_nat k else (Z.of_nat k - Z.of_nat n)%Z.
Definition fftfreq (n : nat) (d : R) : list R := map (fun k => IZR (signed_bin n k) / (INR n * d)) (seq 0 n).

(** signalproc.py:962-1003 plant1d_to_camfilter: rows (frequency, value). A NaN in the plant or a zero total
    makes every value NaN (mixed-sign plants of total 0 would give a mix of NaN and infinities). Speed 0
    makes every frequency 0 and every value NaN. An empty plant has no FFT (ValueError). Two equal leading
    coordinates are outside the model (OtherError). *)
Definition plant1d_to_camfilter (plant : list (option R)) (x_plant : list R) (cloud_speed : R)
  : result (list (R * option C)) :=
  match x_plant with
  | x0 :: x1 :: _ =>
      let dx := x1 - x0 in
      let n := length plant in
      if Nat.eqb n 0 then Err ValueError
      else if Reqb dx 0 then Err OtherError
      else if Reqb cloud_speed 0 then Ok (map (fun _ => (0, None)) plant)
      else
        let spatialdt := dx / Rabs cloud_speed in
        let camfreq := fftfreq n spatialdt in
        let p := present plant in
        let total := Rsum p in
        if (negb (Nat.eqb (length p) n) || Reqb total 0)%bool then Ok (map (fun f => (f, None)) camfreq)
        else
          let camfilt := fft (map (fun v => RtoC (v / total)) p) in
          let t_delay := Rmin_of x_plant / cloud_speed in
          let shifted := if Rltb 0 cloud_speed
            then map2 (fun z f => Cmult z (cis (f * (2 * PI) * t_delay))) camfilt camfreq
            else map2 (fun z f => Cconj (Cmult z (cis (f * (2 * PI) * - t_delay)))) camfilt camfreq in
          Ok (combine camfreq (map Some shifted))
  | _ => Err IndexError
  end.

(** signalproc.py:1006-1044 apply_filter on a Series with step [dt] in seconds. Simplification: the filter is
    a Series with at least two rows and finite values. *)
Definition apply_filter (dt : R) (sig : list R) (filt : list (R * C)) : result (list R) :=
  let n := length sig in
  if Nat.ltb n 2 then Err IndexError
  else if Reqb dt 0 then Err ZeroDivisionError
  else
    let input_fft := map (fun z => Cdiv (Cmult z (RtoC 2)) (RtoC (INR n))) (fft (map RtoC sig)) in
    let f_vec := fftfreq n dt in
    match filt with
    | [] => Err ValueError
    | _ =>
      if Rltb (Rmax_of (map fst filt)) (Rmax_of f_vec) then Err ValueError
      else
        let! interp_filt := interp_tf f_vec filt in
        let filtered_fft := map2 (fun z h => Cmult z (snd h)) input_fft interp_filt in
        Ok (map fst (ifft (map (fun z => Cdiv (Cmult z (RtoC (INR n))) (RtoC 2)) filtered_fft)))
    end.

(** Site coordinates as get_camfilter finds them: columns lat and lon, columns E and N, or neither. *)
Inductive coords (A : Type) : Type := LatLon (a : A) | EastNorth (a : A) | NoCoords.
Arguments LatLon {A}. Arguments EastNorth {A}. Arguments NoCoords {A}.

Section Cam.
  (** pyproj's UTM projection, as in M_spatial *)
  Variable proj_fwd : Z -> bool -> R -> R -> R * R.

  (** signalproc.py:1088-1096: every point is converted in its own zone; an empty table of latitudes is a ValueError
      (see latlon2utm in M_spatial.v). *)
  Definition to_utm (p : R * R) : R * R := fst (latlon2utm1 proj_fwd None (fst p) (snd p)).
  Definition utm_all (c : coords (list (R * R))) : result (list (R * R)) :=
    match c with LatLon [] => Err ValueError | LatLon l => Ok (map to_utm l) | EastNorth l => Ok l | NoCoords => Err KeyError end.
  Definition utm_one (c : coords (R * R)) : result (R * R) :=
    match c with LatLon p => Ok (to_utm p) | EastNorth p => Ok p | NoCoords => Err KeyError end.

  (** signalproc.py:1047-1104 get_camfilter; the reference is a single row.
      The labels of the sites play no role and are their positions here. *)
  Definition get_camfilter (positions : coords (list (R * R))) (cloud_speed : R) (cloud_dir : R * R)
      (ref_position : coords (R * R)) (dx : R) (ref_center : R) (width : option R) (shape : string) (xmax : R)
    : result (list (R * option C)) :=
    let! pos := utm_all positions in
    let! ref := utm_one ref_position in
    let! vecs := compute_vectors_frame (seq 0 (length pos)) (map fst pos) (map snd pos) [fst ref; snd ref] in
    let dists := map (fun d => match d with Fin r => Some r | _ => None end) (project_vectors (map snd vecs) cloud_dir) in
    let! (plant, x_plant) := get_1d_plant dists ref_center width shape dx xmax in
    plant1d_to_camfilter plant x_plant cloud_speed.
End Cam.

(** signalproc.py:1107-1131 get_marcosfilter. Exact values; M_marcos32.v has the storage as complex64.
    fc is infinite for s = 0 and NaN for s < 0. *)
Definition marcos_freqs : list R := map (fun i => INR i * (1 / 2) / 99) (seq 0 100).
Definition get_marcosfilter (s : R) (freq : option (list R)) : list (R * option C) :=
  let freq := match freq with None => marcos_freqs | Some f => f end in
  let k := 1 in
  map (fun f =>
         (f, if Rltb s 0 then None
             else if Reqb s 0 then Some (RtoC k)
             else let fc := 2 / 100 / sqrt s in
                  Some (Cdiv (RtoC k) (Cplus (Cdiv (Cmult Ci (RtoC f)) (RtoC fc)) (RtoC 1))))) freq.

(** signalproc.py:1134-1150 cleanfreq: what it returns (None) and the object afterwards, as rows
    (label, value). *)
Definition cleanfreq {L V} (sig : list (option L * V)) : result (unit * list (option L * V)) :=
  let idx := map fst sig in
  let h := (length sig / 2)%nat in
  if Nat.ltb h (length idx) then Ok (tt, combine (list_set idx h None) (map snd sig)) else Err IndexError.
