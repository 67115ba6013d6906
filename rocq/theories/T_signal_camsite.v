(** Property theorems. The cloud advection filter from site positions (C90).
    Proofs are in the X_ file of the same name. *)
From Coq Require Import String.
From Verif Require Import Prelude PreludeFacts RealBase Fl RealStat Dft Phase M_spatial M_cmv M_signal_corr M_signal_tf M_signal_plant Spec_spatial Spec_welch Spec_plant P_list P_plane P_dft P_welch P_plant P_cam X_signal_plant X_signal_cam.
From Coquelicot Require Import Complex.
From Coq Require Import Lra Psatz Permutation.
Local Open Scope R_scope.
From Verif Require Import X_signal_camsite.

(** C90. For at least one site the filter is that of the one-dimensional plant whose sites stand at their signed distances from the
   reference along the cloud direction. *)
Theorem C90_camfilter_plane :
  forall proj pts v d ref dx rc width shape xmax, d <> (0, 0) -> pts <> [] ->
  get_camfilter proj (EastNorth pts) v d (EastNorth ref) dx rc width shape xmax =
  rbind (get_1d_plant (map (fun p => Some (inner (sub2 p ref) d / len d)) pts) rc width shape dx xmax)
        (fun r => plant1d_to_camfilter (fst r) (snd r) v).
Proof. exact (@camfilter_plane). Qed.
Print Assumptions C90_camfilter_plane.

(** C90. Latitude and longitude: every site, and the reference, is first converted in its own UTM zone; neither kind of
   coordinates is a KeyError, and a plant without sites a ValueError. *)
Theorem C90_camfilter_geo :
  forall proj pts v d ref dx rc width shape xmax,
  let utm p := fst (latlon2utm1 proj None (fst p) (snd p)) in
  get_camfilter proj (LatLon pts) v d (LatLon ref) dx rc width shape xmax =
    get_camfilter proj (EastNorth (map utm pts)) v d (EastNorth (utm ref)) dx rc width shape xmax /\
  get_camfilter proj (LatLon pts) v d (EastNorth ref) dx rc width shape xmax =
    get_camfilter proj (EastNorth (map utm pts)) v d (EastNorth ref) dx rc width shape xmax /\
  get_camfilter proj (EastNorth pts) v d (LatLon ref) dx rc width shape xmax =
    get_camfilter proj (EastNorth pts) v d (EastNorth (utm ref)) dx rc width shape xmax /\
  (forall c, get_camfilter proj NoCoords v d c dx rc width shape xmax = Err KeyError) /\
  (forall c, c <> LatLon [] -> get_camfilter proj c v d NoCoords dx rc width shape xmax = Err KeyError) /\
  (forall c, get_camfilter proj (LatLon []) v d c dx rc width shape xmax = Err ValueError) /\
  (forall c, c <> NoCoords -> get_camfilter proj (EastNorth []) v d c dx rc width shape xmax = Err ValueError).
Proof. exact (@camfilter_geo). Qed.
Print Assumptions C90_camfilter_geo.

(** C90. Only the direction of the cloud vector, the offsets from the reference and the components along the direction matter. *)
Theorem C90_camfilter_invariance :
  forall proj pts v d ref dx rc width shape xmax, d <> (0, 0) ->
  (forall k, 0 < k -> get_camfilter proj (EastNorth pts) v (scale2 k d) (EastNorth ref) dx rc width shape xmax =
                      get_camfilter proj (EastNorth pts) v d (EastNorth ref) dx rc width shape xmax) /\
  (forall t, get_camfilter proj (EastNorth (map (add2 t) pts)) v d (EastNorth (add2 t ref)) dx rc width shape xmax =
             get_camfilter proj (EastNorth pts) v d (EastNorth ref) dx rc width shape xmax) /\
  (forall pts', Forall2 (fun p p' => inner (sub2 p' p) d = 0) pts pts' ->
             get_camfilter proj (EastNorth pts') v d (EastNorth ref) dx rc width shape xmax =
             get_camfilter proj (EastNorth pts) v d (EastNorth ref) dx rc width shape xmax).
Proof. exact (@camfilter_invariance). Qed.
Print Assumptions C90_camfilter_invariance.

(** C90. For square sites their order and multiplicity do not matter. *)
Theorem C90_camfilter_sites :
  forall proj pts pts' v d ref dx rc width shape xmax, d <> (0, 0) -> lower shape = "square"%string ->
  (forall p, In p pts <-> In p pts') ->
  get_camfilter proj (EastNorth pts) v d (EastNorth ref) dx rc width shape xmax =
  get_camfilter proj (EastNorth pts') v d (EastNorth ref) dx rc width shape xmax.
Proof. exact (@camfilter_sites). Qed.
Print Assumptions C90_camfilter_sites.

(** C90. A zero cloud direction gives no information: every value of the filter is missing. *)
Theorem C90_camfilter_no_direction :
  forall proj pts v ref dx rc width shape xmax rows f z, pts <> [] ->
  get_camfilter proj (EastNorth pts) v (0, 0) (EastNorth ref) dx rc width shape xmax = Ok rows -> In (f, z) rows -> z = None.
Proof. exact (@camfilter_no_direction). Qed.
Print Assumptions C90_camfilter_no_direction.

(** C90. End to end: one site standing on a grid point at signed distance t along the direction, on a grid of even extent,
   is the pure delay t/speed at every frequency. *)
Theorem C90_camfilter_delay :
  forall proj p v d ref dx shape (m n i : nat), d <> (0, 0) -> v <> 0 -> 0 < dx -> lower shape = "square"%string ->
  (2 <= n)%nat -> INR n * dx = 2 * INR m -> (i < n)%nat ->
  let t := inner (sub2 p ref) d / len d in t = INR i * dx - INR m ->
  get_camfilter proj (EastNorth [p]) v d (EastNorth ref) dx 0 None shape (2 * INR m) =
  Ok (map (fun k => let f := bin_frequency n k (dx / Rabs v) in (f, Some (phasor (- (2 * PI * f * (t / v)))))) (seq 0 n)).
Proof. exact (@camfilter_delay). Qed.
Print Assumptions C90_camfilter_delay.

(** C90. A site 1 east and 7 north of the reference under an eastward wind of speed 5, grid -2..1: delay 1/5. *)
Example C90_camfilter_example :
  forall proj, get_camfilter proj (EastNorth [(11, 27)]) 5 (2, 0) (EastNorth (10, 20)) 1 0 None "square" 4 =
  Ok (map (fun k => let f := bin_frequency 4 k (1 / 5) in (f, Some (phasor (- (2 * PI * f * (1 / 5)))))) (seq 0 4)).
Proof. exact (@camfilter_example). Qed.

