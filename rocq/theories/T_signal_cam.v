(** Property theorems. The cloud advection filter of a one-dimensional plant (C56, C57).
    Proofs are in the X_ file of the same name. *)
From Coq Require Import String.
From Verif Require Import Prelude PreludeFacts RealBase Fl RealStat Dft Phase M_spatial M_cmv M_signal_corr M_signal_tf M_signal_plant Spec_plant P_list P_dft P_welch P_plant P_cam.
From Coquelicot Require Import Complex.
From Coq Require Import Lra Psatz Permutation.
Local Open Scope R_scope.
From Verif Require Import X_signal_cam.

(** C57. The filter in full: the frequencies are those of the FFT over the time to cross one step, and the value is
   the response of sites placed at j*dx - lowest (the true positions are j*dx + lowest). *)
Theorem C57_cam_value :
  forall p x0 x1 rest v m, p <> [] -> x1 <> x0 -> v <> 0 -> Rsum p <> 0 ->
  In m (x0 :: x1 :: rest) -> (forall x, In x (x0 :: x1 :: rest) -> m <= x) ->
  plant1d_to_camfilter (map Some p) (x0 :: x1 :: rest) v =
  Ok (map (fun k => let f := bin_frequency (length p) k ((x1 - x0) / Rabs v) in
                    (f, Some (advected v f (combine (map (fun j => INR j * (x1 - x0) - m) (seq 0 (length p))) (shares p)))))
          (seq 0 (length p))).
Proof. exact (@cam_value). Qed.
Print Assumptions C57_cam_value.

(** C56. Degenerate inputs: fewer than two coordinates, no plant, zero speed, a missing value or a zero total. *)
Theorem C56_cam_degenerate :
  forall plant xs v,
  ((length xs < 2)%nat -> plant1d_to_camfilter plant xs v = Err IndexError) /\
  (forall x0 x1 rest, xs = x0 :: x1 :: rest ->
     (plant = [] -> plant1d_to_camfilter plant xs v = Err ValueError) /\
     (plant <> [] -> x1 <> x0 ->
        (v = 0 -> plant1d_to_camfilter plant xs v = Ok (map (fun _ => (0, None)) plant)) /\
        (v <> 0 -> In None plant \/ (exists p, plant = map Some p /\ Rsum p = 0) ->
           plant1d_to_camfilter plant xs v =
           Ok (map (fun k => (bin_frequency (length plant) k ((x1 - x0) / Rabs v), None)) (seq 0 (length plant)))))).
Proof. exact (@cam_degenerate). Qed.
Print Assumptions C56_cam_degenerate.

(** C56. Unit gain at frequency zero, which is the first row. *)
Theorem C56_cam_dc :
  forall p x0 x1 rest v, p <> [] -> x1 <> x0 -> v <> 0 -> Rsum p <> 0 ->
  exists rows, plant1d_to_camfilter (map Some p) (x0 :: x1 :: rest) v = Ok ((0, Some (RtoC 1)) :: rows) /\
    forall f z, In (f, z) ((0, Some (RtoC 1)) :: rows) -> f = 0 -> z = Some (RtoC 1).
Proof. exact (@cam_dc). Qed.
Print Assumptions C56_cam_dc.

(** C56. A non-negative plant gives a passive filter: no frequency is amplified. *)
Theorem C56_cam_passive :
  forall p xs v rows f z, (forall a, In a p -> 0 <= a) ->
  plant1d_to_camfilter (map Some p) xs v = Ok rows -> In (f, Some z) rows -> Cmod z <= 1.
Proof. exact (@cam_passive). Qed.
Print Assumptions C56_cam_passive.

(** C56. Reversing the cloud direction keeps the frequencies and conjugates the values. *)
Theorem C56_cam_reverse :
  forall plant xs v rows, plant1d_to_camfilter plant xs v = Ok rows ->
  plant1d_to_camfilter plant xs (- v) = Ok (map (fun r => (fst r, option_map Cconj (snd r))) rows).
Proof. exact (@cam_reverse). Qed.
Print Assumptions C56_cam_reverse.

(** C56. Scaling the plant by a non-zero factor changes nothing. *)
Theorem C56_cam_scale :
  forall c plant xs v, c <> 0 ->
  plant1d_to_camfilter (map (option_map (fun a => c * a)) plant) xs v = plant1d_to_camfilter plant xs v.
Proof. exact (@cam_scale). Qed.
Print Assumptions C56_cam_scale.

(** C57. On a grid x0, x0+dx, .. of n points whose origin is a whole multiple of half its length n*dx, the filter is
   the true response of the sites where they stand: every site delays by its position over the speed. *)
Theorem C57_cam_symmetric :
  forall p x0 dx v q, (2 <= length p)%nat -> 0 < dx -> v <> 0 -> Rsum p <> 0 ->
  2 * x0 = IZR q * (INR (length p) * dx) ->
  plant1d_to_camfilter (map Some p) (equispaced x0 dx (length p)) v =
  Ok (map (fun k => let f := bin_frequency (length p) k (dx / Rabs v) in
                    (f, Some (advected v f (combine (equispaced x0 dx (length p)) (shares p))))) (seq 0 (length p))).
Proof. exact (@cam_symmetric). Qed.
Print Assumptions C57_cam_symmetric.

(** C57. That condition on the grid is exact: if the filter is the true response of every plant, it holds. *)
Theorem C57_cam_symmetric_only :
  forall x0 dx v n, (2 <= n)%nat -> 0 < dx -> v <> 0 ->
  ((forall p, length p = n -> Rsum p <> 0 ->
      plant1d_to_camfilter (map Some p) (equispaced x0 dx n) v =
      Ok (map (fun k => let f := bin_frequency n k (dx / Rabs v) in
                        (f, Some (advected v f (combine (equispaced x0 dx n) (shares p))))) (seq 0 n))) <->
   exists q, 2 * x0 = IZR q * (INR n * dx)).
Proof. exact (@cam_symmetric_only). Qed.
Print Assumptions C57_cam_symmetric_only.

(** C57. The grid of get_1d_plant meets the condition when xmax is a positive even number and dx divides it. *)
Theorem C57_plant_grid_symmetric :
  forall centers ref width shape dx xmax plant xs (m n : nat), 0 < dx -> xmax = 2 * INR m -> INR n * dx = xmax ->
  get_1d_plant centers ref width shape dx xmax = Ok (plant, xs) ->
  xs = equispaced (- INR m) dx n /\ 2 * - INR m = IZR (-1) * (INR n * dx).
Proof. exact (@plant_grid_symmetric). Qed.
Print Assumptions C57_plant_grid_symmetric.

(** C57. It does not when xmax is odd and the step is 1: the grid starts one step too low, and a site at the
   reference is reported one step late. *)
Theorem C57_plant_grid_odd :
  forall (m : nat) v, (1 <= m)%nat -> v <> 0 ->
  exists plant xs rows, get_1d_plant [Some 0] 0 None "square" 1 (2 * INR m + 1) = Ok (plant, xs) /\
    xs = equispaced (- INR (m + 1)) 1 (2 * m + 1) /\
    (~ exists q, 2 * - INR (m + 1) = IZR q * (INR (2 * m + 1) * 1)) /\
    plant = map (fun x => Some (if Req_EM_T x 0 then 1 else 0)) xs /\
    plant1d_to_camfilter plant xs v = Ok rows /\
    rows = map (fun k => let f := bin_frequency (2 * m + 1) k (1 / Rabs v) in (f, Some (phasor (- (2 * PI * f * (1 / v)))))) (seq 0 (2 * m + 1)).
Proof. exact (@plant_grid_odd). Qed.
Print Assumptions C57_plant_grid_odd.

(** C56. Two sites of unequal size, one at -1 and one at 0, speed 1: gain 1 at 0 and 1/2 at the other frequency. *)
Example C56_cam_example :
  plant1d_to_camfilter [Some 1; Some 3] [-1; 0] 1 = Ok [(0, Some (RtoC 1)); (- (1 / 2), Some (RtoC (1 / 2)))].
Proof. exact (@cam_example). Qed.

