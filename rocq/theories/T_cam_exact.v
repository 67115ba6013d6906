(** Property theorems. The cloud advection model is exact in a periodic frozen field.
    Proofs are in the X_ file of the same name. *)
From Coq Require Import String.
From Verif Require Import Prelude PreludeFacts RealBase Fl RealStat Dft Phase M_spatial M_cmv M_signal_corr M_signal_tf M_signal_plant Spec_spatial Spec_welch Spec_plant P_list P_plane P_dft P_welch P_plant P_cam P_filter X_signal_plant X_signal_cam X_signal_interp X_signal_filter X_signal_camsite X_signal_marcos Spec_cam_exact.
From Coquelicot Require Import Complex.
From Coq Require Import Lra Psatz Permutation.
Local Open Scope R_scope.
From Verif Require Import X_cam_exact.

(** C118. A signal filtered with the cloud advection model of a plant is the average, over the distinct delays between the sites and the
    reference, of the signal delayed (around the end of the record), provided the filter has the frequencies of the signal. *)
Theorem C118_cam_average :
  forall proj pts v d ref dx dt shape sig (m n M : nat) qs, d <> (0, 0) -> v <> 0 -> 0 < dx -> 0 < dt -> lower shape = "square"%string ->
  (2 <= length sig)%nat -> (0 < M)%nat -> INR n * dx = 2 * INR m -> INR n * dx = INR M * (INR (length sig) * dt * Rabs v) -> dx <= dt * Rabs v ->
  pts <> [] -> NoDup qs ->
  (forall p, In p pts -> exists q, In q qs /\ along d ref p = IZR q * (dt * v)) ->
  (forall q, In q qs -> exists p, In p pts /\ along d ref p = IZR q * (dt * v)) ->
  (forall q, In q qs -> exists i, (i < n)%nat /\ IZR q * (dt * v) = INR i * dx - INR m) ->
  exists filt, get_camfilter proj (EastNorth pts) v d (EastNorth ref) dx 0 None shape (2 * INR m) = Ok (map (fun r => (fst r, Some (snd r))) filt) /\
    apply_filter dt sig filt = Ok (mean_series (length sig) (map (fun q => delayed q sig) qs)).
Proof. exact (@cam_average). Qed.
Print Assumptions C118_cam_average.

(** C118. If the clouds reach the sites at different times the model's prediction from the reference record is exactly the average of the
    records of the sites in a periodic frozen cloud field. *)
Theorem C118_cam_exact :
  forall proj pts v d ref dx dt shape sig (m n M : nat) qs, d <> (0, 0) -> v <> 0 -> 0 < dx -> 0 < dt -> lower shape = "square"%string ->
  (2 <= length sig)%nat -> (0 < M)%nat -> INR n * dx = 2 * INR m -> INR n * dx = INR M * (INR (length sig) * dt * Rabs v) -> dx <= dt * Rabs v ->
  pts <> [] -> Forall2 (fun p q => along d ref p = IZR q * (dt * v) /\ exists i, (i < n)%nat /\ along d ref p = INR i * dx - INR m) pts qs -> NoDup qs ->
  exists filt, get_camfilter proj (EastNorth pts) v d (EastNorth ref) dx 0 None shape (2 * INR m) = Ok (map (fun r => (fst r, Some (snd r))) filt) /\
    apply_filter dt sig filt = Ok (mean_series (length sig) (map (fun q => delayed q sig) qs)).
Proof. exact (@cam_exact). Qed.
Print Assumptions C118_cam_exact.

(** C118. Sites abreast of each other count once: the prediction is not the average over the sites then. *)
Theorem C118_cam_abreast_refuted :
  ~ (forall proj pts v d ref dx dt shape sig (m n M : nat) qs, d <> (0, 0) -> v <> 0 -> 0 < dx -> 0 < dt -> lower shape = "square"%string ->
  (2 <= length sig)%nat -> (0 < M)%nat -> INR n * dx = 2 * INR m -> INR n * dx = INR M * (INR (length sig) * dt * Rabs v) -> dx <= dt * Rabs v ->
  pts <> [] -> Forall2 (fun p q => along d ref p = IZR q * (dt * v) /\ exists i, (i < n)%nat /\ along d ref p = INR i * dx - INR m) pts qs ->
  exists filt, get_camfilter proj (EastNorth pts) v d (EastNorth ref) dx 0 None shape (2 * INR m) = Ok (map (fun r => (fst r, Some (snd r))) filt) /\
    apply_filter dt sig filt = Ok (mean_series (length sig) (map (fun q => delayed q sig) qs))).
Proof. exact (@cam_abreast_refuted). Qed.
Print Assumptions C118_cam_abreast_refuted.

(** C118. Two sites, the second one step downwind, and a record of four samples. *)
Example C118_cam_exact_example :
  forall proj, exists filt, get_camfilter proj (EastNorth [(0, 0); (1, 0)]) 1 (1, 0) (EastNorth (0, 0)) 1 0 None "square"%string (2 * INR 2) = Ok (map (fun r => (fst r, Some (snd r))) filt) /\
  apply_filter 1 [6; 0; 0; 2] filt = Ok [4; 3; 0; 1].
Proof. exact (@cam_exact_example). Qed.

(** C118. Without any condition on the times of arrival: when the clouds move at least two grid steps per sample and a site lies on the
    grid, the filtered record has the length and mean of the reference record and deviates from it no more; likewise for the Marcos
    filter on the same frequencies. *)
Theorem C118_cam_smooths :
  forall proj pts v d ref dx dt shape sig s (m n : nat), d <> (0, 0) -> v <> 0 -> 0 < dx -> 0 < dt -> lower shape = "square"%string ->
  (2 <= length sig)%nat -> (3 <= n)%nat -> INR n * dx = 2 * INR m -> 2 * dx <= dt * Rabs v ->
  (exists p, In p pts /\ - INR m <= along d ref p <= INR m - dx) -> 0 < s ->
  exists filt mfilt out mout,
    get_camfilter proj (EastNorth pts) v d (EastNorth ref) dx 0 None shape (2 * INR m) = Ok (map (fun r => (fst r, Some (snd r))) filt) /\
    get_marcosfilter s (Some (map fst filt)) = map (fun r => (fst r, Some (snd r))) mfilt /\
    apply_filter dt sig filt = Ok out /\ apply_filter dt sig mfilt = Ok mout /\
    (length out = length sig /\ Rmean out = Rmean sig /\ deviations out <= deviations sig) /\
    (length mout = length sig /\ Rmean mout = Rmean sig /\ deviations mout <= deviations sig).
Proof. exact (@cam_smooths). Qed.
Print Assumptions C118_cam_smooths.

(** C118. A plant across the wind and a record that does not fit the grid. *)
Example C118_cam_smooths_example :
  (0, 1) <> (0, 0) /\ 2 * 1 <= 1 * Rabs 20 /\ INR 8 * 1 = 2 * INR 4 /\ (2 <= length [5%R; (-1)%R; 0%R])%nat /\
  (exists p, In p [(0, 0); (7, 5/2)] /\ - INR 4 <= along (0, 1) (0, 0) p <= INR 4 - 1) /\ along (0, 1) (0, 0) (7, 5/2) = 5/2.
Proof. exact (@cam_smooths_example). Qed.

