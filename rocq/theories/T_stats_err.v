(** Property theorems. Error metrics (stats.py).
    Proofs are in the X_ file of the same name. *)
From Coq Require Import Permutation Sorted.
From Verif Require Import Prelude PreludeFacts RealBase Fl RealStat M_stats Spec_stats.
Local Open Scope R_scope.
From Verif Require Import X_stats_err.

(** C32. What the four metrics compute on arrays of equal length. *)
Theorem C32_metric_values :
  forall b e, length b = length e -> b <> [] ->
  bias_error b e = Ok (errs b e) /\
  squared_error b e = Ok (map (fun d => d ^ 2) (errs b e)) /\
  absolute_error b e = Ok (map Rabs (errs b e)) /\
  mse b e = Ok (Fin (avg (map (fun d => d ^ 2) (errs b e)))) /\
  rmse b e = Ok (Fin (sqrt (avg (map (fun d => d ^ 2) (errs b e))))) /\
  mae b e = Ok (Fin (avg (map Rabs (errs b e)))) /\
  mbe b e = Ok (Fin (avg (errs b e))).
Proof. exact (@metric_values). Qed.
Print Assumptions C32_metric_values.

(** C32. Ordering of the metrics. *)
Theorem C32_metric_ordering :
  forall b e, length b = length e -> b <> [] ->
  exists MSE RMSE MAE MBE,
    mse b e = Ok (Fin MSE) /\ rmse b e = Ok (Fin RMSE) /\ mae b e = Ok (Fin MAE) /\ mbe b e = Ok (Fin MBE) /\
    RMSE = sqrt MSE /\ Rabs MBE <= MAE <= RMSE /\
    (exists d, In d (errs b e) /\ RMSE <= Rabs d /\ forall d', In d' (errs b e) -> Rabs d' <= Rabs d) /\
    MSE = MBE ^ 2 + spread (errs b e).
Proof. exact (@metric_ordering). Qed.
Print Assumptions C32_metric_ordering.

(** C32. Arrays of different lengths are refused; a single value is compared with every entry; nothing gives NaN. *)
Theorem C32_metric_shapes :
  forall b e,
  (length b <> length e -> length b <> 1%nat -> length e <> 1%nat ->
     mse b e = Err ValueError /\ rmse b e = Err ValueError /\ mae b e = Err ValueError /\ mbe b e = Err ValueError) /\
  (forall x, b = [x] -> mse b e = mse (map (fun _ => x) e) e /\ rmse b e = rmse (map (fun _ => x) e) e /\
                        mae b e = mae (map (fun _ => x) e) e /\ mbe b e = mbe (map (fun _ => x) e) e) /\
  (forall y, e = [y] -> mse b e = mse b (map (fun _ => y) b) /\ rmse b e = rmse b (map (fun _ => y) b) /\
                        mae b e = mae b (map (fun _ => y) b) /\ mbe b e = mbe b (map (fun _ => y) b)) /\
  (mse [] [] = Ok Nan /\ rmse [] [] = Ok Nan /\ mae [] [] = Ok Nan /\ mbe [] [] = Ok Nan).
Proof. exact (@metric_shapes). Qed.
Print Assumptions C32_metric_shapes.

Example C32_metric_example :
  mse [0; 0] [3; -1] = Ok (Fin 5) /\ mae [0; 0] [3; -1] = Ok (Fin 2) /\ mbe [0; 0] [3; -1] = Ok (Fin 1).
Proof. exact (@metric_example). Qed.

(** C33. The metrics vanish exactly for equal series. *)
Theorem C33_metric_zero :
  forall b e, length b = length e -> b <> [] ->
  (mse b e = Ok (Fin 0) <-> b = e) /\ (rmse b e = Ok (Fin 0) <-> b = e) /\ (mae b e = Ok (Fin 0) <-> b = e).
Proof. exact (@metric_zero). Qed.
Print Assumptions C33_metric_zero.

(** C33. Swapping the arguments: mse, rmse, mae unchanged, mbe changes sign. *)
Theorem C33_metric_swap :
  forall b e m, length b = length e ->
  mse e b = mse b e /\ rmse e b = rmse b e /\ mae e b = mae b e /\
  (mbe b e = Ok (Fin m) -> mbe e b = Ok (Fin (- m))).
Proof. exact (@metric_swap). Qed.
Print Assumptions C33_metric_swap.

(** C33. Adding the same series to both inputs changes nothing. *)
Theorem C33_metric_shift :
  forall b e c, length b = length e -> length c = length b ->
  mse (map2 Rplus b c) (map2 Rplus e c) = mse b e /\ rmse (map2 Rplus b c) (map2 Rplus e c) = rmse b e /\
  mae (map2 Rplus b c) (map2 Rplus e c) = mae b e /\ mbe (map2 Rplus b c) (map2 Rplus e c) = mbe b e.
Proof. exact (@metric_shift). Qed.
Print Assumptions C33_metric_shift.

(** C33. Scaling both inputs by k. *)
Theorem C33_metric_scale :
  forall b e k, length b = length e -> b <> [] ->
  exists MSE RMSE MAE MBE,
    mse b e = Ok (Fin MSE) /\ rmse b e = Ok (Fin RMSE) /\ mae b e = Ok (Fin MAE) /\ mbe b e = Ok (Fin MBE) /\
    mse (map (Rmult k) b) (map (Rmult k) e) = Ok (Fin (k ^ 2 * MSE)) /\
    rmse (map (Rmult k) b) (map (Rmult k) e) = Ok (Fin (Rabs k * RMSE)) /\
    mae (map (Rmult k) b) (map (Rmult k) e) = Ok (Fin (Rabs k * MAE)) /\
    mbe (map (Rmult k) b) (map (Rmult k) e) = Ok (Fin (k * MBE)).
Proof. exact (@metric_scale). Qed.
Print Assumptions C33_metric_scale.

(** C33. Triangle inequality for rmse and mae. *)
Theorem C33_metric_triangle :
  forall a b c, length a = length b -> length b = length c -> a <> [] ->
  exists R1 R2 R3 A1 A2 A3,
    rmse a b = Ok (Fin R1) /\ rmse b c = Ok (Fin R2) /\ rmse a c = Ok (Fin R3) /\ R3 <= R1 + R2 /\
    mae a b = Ok (Fin A1) /\ mae b c = Ok (Fin A2) /\ mae a c = Ok (Fin A3) /\ A3 <= A1 + A2.
Proof. exact (@metric_triangle). Qed.
Print Assumptions C33_metric_triangle.

Example C33_metric_zero_example :
  rmse [1; 2] [1; 2] = Ok (Fin 0) /\ mbe [1; 2] [2; 1] = Ok (Fin 0) /\ mae [1; 2] [2; 1] = Ok (Fin 1).
Proof. exact (@metric_zero_example). Qed.

