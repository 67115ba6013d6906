(** Property theorems. Error metrics on machine integers (C130).
    Proofs are in the X_ file of the same name. *)
From Verif Require Import Prelude PreludeFacts RealBase Fl RealStat M_stats Spec_stats M_stats_int Spec_stats_int.
Local Open Scope Z_scope.
From Verif Require Import X_stats_int.

(** C130. The error stored for an estimate and its baseline value is the exact one if the type can hold it, and off by a multiple of 2^bits
    otherwise. *)
Theorem C130_int_error_entry :
  forall t b e ds i d, 0 < bits t -> int_bias_error t b e = Ok ds -> nth_error ds i = Some d ->
  exists z k, exact_error b e z /\ d = z + k * 2 ^ bits t /\ holds t d /\ (holds t z <-> k = 0).
Proof. exact (@int_error_entry). Qed.
Print Assumptions C130_int_error_entry.

(** C130. If the type can hold every error, mbe is the one of the same numbers in floating point; if it can hold the absolute values too, so is
    mae; if it can hold the squares, so are mse and rmse. *)
Theorem C130_int_metrics_exact :
  forall t b e, 0 < bits t -> (forall d, exact_error b e d -> holds t d) ->
  int_mbe t b e = mbe (map IZR b) (map IZR e) /\
  ((forall d, exact_error b e d -> holds t (Z.abs d)) -> int_mae t b e = mae (map IZR b) (map IZR e)) /\
  ((forall d, exact_error b e d -> holds t (d * d)) -> int_mse t b e = mse (map IZR b) (map IZR e) /\ int_rmse t b e = rmse (map IZR b) (map IZR e)).
Proof. exact (@int_metrics_exact). Qed.
Print Assumptions C130_int_metrics_exact.

(** C130. In a signed type all four are right as long as no error is larger than B in absolute value and B^2 is below 2^(bits-1), for example
    1000 W/m2 in 32 bits. *)
Theorem C130_int_signed_safe :
  forall t b e B, signed t = true -> 0 < bits t -> (forall d, exact_error b e d -> Z.abs d <= B) -> B * B < 2 ^ (bits t - 1) ->
  int_mbe t b e = mbe (map IZR b) (map IZR e) /\ int_mae t b e = mae (map IZR b) (map IZR e) /\
  int_mse t b e = mse (map IZR b) (map IZR e) /\ int_rmse t b e = rmse (map IZR b) (map IZR e).
Proof. exact (@int_signed_safe). Qed.
Print Assumptions C130_int_signed_safe.

(** C130. In an unsigned type every estimate below its baseline value adds 2^bits to the sum of the errors: mbe is never negative, and mae is
    the same as mbe. *)
Theorem C130_int_unsigned :
  forall t b e, signed t = false -> 0 < bits t -> length b = length e -> b <> [] ->
  (forall z, In z b \/ In z e -> holds t z) ->
  int_mbe t b e = Ok (Fin (Rmean (errs (map IZR b) (map IZR e)) + IZR (2 ^ bits t) * INR (below_baseline b e) / INR (length b)))%R /\
  int_mae t b e = int_mbe t b e /\ (exists m, int_mbe t b e = Ok (Fin m) /\ 0 <= m)%R.
Proof. exact (@int_unsigned). Qed.
Print Assumptions C130_int_unsigned.

(** C130. So the metrics of integer arrays are not those of the same numbers: in uint16 an underestimate of 1 is an overestimate of 65535, and in
    int16 an error of 200 has a negative mean square and no root mean square. *)
Theorem C130_int_metrics_refuted :
  int_mbe uint16 [1] [0] = Ok (Fin 65535) /\ mbe [1%R] [0%R] = Ok (Fin (-1)) /\
  int_mse int16 [800] [1000] = Ok (Fin (-25536)) /\ int_rmse int16 [800] [1000] = Ok Nan /\ mse [800%R] [1000%R] = Ok (Fin 40000).
Proof. exact (@int_metrics_refuted). Qed.
Print Assumptions C130_int_metrics_refuted.

(** C130. Irradiance in 32 bits is safe; the unsigned formula on three values. *)
Example C130_int_example :
  (forall d, exact_error [800; 0; 300] [1000; 10; 0] d -> Z.abs d <= 1000) /\ 1000 * 1000 < 2 ^ (bits (Int true 32) - 1) /\
  (forall z, In z [800; 0; 300] \/ In z [1000; 10; 0] -> holds uint16 z) /\ below_baseline [800; 0; 300] [1000; 10; 0] = 1%nat /\
  int_bias_error uint16 [800; 0; 300] [1000; 10; 0] = Ok [200; 10; 65236].
Proof. exact (@int_example). Qed.

