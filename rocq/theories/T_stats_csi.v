(** Property theorems. Clear-sky index (irradiance.clearsky_index).
    Proofs are in the X_ file of the same name. *)
From Verif Require Import Prelude PreludeFacts RealBase Fl RealStat M_stats Spec_stats.
Local Open Scope R_scope.
From Verif Require Import X_stats_csi.

(** C40. One value per sample: NaN exactly when an input is not finite; otherwise the ratio clipped to [0, max], 0 for a zero clear sky. *)
Theorem C40_csi_column :
  forall l cs m, length l = length cs -> 0 <= m ->
  exists out, clearsky_index (Col l) cs (Fin m) = Col out /\ length out = length l /\
  forall i g c, nth_error l i = Some g -> nth_error cs i = Some c -> exists k, nth_error out i = Some k /\
    (k = Nan <-> is_finite g = false \/ is_finite c = false) /\
    (forall x y, g = Fin x -> c = Fin y -> exists r, k = Fin r /\ 0 <= r <= m /\
       (y = 0 -> r = 0) /\ (y <> 0 -> x / y <= 0 -> r = 0) /\ (y <> 0 -> m <= x / y -> r = m) /\
       (y <> 0 -> 0 <= x / y <= m -> r = x / y)).
Proof. exact (@csi_column). Qed.
Print Assumptions C40_csi_column.

(** C40. Only the ratio matters: a common change of units changes nothing; the index grows with ghi. *)
Theorem C40_csi_ratio :
  forall x x' y k m,
  (k <> 0 -> clearsky_index (Col [Fin (k * x)]) [Fin (k * y)] (Fin m) = clearsky_index (Col [Fin x]) [Fin y] (Fin m)) /\
  (0 <= m -> 0 < y -> x <= x' -> exists r r', clearsky_index (Col [Fin x]) [Fin y] (Fin m) = Col [Fin r] /\
     clearsky_index (Col [Fin x']) [Fin y] (Fin m) = Col [Fin r'] /\ r <= r').
Proof. exact (@csi_ratio). Qed.
Print Assumptions C40_csi_ratio.

(** C40. A table is handled column by column, always with the bound 2. *)
Theorem C40_csi_table :
  forall cols cs mx, exists out, clearsky_index (Table cols) cs mx = Table out /\ length out = length cols /\
  forall j c, nth_error cols j = Some c -> exists k, nth_error out j = Some k /\ clearsky_index (Col c) cs (Fin 2) = Col k.
Proof. exact (@csi_table). Qed.
Print Assumptions C40_csi_table.

(** C40. So the requested bound is not respected for tables. *)
Theorem C40_csi_table_bound_refuted :
  exists cols cs m k, clearsky_index (Table cols) cs (Fin m) = Table [[Fin k]] /\ m < k.
Proof. exact (@csi_table_bound_refuted). Qed.
Print Assumptions C40_csi_table_bound_refuted.

Example C40_csi_example :
  clearsky_index (Col [Fin 500; Nan; Fin 5]) [Fin 1000; Fin 1; Fin 0] (Fin 2) = Col [Fin (1/2); Nan; Fin 0].
Proof. exact (@csi_example). Qed.

