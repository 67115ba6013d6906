(** Property theorems. stats.py: the averaging width in binary64.
    Proofs are in the X_ file of the same name. *)
From Flocq Require Import Core Relative.
From Verif Require Import Prelude RealBase M_spatial M_spatial_float X_spatial_zone M_stats_float.
Local Open Scope R_scope.
From Verif Require Import X_stats_float.

(** C112. Steps of whole seconds: the width is exactly tau steps. *)
Theorem C112_width_whole_seconds :
  forall tau k, (0 <= tau)%Z -> (0 <= k)%Z -> (tau * k <= 2 ^ 53)%Z -> (k <= 2 ^ 53)%Z ->
  width_b64 tau (k * 1000000000) = (tau * k)%Z.
Proof. exact (@width_whole_seconds). Qed.
Print Assumptions C112_width_whole_seconds.

(** C112. In general the width differs from the exact one by at most one second, and only when tau steps are within
    2^-19 s of a whole number of seconds (up to 136 years). *)
Theorem C112_width_close :
  forall tau step w, (1 <= tau)%Z -> (1 <= step)%Z -> IZR tau * (IZR step / 1000000000) <= 2 ^ 32 ->
  IZR w <= IZR tau * (IZR step / 1000000000) < IZR w + 1 ->
  width_b64 tau step = w \/
  (width_b64 tau step = (w + 1)%Z /\ IZR w + 1 - / 2 ^ 19 <= IZR tau * (IZR step / 1000000000)) \/
  (width_b64 tau step = (w - 1)%Z /\ IZR tau * (IZR step / 1000000000) < IZR w + / 2 ^ 19).
Proof. exact (@width_close). Qed.
Print Assumptions C112_width_close.

(** C112. A hundred steps of 0.29 s are 29 s, but the averages are taken over 28 s. *)
Theorem C112_width_exact_refuted :
  IZR 100 * (IZR 290000000 / 1000000000) = 29 /\ width_b64 100 290000000 = 28%Z.
Proof. exact (@width_exact_refuted). Qed.
Print Assumptions C112_width_exact_refuted.

Example C112_width_example :
  width_b64 5 60000000000 = 300%Z.
Proof. exact (@width_example). Qed.

