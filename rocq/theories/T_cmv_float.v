(** Property theorems. cmv.py: the final angle reduction in binary64.
    Proofs are in the X_ file of the same name. *)
From Flocq Require Import Core.
From Verif Require Import Prelude RealBase M_spatial M_spatial_float X_spatial_zone M_cmv_float.
Local Open Scope R_scope.
From Verif Require Import X_cmv_float.

(** C20. In binary64: the speed is the fitted speed's magnitude; the angle is the fitted angle (plus np.pi, rounded,
    when the fitted speed is negative) up to whole turns of the float 2*np.pi and an error of at most 2^-51;
    it is in the closed interval [0, 2*np.pi]. *)
Theorem C20_normalise_b64 :
  forall vel theta v t, normalise_cmv_b64 vel theta = (v, t) ->
  v = Rabs vel /\ 0 <= t <= 2 * np_pi /\
  exists k, Rabs (t - ((if Rltb vel 0 then b64 (theta + np_pi) else theta) - IZR k * (2 * np_pi))) <= / 2 ^ 51.
Proof. exact (@normalise_b64). Qed.
Print Assumptions C20_normalise_b64.

(** C20. The half-open upper bound fails in binary64: for the fitted angle -2^-60 the float 2*np.pi itself is returned. *)
Theorem C20_normalise_b64_upper_refuted :
  ~ forall vel theta v t, is_b64 vel -> is_b64 theta -> normalise_cmv_b64 vel theta = (v, t) -> t < 2 * np_pi.
Proof. exact (@normalise_b64_upper_refuted). Qed.
Print Assumptions C20_normalise_b64_upper_refuted.

Example C20_normalise_b64_example :
  exists vel theta v t, is_b64 vel /\ is_b64 theta /\ vel < 0 /\ normalise_cmv_b64 vel theta = (v, t).
Proof. exact (@normalise_b64_example). Qed.

