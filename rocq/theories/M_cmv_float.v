(** binary64 model of the final angle reduction of src/solarspatialtools/cmv.py. No proofs here. *)
From Flocq Require Import Core.
From Verif Require Import Prelude RealBase M_spatial M_spatial_float.
Local Open Scope R_scope.

(** numpy's float64 remainder with a positive divisor: fmod (exact), then one rounded addition when
    the remainder is negative. *)
Definition fmod (a b : R) : R := a - b * IZR (py_int (a / b)).
Definition np_mod (a b : R) : R := let m := fmod a b in if Rltb m 0 then b64 (m + b) else m.

(** np.pi: the binary64 number nearest to pi (which lies within 2^-53 of it); 2*np.pi is exact. *)
Definition np_pi : R := b64 PI.

(** cmv.py:373-377 in binary64, for a finite fitted speed and angle. *)
Definition normalise_cmv_b64 (vel theta : R) : R * R :=
  let '(vel, theta) := if Rltb vel 0 then (vel * -1, b64 (theta + np_pi)) else (vel, theta) in
  (vel, np_mod theta (2 * np_pi)).
