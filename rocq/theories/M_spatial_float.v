(** binary64 model of src/solarspatialtools/spatial.py _calc_zone: every arithmetic
    operation is rounded to nearest even (Flocq). No proofs in this file. *)
From Flocq Require Import Core.
From Verif Require Import Prelude RealBase M_spatial.
Local Open Scope R_scope.

(** The binary64 format and its rounding (no overflow at these magnitudes). *)
Definition b64_exp := FLT_exp (-1074) 53.
Definition is_b64 (x : R) : Prop := generic_format radix2 b64_exp x.
Definition b64 (x : R) : R := round radix2 b64_exp ZnearestE x.

(** spatial.py:7-23 _calc_zone in binary64. *)
Definition calc_zone_b64 (lon : R) : Z :=
  let z := py_int (b64 (b64 (b64 (lon - (-180)) / 6) + 1)) in
  Z.min z 60.
