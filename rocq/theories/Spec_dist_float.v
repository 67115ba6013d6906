(** Vocabulary for distances computed in floating point. *)
From Flocq Require Import Core.
From Verif Require Import Prelude RealBase.
Local Open Scope R_scope.

(** The rounding unit of binary64. *)
Definition unit_roundoff : R := / 9007199254740992.

(** Zero, or of a size whose square is neither too small nor too large for a double: about 1e-150 to 1e150. *)
Definition ordinary (v : R) : Prop := v = 0 \/ bpow radix2 (-500) <= Rabs v <= bpow radix2 500.

(** A relative error of at most [e]. *)
Definition within_rel (e approx exact : R) : Prop := Rabs (approx - exact) <= e * Rabs exact.
