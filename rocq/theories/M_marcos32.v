(** Model of get_marcosfilter (src/solarspatialtools/signalproc.py:1107-1131) with the storage type of line 1131:
    dtype=np.complex64 keeps real and imaginary part as IEEE binary32. No proofs in this file.
    Simplifications: the complex128 arithmetic before the conversion is exact (M_signal_plant.v), frequencies are
    given explicitly or are the default ones. Both parts are at most 1 in absolute value, so nothing overflows. *)
From Coq Require Import ZArith Reals.
From Flocq Require Import Core.
From Verif Require Import Prelude RealBase M_signal_plant.
From Coquelicot Require Import Complex.
Local Open Scope R_scope.

(** Rounding to binary32, ties to even, with subnormal numbers. *)
Definition b32_exp := FLT_exp (-149) 24.
Definition b32 (x : R) : R := round radix2 b32_exp ZnearestE x.

(** signalproc.py:1131 pd.Series(filt, index=freq, dtype=np.complex64): each part rounded, NaN kept; the index is
    not converted. *)
Definition to_complex64 (z : C) : C := (b32 (fst z), b32 (snd z)).
Definition get_marcosfilter32 (s : R) (freq : option (list R)) : list (R * option C) :=
  map (fun r => (fst r, option_map to_complex64 (snd r))) (get_marcosfilter s freq).
