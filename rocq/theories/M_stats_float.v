(** binary64 model of the averaging width that stats.py derives from the index. No proofs here. *)
From Verif Require Import Prelude RealBase M_spatial M_spatial_float.
Local Open Scope R_scope.

(** stats.py:191-192, 240-242, 297-298: int(tau * np.nanmedian(index.diff().total_seconds())), for an index whose
    steps are all [step] nanoseconds. total_seconds divides the integer by 1e9 in binary64; the median of
    equal values is that value (the mean of two equal values is exact). *)
Definition width_b64 (tau step : Z) : Z := py_int (b64 (IZR tau * b64 (IZR step / 1000000000))).
