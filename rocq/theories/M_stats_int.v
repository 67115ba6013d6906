(** Model of the error metrics of src/solarspatialtools/stats.py on numpy arrays of machine integers, whose arithmetic wraps around.
    Simplification: both arrays have the same integer type. No proofs here. *)
From Verif Require Import Prelude RealBase Fl RealStat M_stats.
Local Open Scope Z_scope.

(** numpy integer types: int8 to int64 and uint8 to uint64. *)
Record itype : Type := Int { signed : bool; bits : Z }.
(** The value stored for an exact result: reduced modulo 2^bits. *)
Definition wrap (t : itype) (z : Z) : Z :=
  if signed t then (z + 2 ^ (bits t - 1)) mod 2 ^ bits t - 2 ^ (bits t - 1) else z mod 2 ^ bits t.
(** a - b with broadcasting as in M_stats.array_sub, before wrapping. *)
Definition z_sub (a b : list Z) : result (list Z) :=
  if Nat.eqb (length a) (length b) then Ok (map (fun p => fst p - snd p) (combine a b))
  else match a, b with
       | [x], _ => Ok (map (fun y => x - y) b)
       | _, [y] => Ok (map (fun x => x - y) a)
       | _, _ => Err ValueError
       end.
(** stats.py:131-149 bias_error *)
Definition int_bias_error (t : itype) (baseline estimation : list Z) : result (list Z) := rmap (map (wrap t)) (z_sub estimation baseline).
(** stats.py:48-66 squared_error: the square keeps the type. *)
Definition int_squared_error (t : itype) (baseline estimation : list Z) : result (list Z) :=
  rmap (map (fun d => wrap t (d * d))) (int_bias_error t baseline estimation).
(** stats.py:89-108 absolute_error: so does np.abs. *)
Definition int_absolute_error (t : itype) (baseline estimation : list Z) : result (list Z) :=
  rmap (map (fun d => wrap t (Z.abs d))) (int_bias_error t baseline estimation).
(** np.mean of integers is computed in floating point. *)
Definition int_mean (l : list Z) : fl := nan_reduce Rmean (map IZR l).
(** stats.py:27-45 mse *)
Definition int_mse (t : itype) (baseline estimation : list Z) : result fl := rmap int_mean (int_squared_error t baseline estimation).
(** stats.py:5-24 rmse *)
Definition int_rmse (t : itype) (baseline estimation : list Z) : result fl := rmap fsqrt (int_mse t baseline estimation).
(** stats.py:68-86 mae *)
Definition int_mae (t : itype) (baseline estimation : list Z) : result fl := rmap int_mean (int_absolute_error t baseline estimation).
(** stats.py:110-128 mbe *)
Definition int_mbe (t : itype) (baseline estimation : list Z) : result fl := rmap int_mean (int_bias_error t baseline estimation).
