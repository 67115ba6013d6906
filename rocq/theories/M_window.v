(** Model of the scipy helpers behind the [window] and [detrend] arguments of signalproc.py averaged_psd (164-215) and
    averaged_tf (218-326): scipy.signal.get_window (periodic form) and scipy.signal.detrend of one segment, written out so
    that the theorems on these functions can be instantiated with what is actually called.
    Simplification: the four usual cosine windows; any other name gets no weight here (scipy knows more names and raises
    ValueError for unknown ones). *)
From Coq Require Import String.
From Verif Require Import Prelude RealBase.
Local Open Scope string_scope.
Local Open Scope R_scope.

(** scipy general_cosine with sym=False: sum over k of a_k cos(k t) on t = -pi + 2 pi j / N, one sample is all ones
    (signalproc.py:165, 219: window='hamming' is the default). *)
Definition cosine_window (a0 a1 a2 : R) (N : nat) : list R :=
  if Nat.leb N 1 then repeat 1 N
  else map (fun j => a0 + a1 * cos (- PI + 2 * PI * INR j / INR N) + a2 * cos (2 * (- PI + 2 * PI * INR j / INR N))) (seq 0 N).
(** scipy get_window(name, N) for the names used with signalproc.py:211, 303-311. *)
Definition std_win (name : string) (N : nat) : list R :=
  if String.eqb name "boxcar" then repeat 1 N
  else if String.eqb name "hamming" then cosine_window (54 / 100) (46 / 100) 0 N
  else if String.eqb name "hann" then cosine_window (1 / 2) (1 / 2) 0 N
  else if String.eqb name "blackman" then cosine_window (42 / 100) (1 / 2) (8 / 100) N
  else repeat 0 N.

(** scipy detrend(type='constant'): x - mean(x). *)
Definition minus_mean (x : list R) : list R := map (fun v => v - Rmean x) x.
(** scipy detrend(type='linear'): x minus its least-squares line, in closed form (the slope is Sxy / Sxx about the means;
    one sample leaves 0, as the exact fit scipy makes). *)
Definition slope_of (x : list R) : R :=
  let t := map INR (seq 0 (length x)) in
  Rsum (map2 (fun u v => (u - Rmean t) * (v - Rmean x)) t x) / Rsum (map (fun u => (u - Rmean t) ^ 2) t).
Definition minus_line (x : list R) : list R :=
  let t := map INR (seq 0 (length x)) in
  map2 (fun u v => v - (Rmean x + slope_of x * (u - Rmean t))) t x.
(** scipy detrend(data, type=name) (signalproc.py:165, 219: detrend='linear' is the default); another name raises in scipy
    and is the identity here. *)
Definition std_dtr (name : string) (x : list R) : list R :=
  if (String.eqb name "linear" || String.eqb name "l")%bool then minus_line x
  else if (String.eqb name "constant" || String.eqb name "c")%bool then minus_mean x
  else x.
