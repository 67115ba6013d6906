(** Complex vocabulary shared by the signal-processing model: sums, the unit circle, the
    discrete Fourier transform of numpy/scipy (fft, ifft with axis=1, one row at a time).
    The transforms are modelled by their defining sums, not by the fast algorithm. *)
From Verif Require Import Prelude RealBase.
From Coquelicot Require Import Complex.
Local Open Scope R_scope.
Local Open Scope C_scope.

Definition Csum (l : list C) : C := fold_right Cplus (RtoC 0) l.
Definition Csumn (n : nat) (f : nat -> C) : C := Csum (map f (seq 0 n)).

(** exp(i t) *)
Definition cis (t : R) : C := (cos t, sin t).

(** numpy.fft.fft of one row: bin k is the sum of x[n] exp(-2 pi i k n / N). *)
Definition fft_bin (x : list C) (k : nat) : C :=
  Csumn (length x) (fun n => nth n x (RtoC 0) * cis (- (2 * PI * INR k * INR n / INR (length x)))%R).
Definition fft (x : list C) : list C := map (fft_bin x) (seq 0 (length x)).
(** numpy.fft.ifft of one row: sample n is (1/N) the sum of X[k] exp(2 pi i k n / N). *)
Definition ifft_bin (x : list C) (n : nat) : C :=
  Csumn (length x) (fun k => nth k x (RtoC 0) * cis (2 * PI * INR k * INR n / INR (length x))%R)
  / RtoC (INR (length x)).
Definition ifft (x : list C) : list C := map (ifft_bin x) (seq 0 (length x)).
