(** Independent vocabulary for windows and detrending (C100, C101). *)
From Coq Require Import String.
From Verif Require Import Prelude RealBase.
Local Open Scope R_scope.

(** The windows scipy offers that this model writes out. *)
Definition usual_window (s : string) : Prop := s = "boxcar"%string \/ s = "hamming"%string \/ s = "hann"%string \/ s = "blackman"%string.
(** The signal [x] with the straight line [a + b i] added. *)
Definition with_line (a b : R) (x : list R) : list R := map (fun i => nth i x 0 + (a + b * INR i)) (seq 0 (length x)).
(** [r] is what least squares leaves of [x] after fitting a line: it differs from [x] by a line, and is orthogonal to every line. *)
Definition off_line (x r : list R) : Prop :=
  (exists a b, x = with_line a b r) /\
  Rsum r = 0 /\ Rsum (map (fun i => INR i * nth i r 0) (seq 0 (length r))) = 0.
(** [r] is what fitting a constant leaves. *)
Definition off_mean (x r : list R) : Prop := (exists a, x = with_line a 0 r) /\ Rsum r = 0.
(** Squared size *)
Definition sq_size (x : list R) : R := Rsum (map (fun v => v ^ 2) x).
(** [n] samples of a sinusoid of amplitude [A] and phase [p], making [k] cycles in [N] samples. *)
Definition sinusoid (A p : R) (k N n : nat) : list R := map (fun i => A * cos (2 * PI * INR k * INR i / INR N + p)) (seq 0 n).
