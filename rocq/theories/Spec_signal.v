(** Independent vocabulary for the signal-processing properties. *)
From Coq Require Import String.
From Verif Require Import Prelude RealBase Fl.
Local Open Scope R_scope.

(** Sample at an integer position; 0 outside the record. *)
Definition at0 (a : list R) (i : Z) : R :=
  if (Z.ltb i 0 || Z.leb (Z.of_nat (length a)) i)%bool then 0 else nth (Z.to_nat i) a 0.
(** The overlap sum at lag [L]: the sum over [n] of a[n+L] * b[n]. *)
Definition lag_sum (a b : list R) (L : Z) : R :=
  Rsum (map (fun n => at0 a (Z.of_nat n + L) * at0 b (Z.of_nat n)) (seq 0 (length b))).
(** Energy of a signal. *)
Definition energy (a : list R) : R := Rsum (map (fun x => x ^ 2) a).
(** Deviations from the mean. *)
Definition centred (a : list R) : list R := map (fun x => x - Rmean a) a.
Definition constant (a : list R) : Prop := forall x y, In x a -> In y a -> x = y.
(** Pearson's correlation coefficient of two equally long signals. *)
Definition pearson (a b : list R) : R :=
  lag_sum (centred a) (centred b) 0 / (sqrt (energy (centred a)) * sqrt (energy (centred b))).
(** [v] at lag [L] in a result (values, lags). *)
Definition at_lag (r : list fl * list Z) (L : Z) (v : fl) : Prop :=
  exists k, nth_error (snd r) k = Some L /\ nth_error (fst r) k = Some v.
(** All lags of two signals of lengths [n], [m]: -(m-1) .. n-1. *)
Definition lag_of (n m : nat) (L : Z) : Prop := (- Z.of_nat m < L < Z.of_nat n)%Z.
(** [b] is [a] delayed by [s] samples, with everything non-zero still inside the record. *)
Definition delayed_by (a b : list R) (s : Z) : Prop :=
  length b = length a /\
  (forall n, (n < length a)%nat -> at0 b (Z.of_nat n) = at0 a (Z.of_nat n - s)) /\
  (forall i, at0 a i <> 0 -> (0 <= i + s < Z.of_nat (length a))%Z).
(** The documented scaling names (and 'none'). *)
Definition known_scaling (s : string) : Prop :=
  In s ["energy"; "coeff"; "unbiased_energy"; "unbiased_coeff"; "none"]%string.
(** Mean of extended floats (NaN-propagating). *)
Definition fl_mean (l : list fl) : fl := fdiv (fold_right fadd (Fin 0) l) (Fin (INR (length l))).
(** A table of [n] rows given by its columns. *)
Definition table (n : nat) (cols : list (list R)) : Prop := Forall (fun c => length c = n) cols.
(** [L] is the first lag (the largest delay) at which curve [r] is largest; [p] its value there. *)
Definition first_peak (r : list fl * list Z) (L : Z) (p : R) : Prop :=
  at_lag r L (Fin p) /\
  forall L' v, at_lag r L' v -> exists x, v = Fin x /\ x <= p /\ (x = p -> (L <= L')%Z).
(** [L] is where curve [r] is largest when the lags are visited in the order 0, 1, .., n-1, -(n-1), .., -1. *)
Definition wrapped (n : nat) (L : Z) : Z := if Z.ltb L 0 then (L + (2 * Z.of_nat n - 1))%Z else L.
Definition first_peak_wrapped (n : nat) (r : list fl * list Z) (L : Z) (p : R) : Prop :=
  at_lag r L (Fin p) /\
  forall L' v, at_lag r L' v -> exists x, v = Fin x /\ x <= p /\ (x = p -> (wrapped n L <= wrapped n L')%Z).
(** The curve has a single maximum, at [L]. *)
Definition single_peak (r : list fl * list Z) (L : Z) (p : R) : Prop :=
  at_lag r L (Fin p) /\ forall L' v, at_lag r L' v -> L' <> L -> exists x, v = Fin x /\ x < p.
