(** Property theorems. The FFT correlation backend (C46).
    Proofs are in the X_ file of the same name. *)
From Coq Require Import String.
From Verif Require Import Prelude RealBase Fl RealStat Spec_signal M_cmv M_signal_corr P_signal P_corr P_delay P_fft X_signal_delay.
From Coq Require Import Lra Psatz.
Local Open Scope R_scope.
From Verif Require Import X_signal_fft.

(** C46. the 'fft' and 'loop' modes report the same peak and mean correlations; the fft delay is at the first maximum in the order 0,1,..,n-1,-(n-1),..,-1, and equals the loop delay when the maximum is unique *)
Theorem C46_delays_fft :
  forall dt n ins outs s, dt <> 0 -> (2 <= n)%nat ->
  length ins = length outs -> ins <> [] -> table n ins -> table n outs ->
  (s = "coeff" \/ s = "none")%string ->
  exists D D', compute_delays dt n n ins outs "loop" s = Ok D /\ compute_delays dt n n ins outs "fft" s = Ok D' /\
    d_peak D' = d_peak D /\ d_mean D' = d_mean D /\ length (d_delay D') = length ins /\
    forall i a b, nth_error ins i = Some a -> nth_error outs i = Some b ->
      exists r, correlation a b s = Ok r /\
        (Forall (fun v => exists x, v = Fin x) (fst r) -> exists L p, first_peak_wrapped n r L p) /\
        (forall L p, first_peak_wrapped n r L p ->
           (p < / 10 ^ 10 -> nth_error (d_delay D') i = Some 0) /\
           (/ 10 ^ 10 <= p -> nth_error (d_delay D') i = Some (- (IZR L * dt)))) /\
        (forall L p, single_peak r L p -> nth_error (d_delay D') i = nth_error (d_delay D) i).
Proof. exact (@delays_fft). Qed.
Print Assumptions C46_delays_fft.

(** C46. in 'fft' mode zero_corr is not a vector: 'none' gives an (r,1,1) array of the zero-lag overlaps, 'coeff' an (r,1,r) array whose [i][0][j] entry scales pair i by the factor of pair j; its diagonal is the zero_corr of 'loop' mode *)
Theorem C46_delays_fft_zero :
  forall dt n ins outs s D D' zero, dt <> 0 -> (2 <= n)%nat ->
  length ins = length outs -> ins <> [] -> table n ins -> table n outs ->
  (s = "coeff" \/ s = "none")%string ->
  compute_delays dt n n ins outs "loop" s = Ok D -> d_zero D = Flat zero ->
  compute_delays dt n n ins outs "fft" s = Ok D' ->
  exists cube, d_zero D' = Cube cube /\ length cube = length ins /\
    (s = "none"%string -> forall i z, nth_error zero i = Some z <-> nth_error cube i = Some [[z]]) /\
    (s = "coeff"%string -> forall i z, nth_error zero i = Some z ->
       exists row, nth_error cube i = Some [row] /\ length row = length ins /\ nth_error row i = Some z /\
       forall j a b a' b', nth_error ins i = Some a -> nth_error outs i = Some b ->
         nth_error ins j = Some a' -> nth_error outs j = Some b' ->
         nth_error row j = Some (fmul (Fin (lag_sum (centred a) (centred b) 0)) (fdiv (Fin 1) (Fin (INR n * Rstd a' * Rstd b'))))).
Proof. exact (@delays_fft_zero). Qed.
Print Assumptions C46_delays_fft_zero.

(** C46. a constant column under 'coeff': 'fft' mode reports delay 0 where 'loop' mode reports n-1 steps *)
Theorem C46_delays_fft_constant :
  forall dt n ins outs D' i a b, dt <> 0 -> (2 <= n)%nat ->
  length ins = length outs -> ins <> [] -> table n ins -> table n outs ->
  compute_delays dt n n ins outs "fft" "coeff" = Ok D' ->
  nth_error ins i = Some a -> nth_error outs i = Some b -> constant a \/ constant b ->
  nth_error (d_delay D') i = Some 0 /\ nth_error (d_peak D') i = Some Nan.
Proof. exact (@delays_fft_constant). Qed.
Print Assumptions C46_delays_fft_constant.

(** C46. with tied maxima the two modes disagree: opposite delays *)
Theorem C46_delays_fft_ties_refuted :
  ~ (forall dt n ins outs s D D', dt <> 0 -> (2 <= n)%nat -> length ins = length outs -> ins <> [] ->
       table n ins -> table n outs -> (s = "coeff" \/ s = "none")%string ->
       compute_delays dt n n ins outs "loop" s = Ok D -> compute_delays dt n n ins outs "fft" s = Ok D' ->
       d_delay D' = d_delay D).
Proof. exact (@delays_fft_ties_refuted). Qed.
Print Assumptions C46_delays_fft_ties_refuted.

(** C46. _fftcorrelate without scaling returns for every pair exactly the curve of correlation *)
Theorem C46_fft_curves :
  forall n ins outs, (0 < n)%nat -> length ins = length outs -> table n ins -> table n outs ->
  exists rows lags, fftcorrelate n n ins outs "none" = Ok (rows, lags) /\ length rows = length ins /\
    forall i a b, nth_error ins i = Some a -> nth_error outs i = Some b ->
      exists row, nth_error rows i = Some row /\ correlation a b "none" = Ok (row, lags).
Proof. exact (@fft_curves). Qed.
Print Assumptions C46_fft_curves.

(** C46. with 'coeff' it does so for a single pair *)
Theorem C46_fft_curve_coeff_one :
  forall n a b, (0 < n)%nat -> length a = n -> length b = n ->
  exists row lags, fftcorrelate n n [a] [b] "coeff" = Ok ([row], lags) /\ correlation a b "coeff" = Ok (row, lags).
Proof. exact (@fft_curve_coeff_one). Qed.
Print Assumptions C46_fft_curve_coeff_one.

(** C46. with 'coeff' it refuses two or more pairs, unless there happen to be exactly as many pairs as lags *)
Theorem C46_fft_curve_coeff_many :
  forall n ins outs, (2 <= n)%nat -> length ins = length outs ->
  (2 <= length ins)%nat -> length ins <> (2 * n - 1)%nat -> table n ins -> table n outs ->
  fftcorrelate n n ins outs "coeff" = Err ValueError.
Proof. exact (@fft_curve_coeff_many). Qed.
Print Assumptions C46_fft_curve_coeff_many.

(** C46. and then the curve of pair i is scaled, at each lag, by the factor of another pair: the one whose position is that lag's place in the order 0,1,..,n-1,-(n-1),..,-1 *)
Theorem C46_fft_curve_coeff_coincidence :
  forall n ins outs, (2 <= n)%nat -> length ins = length outs ->
  length ins = (2 * n - 1)%nat -> table n ins -> table n outs ->
  exists rows lags, fftcorrelate n n ins outs "coeff" = Ok (rows, lags) /\
    forall i a b L v, nth_error ins i = Some a -> nth_error outs i = Some b -> lag_of n n L ->
      (exists row, nth_error rows i = Some row /\ at_lag (row, lags) L v) <->
      (exists a' b', nth_error ins (Z.to_nat (wrapped n L)) = Some a' /\ nth_error outs (Z.to_nat (wrapped n L)) = Some b' /\
        v = fmul (Fin (lag_sum (centred a) (centred b) L)) (fdiv (Fin 1) (Fin (INR n * Rstd a' * Rstd b')))).
Proof. exact (@fft_curve_coeff_coincidence). Qed.
Print Assumptions C46_fft_curve_coeff_coincidence.

(** C46. refusals of 'fft' mode and of _fftcorrelate: different numbers of columns or rows, unknown scaling *)
Theorem C46_fft_refused :
  forall dt n m ins outs s, (2 <= n)%nat ->
  (length ins <> length outs \/ n <> m ->
    compute_delays dt n m ins outs "fft" "none" = Err ValueError /\ fftcorrelate n m ins outs "none" = Err ValueError /\
    compute_delays dt n m ins outs "fft" "coeff" = Err ValueError /\ fftcorrelate n m ins outs "coeff" = Err ValueError) /\
  (s <> "coeff"%string -> s <> "none"%string -> fftcorrelate n m ins outs s = Err ValueError).
Proof. exact (@fft_refused). Qed.
Print Assumptions C46_fft_refused.

(** C46. two pairs, delays +2 and -1 steps of 5 s in both modes *)
Example C46_fft_ex :
  table 3 fft_demo_in /\ table 3 fft_demo_out /\
  exists D D', compute_delays 5 3 3 fft_demo_in fft_demo_out "loop" "none" = Ok D /\
    compute_delays 5 3 3 fft_demo_in fft_demo_out "fft" "none" = Ok D' /\
    d_delay D = [10; -5] /\ d_delay D' = [10; -5] /\ d_peak D' = [Fin 1; Fin 4].
Proof. exact (@fft_ex). Qed.

