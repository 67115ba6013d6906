(** Property theorems. Tables of different shapes in compute_delays (C87).
    Proofs are in the X_ file of the same name. *)
From Coq Require Import String.
From Verif Require Import Prelude RealBase Fl RealStat Spec_signal M_cmv M_signal_corr P_signal P_corr P_delay P_fft X_signal_delay X_signal_fft.
From Coq Require Import Lra Psatz.
Local Open Scope R_scope.
From Verif Require Import X_signal_shape.

(** C87. two equal first time stamps: 'loop' mode raises ValueError whatever the scaling, 'fft' mode answers, with delay 0 for every pair *)
Theorem C87_no_step :
  forall n ins outs, (2 <= n)%nat -> ins <> [] -> outs <> [] -> table n ins -> table n outs -> forall scaling,
  compute_delays 0 n n ins outs "loop" scaling = Err ValueError /\
  forall D, compute_delays 0 n n ins outs "fft" scaling = Ok D -> Forall (fun d => d = 0) (d_delay D).
Proof. exact (@no_step). Qed.
Print Assumptions C87_no_step.

(** C87. more columns in the second table than in the first: 'loop' mode stops with IndexError ('none') *)
Theorem C87_more_columns :
  forall dt n ins outs, dt <> 0 -> (2 <= n)%nat -> (length ins < length outs)%nat ->
  table n ins -> table n outs -> compute_delays dt n n ins outs "loop" "none" = Err IndexError.
Proof. exact (@more_columns). Qed.
Print Assumptions C87_more_columns.

(** C87. fewer columns in the second table, scaling 'none': accepted; every unmatched column is silently reported with delay 0 and zero metrics, the matched ones as usual *)
Theorem C87_fewer_columns :
  forall dt n ins outs, dt <> 0 -> (2 <= n)%nat -> (length outs < length ins)%nat -> outs <> [] ->
  table n ins -> table n outs ->
  exists D zero, compute_delays dt n n ins outs "loop" "none" = Ok D /\ d_zero D = Flat zero /\
    length (d_delay D) = length ins /\
    (forall i, (length outs <= i < length ins)%nat -> nth_error (d_delay D) i = Some 0 /\
       nth_error (d_peak D) i = Some (Fin 0) /\ nth_error (d_mean D) i = Some (Fin 0) /\ nth_error zero i = Some (Fin 0)) /\
    (forall i a b, nth_error ins i = Some a -> nth_error outs i = Some b ->
       exists d p, xcorr_delay dt a b "none" = Ok (d, Fin p) /\ nth_error (d_peak D) i = Some (Fin p) /\
       nth_error (d_delay D) i = Some (if Rltb p (/ 10 ^ 10) then 0 else d)).
Proof. exact (@fewer_columns). Qed.
Print Assumptions C87_fewer_columns.

(** C87. under 'coeff' a different number of columns is refused (ValueError), except one column on either side *)
Theorem C87_coeff_columns :
  forall dt n m ins outs mode, (2 <= n)%nat -> length ins <> length outs ->
  length ins <> 1%nat -> length outs <> 1%nat -> compute_delays dt n m ins outs mode "coeff" = Err ValueError.
Proof. exact (@coeff_columns). Qed.
Print Assumptions C87_coeff_columns.

(** C87. a single second column under 'coeff' is accepted against any number of first columns, and all but the first of these get delay 0 *)
Theorem C87_coeff_one_out :
  forall dt n ins b, dt <> 0 -> (2 <= n)%nat -> (2 <= length ins)%nat -> table n ins -> length b = n ->
  exists D, compute_delays dt n n ins [b] "loop" "coeff" = Ok D /\ length (d_delay D) = length ins /\
    (forall i, (1 <= i < length ins)%nat -> nth_error (d_delay D) i = Some 0) /\
    (forall i a, (1 <= i)%nat -> nth_error ins i = Some a -> ~ constant a -> ~ constant b -> nth_error (d_peak D) i = Some (Fin 0)) /\
    (forall i a, (1 <= i)%nat -> nth_error ins i = Some a -> constant a \/ constant b -> nth_error (d_peak D) i = Some Nan).
Proof. exact (@coeff_one_out). Qed.
Print Assumptions C87_coeff_one_out.

(** C87. a second table with fewer rows is accepted in 'loop' mode ('none'): every delay is reported (n-m) steps too large *)
Theorem C87_fewer_rows :
  forall dt n m ins outs, dt <> 0 -> (2 <= n)%nat -> (0 < m <= n)%nat -> length ins = length outs -> ins <> [] ->
  table n ins -> table m outs ->
  exists D, compute_delays dt n m ins outs "loop" "none" = Ok D /\ length (d_delay D) = length ins /\
    forall i a b, nth_error ins i = Some a -> nth_error outs i = Some b ->
      exists d p, xcorr_delay dt a b "none" = Ok (d, Fin p) /\ nth_error (d_peak D) i = Some (Fin p) /\
        (/ 10 ^ 10 <= p -> nth_error (d_delay D) i = Some (d + INR (n - m) * dt)) /\
        (p < / 10 ^ 10 -> nth_error (d_delay D) i = Some 0).
Proof. exact (@fewer_rows). Qed.
Print Assumptions C87_fewer_rows.

(** C87. a second table with more rows: the delay is (m-n) steps too small, or IndexError when the best lag lies past the first table's lags *)
Theorem C87_more_rows :
  forall dt n m a b, dt <> 0 -> (2 <= n)%nat -> (n < m)%nat -> length a = n -> length b = m ->
  exists L p, xcorr_delay dt a b "none" = Ok (- (IZR L * dt), Fin p) /\
    ((2 * Z.of_nat n <= L + Z.of_nat m)%Z -> compute_delays dt n m [a] [b] "loop" "none" = Err IndexError) /\
    ((L + Z.of_nat m < 2 * Z.of_nat n)%Z -> / 10 ^ 10 <= p ->
       exists D, compute_delays dt n m [a] [b] "loop" "none" = Ok D /\ d_delay D = [- (IZR L * dt) - INR (m - n) * dt] /\ d_peak D = [Fin p]).
Proof. exact (@more_rows). Qed.
Print Assumptions C87_more_rows.

(** C87. a record of 4 samples against the same pulse in a record of 2: the true delay is 0, reported as 2 steps *)
Example C87_shape_ex :
  xcorr_delay 1 [1; 0; 0; 0] [1; 0] "none" = Ok (- (IZR 0 * 1), Fin 1) /\
  exists D, compute_delays 1 4 2 [[1; 0; 0; 0]] [[1; 0]] "loop" "none" = Ok D /\ d_delay D = [2].
Proof. exact (@shape_ex). Qed.

