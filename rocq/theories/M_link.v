(** compute_cmv (cmv.py) joined to the delay estimators of
    signalproc.py that they call, so that no delay figure is left as a parameter. What remains a
    parameter: scipy's window vectors, detrending, least-squares solvers and scalar minimiser. *)
From Coq Require Import String.
From Verif Require Import Prelude RealBase Fl RealStat M_spatial M_cmv M_signal_corr M_signal_tf M_field_pos.
From Verif Require M_cmv M_signal_corr.
Local Open Scope R_scope.

(** A signal without NaN samples. *)
Definition complete (s : list (option R)) : bool :=
  forallb (fun x => match x with Some _ => true | None => false end) s.
(** The two columns of one pair as numbers. A NaN sample in either makes every correlation and every
    spectral estimate of the pair NaN (np.mean and np.std of the column, the DFT of its segments), which
    is what two columns of zeros give: 0 * (1/0) and 0/0 are NaN, too, and the largest of an all-NaN row
    and of an all-zero row is the first. So an incomplete pair is represented by two zero columns. *)
Definition usable_pair (n : nat) (p : list (option R) * list (option R)) : list R * list R :=
  if (complete (fst p) && complete (snd p))%bool then (present (fst p), present (snd p)) else (repeat 0 n, repeat 0 n).
Definition usable_pairs (n : nat) (A B : list (list (option R))) : list (list R * list R) :=
  map (usable_pair n) (combine A B).
(** The number of leading rows that Welch's segments read (signalproc.py:299-311): all up to the end of the last segment. *)
Definition rows_read (n : nat) (navgs : Z) (overlap : R) : nat :=
  match segmenting n navgs overlap with
  | Ok (nperseg, noverlap) =>
      Z.to_nat (nperseg + (Z.of_nat (n_segments (Z.of_nat n) nperseg noverlap) - 1) * (nperseg - noverlap))
  | Err _ => n
  end.
(** The same for the spectral estimates: only a NaN among the [k] rows the segments read matters. Rows behind them are never
    read, so that any number may stand for a NaN there. *)
Definition filled (s : list (option R)) : list R := map (fun x => match x with Some v => v | None => 0 end) s.
Definition seen_pair (k n : nat) (p : list (option R) * list (option R)) : list R * list R :=
  if (complete (firstn k (fst p)) && complete (firstn k (snd p)))%bool then (filled (fst p), filled (snd p)) else (repeat 0 n, repeat 0 n).
Definition seen_pairs (k n : nat) (A B : list (list (option R))) : list (list R * list R) :=
  map (seen_pair k n) (combine A B).
(** A correlation figure of each pair: NaN if there is a NaN anywhere in the pair. *)
Definition blanked (A B : list (list (option R))) (figures : list fl) : list fl :=
  map2 (fun p v => if (complete (fst p) && complete (snd p))%bool then v else Nan) (combine A B) figures.
Definition of_option (d : option R) : fl := match d with Some v => Fin v | None => Nan end.

(** cmv.py:255-256 compute_delays(A, B, 'loop', scaling='coeff'), tables of [n] rows with time step [dt] *)
Definition xcorr_backend (dt : R) (n : nat) (A B : list (list (option R))) : result delay_out :=
  let ps := usable_pairs n A B in
  let! D := compute_delays dt n n (map fst ps) (map snd ps) "loop" "coeff" in
  Ok (mkDelay (map Fin (M_signal_corr.d_delay D)) (M_signal_corr.d_peak D) (M_signal_corr.d_mean D)
        (match M_signal_corr.d_zero D with Flat z => Some z | Cube _ => None end) None).

Section Tf.
  Variable leastsq : (list R -> list R) -> list R -> list R.
  Variable win : string -> nat -> list R.
  Variable dtr : string -> list R -> list R.
  (** cmv.py:258-261 compute_delays_tf(A, B, navgs=5, coh_limit=0.6, freq_limit=0.02, method='multi',
      overlap=0.5, window='hamming', compute_xcorr=True). Column labels only name the columns of
      intermediate tables, which method 'multi' never selects by name. *)
  Definition tf_backend (dt : R) (n : nat) (A B : list (list (option R))) : result delay_out :=
    let ps := seen_pairs (rows_read n 5 (1 / 2)) n A B in
    let named := map (pair ""%string) in
    let! (delay, ex) := compute_delays_tf leastsq win dtr dt n (named (map fst ps)) (named (map snd ps))
                          5 (Some (6 / 10)) (Some (2 / 100)) "multi" (1 / 2) "hamming" true in
    match te_xcorr ex with
    | Some (pk, mn, zr) => Ok (mkDelay (map of_option delay) (blanked A B pk) (blanked A B mn) (Some (blanked A B zr)) (Some (map of_option (te_coh ex))))
    | None => Err KeyError   (* extras['peak_corr'] *)
    end.

  Variable minimize_scalar : (R -> fl) -> R.
  Variable leastsq2 : (R -> R -> list fl) -> fl * fl.
  Context {K : Type} `{Label K}.
  (** cmv.py:133-395 compute_cmv on a table of [n] rows with time step [dt] *)
  Definition cmv (dt : R) (n : nat) := compute_cmv (K := K) (xcorr_backend dt n) (tf_backend dt n) minimize_scalar leastsq2.
End Tf.
