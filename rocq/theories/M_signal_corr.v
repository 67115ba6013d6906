(** Model of src/solarspatialtools/signalproc.py, cross-correlation part: correlation, _fftcorrelate,
    xcorr_delay, compute_delays. Samples are finite reals; results are extended floats because the
    scalings may divide by zero. Signals are non-empty lists (scipy rejects empty ones). *)
From Coq Require Import String.
From Verif Require Import Prelude RealBase Fl RealStat Dft M_cmv.
From Coquelicot Require Import Complex.
Local Open Scope R_scope.

(** ** scipy / numpy primitives *)

(** Sum of two arrays of possibly different lengths (missing entries count as 0); used for [convolve]. *)
Fixpoint padded_add (a b : list R) : list R :=
  match a, b with
  | [], _ => b
  | _, [] => a
  | x :: a', y :: b' => x + y :: padded_add a' b'
  end.
(** scipy.signal.convolve(a, b), mode 'full' (product of the polynomials with these coefficients). *)
Fixpoint convolve (a b : list R) : list R :=
  match a with
  | [] => []
  | x :: a' => padded_add (map (fun y => x * y) b) (match a' with [] => [] | _ => 0 :: convolve a' b end)
  end.
(** scipy.signal.correlate(a, b), mode 'full': convolution with the reversed second signal. The choice
    between the direct and the FFT method changes rounding only and is not modelled. *)
Definition correlate (a b : list R) : list R := convolve a (rev b).
(** scipy.signal.correlation_lags(n, m): np.arange(-m + 1, n). *)
Definition correlation_lags (n m : nat) : list Z :=
  map (fun k => (Z.of_nat k - Z.of_nat (m - 1))%Z) (seq 0 (n + m - 1)).
(** x - np.mean(x) *)
Definition demean (x : list R) : list R := map (fun v => v - Rmean x) x.
(** np.argmax of finite values: first index of the largest entry. *)
Fixpoint argmax_from (best : nat) (bv : R) (i : nat) (l : list R) : nat :=
  match l with
  | [] => best
  | v :: r => if Rltb bv v then argmax_from i v (S i) r else argmax_from best bv (S i) r
  end.
Definition argmax (l : list R) : nat :=
  match l with [] => O | v :: r => argmax_from O v 1%nat r end.
(** np.argmax with NaN: the first NaN wins, otherwise the first largest entry. *)
Fixpoint fargmax_from (best : nat) (bv : fl) (i : nat) (l : list fl) : nat :=
  match l with
  | [] => best
  | v :: r => if (negb (is_nan bv) && (is_nan v || fltb bv v))%bool then fargmax_from i v (S i) r
              else fargmax_from best bv (S i) r
  end.
Definition fargmax (l : list fl) : nat :=
  match l with [] => O | v :: r => fargmax_from O v 1%nat r end.

(** ** correlation *)

(** signalproc.py:73-74, 80-81 scale = (len(baseline) - |lags|) / len(baseline); corr /= scale *)
Definition unbias (n : nat) (corr : list fl) (lags : list Z) : list fl :=
  map2 (fun c l => fdiv c (Fin ((INR n - Rabs (IZR l)) / INR n))) corr lags.
(** signalproc.py:61-63 *)
Definition energy_scaled (a b : list R) : list fl :=
  map (fun c => fdiv (Fin c) (Fin (Rmax_of (correlate a a)))) (correlate a b).
(** signalproc.py:65-68 *)
Definition coeff_scaled (a b : list R) : list fl :=
  map (fun c => fdiv (Fin c) (Fin (INR (length a) * (Rstd a * Rstd b)))) (correlate (demean a) (demean b)).
(** signalproc.py:11-87 correlation *)
Definition correlation (baseline estimation : list R) (scaling : string) : result (list fl * list Z) :=
  let lags := correlation_lags (length baseline) (length estimation) in
  let n := length baseline in
  let s := lower scaling in
  if String.eqb s "energy" then Ok (energy_scaled baseline estimation, lags)
  else if String.eqb s "coeff" then Ok (coeff_scaled baseline estimation, lags)
  else if String.eqb s "unbiased_energy" then Ok (unbias n (energy_scaled baseline estimation) lags, lags)
  else if String.eqb s "unbiased_coeff" then Ok (unbias n (coeff_scaled baseline estimation) lags, lags)
  else if String.eqb s "none" then Ok (map Fin (correlate baseline estimation), lags)
  else Err ValueError.

(** ** xcorr_delay *)
(** signalproc.py:535-578. The index of [ts_in] enters only through [dt], the time between its first two
    stamps (IndexError for a single row). *)
Definition xcorr_delay (dt : R) (ts_in ts_out : list R) (scaling : string) : result (R * fl) :=
  let! cl := correlation ts_in ts_out scaling in
  if Nat.ltb (length ts_in) 2 then Err IndexError
  else
    let k := fargmax (fst cl) in
    Ok (- (IZR (nth k (snd cl) 0%Z) * dt), nth k (fst cl) Nan).

(** ** compute_delays *)

(** [zero_corr] is a vector in mode 'loop' but, through [corrxy[:, np.where(..)] * corr_scale], a
    three-dimensional array in mode 'fft'. *)
Inductive zero_arr : Type := Flat (l : list fl) | Cube (l : list (list (list fl))).
Record delays : Type := mkDelays {
  d_delay : list R; d_peak : list fl; d_mean : list fl; d_zero : zero_arr }.

(** numpy broadcasting of two vectors of scale factors. *)
Definition bcast2 (f : R -> R -> fl) (a b : list R) : result (list fl) :=
  if Nat.eqb (length a) (length b) then Ok (map2 f a b)
  else match a, b with
       | [x], _ => Ok (map (f x) b)
       | _, [y] => Ok (map (fun x => f x y) a)
       | _, _ => Err ValueError
       end.
(** x ** -1 for floats *)
Definition finv (x : R) : fl := fdiv (Fin 1) (Fin x).
(** signalproc.py:641-653 and 134-146: the rows to correlate and the scale factors ([None] is the scalar
    1 of scaling 'none'). [n] is the number of samples per row of the first table. *)
Definition scale_rows (n : nat) (ins outs : list (list R)) (scaling : string)
  : result (list (list R) * list (list R) * option (list fl)) :=
  if String.eqb scaling "coeff" then
    let ins' := map demean ins in
    let outs' := map demean outs in
    let! sc := bcast2 (fun a b => finv (INR n * a * b)) (map Rstd ins') (map Rstd outs') in
    Ok (ins', outs', Some sc)
  else if String.eqb scaling "none" then Ok (ins, outs, None)
  else Err ValueError.
(** extras[..] *= corr_scale: in-place, so the result must keep the shape of the left operand. *)
Definition mul_inplace (v : list R) (sc : option (list fl)) : result (list fl) :=
  match sc with
  | None => Ok (map Fin v)
  | Some s => if Nat.eqb (length v) (length s) then Ok (map2 (fun x k => fmul (Fin x) k) v s)
              else match s with
                   | [k] => Ok (map (fun x => fmul (Fin x) k) v)
                   | _ => Err ValueError
                   end
  end.
(** v * corr_scale where [v] is the last axis of a larger array: numpy stretches either side of length 1. *)
Definition mul_last (v : list R) (sc : option (list fl)) : result (list fl) :=
  match sc with
  | None => Ok (map Fin v)
  | Some s => if Nat.eqb (length v) (length s) then Ok (map2 (fun x k => fmul (Fin x) k) v s)
              else match v, s with
                   | _, [k] => Ok (map (fun x => fmul (Fin x) k) v)
                   | [x], _ => Ok (map (fun k => fmul (Fin x) k) s)
                   | _, _ => Err ValueError
                   end
  end.
(** signalproc.py:707-708 delay[extras['peak_corr'] < 1e-10] = 0 *)
Definition quiet_to_zero (delay : list R) (peak : list fl) : list R :=
  map2 (fun d p => if fltb p (Fin (/ 10 ^ 10)) then 0 else d) delay peak.
(** np.where(lags == 0) for the lags of 620-622 (lags * dt) *)
Definition zero_index (lags : list R) : list nat :=
  map fst (filter (fun p => Reqb (snd p) 0) (combine (seq 0 (length lags)) lags)).

(** signalproc.py:661-672: one turn of the loop over pairs; the values written into delay, peak, mean,
    zero. IndexError when the peak position lies past the lags (second table longer than the first) or
    row i is missing from the first table; ValueError from .item() unless there is exactly one zero lag. *)
Definition loop_row (lags : list R) (a b : list R) : result (R * R * R * R) :=
  let x := correlate a b in
  let k := argmax x in
  if Nat.leb (length lags) k then Err IndexError
  else match zero_index lags with
       | [z] => if Nat.leb (length x) z then Err IndexError
                else Ok (- nth k lags 0, nth k x 0, Rmean x, nth z x 0)
       | _ => Err ValueError
       end.
(** The loop over the rows of the second table, writing into arrays sized by the first; rows of the first
    table without partner keep their initial 0. *)
Fixpoint loop_rows (lags : list R) (ins outs : list (list R)) : result (list (R * R * R * R)) :=
  match outs, ins with
  | [], _ => Ok (map (fun _ => (0, 0, 0, 0)) ins)
  | _ :: _, [] => Err IndexError
  | b :: outs', a :: ins' =>
      let! r := loop_row lags a b in
      let! rs := loop_rows lags ins' outs' in
      Ok (r :: rs)
  end.

(** One row of signalproc.py:681-694: zero-pad both to 2n-1 and invert the product of spectra. *)
Definition fft_xcorr (n : nat) (a b : list R) : list R :=
  let pad := repeat 0 (2 * n - 1 - n) in
  let fa := fft (map RtoC (a ++ pad)) in
  let fb := fft (map RtoC (b ++ pad)) in
  map fst (ifft (map2 (fun x y => Cmult x (Cconj y)) fa fb)).
(** np.roll(l, -s) for 0 <= s <= len l, and np.roll(l, s) *)
Definition roll_left {A} (s : nat) (l : list A) : list A := skipn s l ++ firstn s l.
Definition roll_right {A} (s : nat) (l : list A) : list A :=
  skipn (length l - s) l ++ firstn (length l - s) l.

(** signalproc.py:581-710 compute_delays. Tables are lists of columns; [n], [m] are the row counts of the
    two tables (every column of a table has that length), [dt] the first time step of the first. *)
Definition compute_delays (dt : R) (n m : nat) (ins outs : list (list R)) (mode scaling : string)
  : result delays :=
  if Nat.ltb n 2 then Err IndexError
  else
    let lags := map (fun l => IZR l * dt) (correlation_lags n n) in
    let! (ins', outs', sc) := scale_rows n ins outs scaling in
    if String.eqb mode "loop" then
      match ins', outs' with
      | [], _ | _, [] => Err IndexError
      | _, _ =>
          let! rows := loop_rows lags ins' outs' in
          let! peak := mul_inplace (map (fun r => snd (fst (fst r))) rows) sc in
          let! mean := mul_inplace (map (fun r => snd (fst r)) rows) sc in
          let! zero := mul_inplace (map snd rows) sc in
          Ok (mkDelays (quiet_to_zero (map (fun r => fst (fst (fst r))) rows) peak) peak mean (Flat zero))
      end
    else if String.eqb mode "fft" then
      (* concatenation needs equally many rows, the product equally long ones *)
      if negb (Nat.eqb (length ins') (length outs') && Nat.eqb n m) then Err ValueError
      else
        let lags := roll_left (n - 1) lags in
        let corr := map2 (fft_xcorr n) ins' outs' in
        let ks := map argmax corr in
        let! peak := mul_inplace (map2 (fun row k => nth k row 0) corr ks) sc in
        let! mean := mul_inplace (map Rmean corr) sc in
        let delay := map (fun k => - nth k lags 0) ks in
        let! zero := mapM (fun row => rmap (fun v => [v])
                             (mul_last (map (fun z => nth z row 0) (zero_index lags)) sc)) corr in
        Ok (mkDelays (quiet_to_zero delay peak) peak mean (Cube zero))
    else Err ValueError.

(** ** _fftcorrelate *)
(** signalproc.py:90-161. [corrxy * corr_scale] multiplies a (rows x lags) array by a vector of one
    factor per row, which numpy aligns with the LAST axis.
    Simplification: a one-sample first table against a longer second table is refused here (numpy would
    stretch the single spectrum bin). *)
Definition fftcorrelate (n m : nat) (ins outs : list (list R)) (scaling : string)
  : result (list (list fl) * list Z) :=
  let lags := correlation_lags n m in
  let! (ins', outs', sc) := scale_rows n ins outs scaling in
  if negb (Nat.eqb (length ins') (length outs') && Nat.eqb n m) then Err ValueError
  else
    let nl := (2 * n - 1)%nat in
    let! corr := mapM (fun row => mul_last row sc) (map2 (fft_xcorr n) ins' outs') in
    Ok (map (roll_right (nl / 2)) corr, lags).
