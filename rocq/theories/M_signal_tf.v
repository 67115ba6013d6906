(** Model of src/solarspatialtools/signalproc.py, transfer-function part: averaged_psd, averaged_tf,
    interp_tf, tf_delay, compute_delays_tf, apply_delay.
    scipy's window vectors, detrending and the two least-squares solvers are parameters; Welch's method
    itself (segmenting, windowed DFT, averaging, one-sided scaling) is modelled by its defining sums.
    Samples are finite reals; [None] in a complex or coherence entry is NaN. *)
From Coq Require Import String.
From Verif Require Import Prelude RealBase Fl RealStat Dft Phase M_cmv M_signal_corr.
From Coquelicot Require Import Complex.
Local Open Scope R_scope.

(** A pandas object holding signals: a Series, a DataFrame (columns), or something else (ndarray, list).
    Column labels are the strings an f-string prints; a Series carries the label of the column
    pd.DataFrame(series) gets. *)
Inductive tsig := Ser (name : string) (x : list R) | Frame (cols : list (string * list R)) | Other.

(** int(v) for a float: truncation towards zero *)
Definition trunc (v : R) : Z := if Rlt_dec v 0 then (- Int_part (- v))%Z else Int_part v.

Section Welch.
(** scipy.signal.get_window(window, n) *)
Variable win : string -> nat -> list R.
(** the detrending function of one segment for the detrend argument ([None] passes data through) *)
Variable dtr : string -> list R -> list R.
Definition detrended (d : option string) (seg : list R) : list R :=
  match d with None => seg | Some s => dtr s seg end.

(** scipy segmenting: step nperseg - noverlap, as many whole segments as fit. *)
Definition n_segments (n nperseg noverlap : Z) : nat := Z.to_nat ((n - noverlap) / (nperseg - noverlap)).
Definition segment (x : list R) (nperseg noverlap : Z) (s : nat) : list R :=
  firstn (Z.to_nat nperseg) (skipn (Z.to_nat (Z.of_nat s * (nperseg - noverlap))) x).
(** DFT bin [k] of the windowed, detrended segment [s]. *)
Definition seg_bin (window : string) (d : option string) (x : list R) (nperseg noverlap : Z) (s k : nat) : C :=
  fft_bin (map RtoC (map2 Rmult (win window (Z.to_nat nperseg)) (detrended d (segment x nperseg noverlap s)))) k.
(** Number of one-sided bins, their frequencies (np.fft.rfftfreq), and the one-sided doubling. *)
Definition n_bins (nperseg : Z) : nat := Z.to_nat (nperseg / 2 + 1).
Definition bin_freq (fs : R) (nperseg : Z) (k : nat) : R := INR k * fs / IZR nperseg.
Definition dbl (nperseg : Z) (k : nat) : R :=
  if (Nat.eqb k 0 || (Z.even nperseg && Nat.eqb k (Z.to_nat (nperseg / 2))))%bool then 1 else 2.
(** scaling='density' or 'spectrum' *)
Definition psd_scale (fs : R) (window : string) (nperseg : Z) (scaling : string) : result R :=
  let w := win window (Z.to_nat nperseg) in
  if String.eqb scaling "density" then Ok (/ (fs * Rsum (map (fun v => v ^ 2) w)))
  else if String.eqb scaling "spectrum" then Ok (/ (Rsum w) ^ 2)
  else Err ValueError.
(** scipy.signal.csd of two equally long real signals at bin [k]: the mean over segments of conj(X) Y. *)
Definition csd_bin (scale : R) (window : string) (d : option string) (x y : list R) (nperseg noverlap : Z) (k : nat) : C :=
  let K := n_segments (Z.of_nat (length x)) nperseg noverlap in
  Cmult (RtoC (dbl nperseg k * scale / INR K))
        (Csumn K (fun s => Cmult (Cconj (seg_bin window d x nperseg noverlap s k)) (seg_bin window d y nperseg noverlap s k))).
(** scipy.signal.welch: the real part of csd(x, x). *)
Definition psd_bin (scale : R) (window : string) (d : option string) (x : list R) (nperseg noverlap : Z) (k : nat) : R :=
  fst (csd_bin scale window d x x nperseg noverlap k).
(** signalproc.py:208-209, 299-300 and the checks scipy makes on them. [n] is the number of rows,
    ZeroDivisionError is the int // 0 of Python. *)
Definition segmenting (n : nat) (navgs : Z) (overlap : R) : result (Z * Z) :=
  if Z.eqb navgs 0 then Err ZeroDivisionError
  else
    let nperseg := (Z.of_nat n / navgs)%Z in
    let noverlap := trunc (IZR nperseg * overlap) in
    if (Z.ltb nperseg 1 || Z.leb nperseg noverlap)%bool then Err ValueError else Ok (nperseg, noverlap).
(** The preamble common to both: index[1] needs two rows, 1/dt a non-zero step. *)
Definition sample_rate (dt : R) (n : nat) : result R :=
  if Nat.ltb n 2 then Err IndexError else if Reqb dt 0 then Err ZeroDivisionError else Ok (1 / dt).

(** scipy answers a table without columns with a two-dimensional frequency array, which pandas refuses as an index
    (signalproc.py:215, 323-324). *)
Definition some_column {A} (cols : list A) : result unit := match cols with [] => Err ValueError | _ => Ok tt end.

(** signalproc.py:164-215 averaged_psd; [dt], [n] are step and number of rows of the index.
    The Series case (198-200) re-calls without passing scaling on. Result: frequencies and named columns. *)
Definition psd_frame (dt : R) (n : nat) (cols : list (string * list R)) (navgs : Z) (overlap : R)
    (window : string) (d : option string) (scaling : string) : result (list R * list (string * list R)) :=
  let! fs := sample_rate dt n in
  let! (nperseg, noverlap) := segmenting n navgs overlap in
  let! sc := psd_scale fs window nperseg scaling in
  let! _ := some_column cols in
  Ok (map (bin_freq fs nperseg) (seq 0 (n_bins nperseg)),
      map (fun c => (fst c, map (psd_bin sc window d (snd c) nperseg noverlap) (seq 0 (n_bins nperseg)))) cols).
Definition averaged_psd (dt : R) (n : nat) (x : tsig) (navgs : Z) (overlap : R)
    (window : string) (d : option string) (scaling : string) : result (list R * list (string * list R)) :=
  match x with
  | Ser nm v => psd_frame dt n [(nm, v)] navgs overlap window d "density"
  | Frame cols => psd_frame dt n cols navgs overlap window d scaling
  | Other => Err OtherError
  end.

(** signalproc.py:284-297: names and pairs of columns. *)
Definition pair_name (a b : string) : string := (a ++ "_" ++ b)%string.
Definition pair_columns (ins outs : list (string * list R)) : result (list (string * (list R * list R))) :=
  let mk a b := (pair_name (fst a) (fst b), (snd a, snd b)) in
  if Nat.eqb (length outs) (length ins) then Ok (map2 mk ins outs)
  else match ins, outs with
       | _, [o] => Ok (map (fun i => mk i o) ins)
       | [i], _ => Ok (map (mk i) outs)
       | _, _ => Err ValueError
       end.
(** signalproc.py:315-316: csdxy / psdxx and |csdxy|^2 / (psdxx psdyy); 0/0 is NaN (a zero spectrum makes
    the cross spectrum zero too). *)
Definition tf_bin (sxx : R) (sxy : C) : option C := if Reqb sxx 0 then None else Some (Cdiv sxy (RtoC sxx)).
Definition coh_bin (sxx syy : R) (sxy : C) : option R :=
  if Reqb (sxx * syy) 0 then None else Some (Cmod sxy ^ 2 / (sxx * syy)).
(** Result of averaged_tf: the frequency index and, per column, name, transfer function and coherence. *)
Definition tf_table : Type := list R * list (string * (list (option C) * list (option R))).
(** signalproc.py:218-326 averaged_tf. [dt], [n]: step and rows of the first index.
    Simplification: both tables have [n] rows; different row counts are modelled in M_tf_rows.v. *)
Definition averaged_tf (dt : R) (n : nat) (x y : tsig) (navgs : Z) (overlap : R)
    (window : string) (d : option string) : result tf_table :=
  let frame_of s := match s with Ser nm v => Some [(nm, v)] | Frame cols => Some cols | Other => None end in
  match x with
  | Other => Err OtherError
  | _ =>
    let! fs := sample_rate dt n in
    match frame_of x, frame_of y with
    | Some ins, Some outs =>
        let! pairs := pair_columns ins outs in
        let! (nperseg, noverlap) := segmenting n navgs overlap in
        let! sc := psd_scale fs window nperseg "density" in
        let! _ := some_column pairs in
        let ks := seq 0 (n_bins nperseg) in
        Ok (map (bin_freq fs nperseg) ks,
            map (fun p => let '(nm, (a, b)) := p in
                   let sxx := psd_bin sc window d a nperseg noverlap in
                   let syy := psd_bin sc window d b nperseg noverlap in
                   let sxy := csd_bin sc window d a b nperseg noverlap in
                   (nm, (map (fun k => tf_bin (sxx k) (sxy k)) ks, map (fun k => coh_bin (sxx k) (syy k) (sxy k)) ks)))
                pairs)
    | _, _ => Err ValueError
    end
  end.
End Welch.

(** ** interp_tf *)
(** signalproc.py:329-379, one column: rows (frequency, value) in any order, at least two rows.
    index.argsort() followed by interp1d's own sort is one sort by frequency. *)
Definition by_freq (rows : list (R * C)) : list (R * C) := sort_by (fun p q => Rleb (fst p) (fst q)) rows.
Definition interp_tf_at (rows : list (R * C)) (f : R) : result C :=
  let s := by_freq rows in
  let xs := map fst s in
  let! mag := interp1d xs (map (fun p => Cmod (snd p)) s) f in
  let! ph := interp1d xs (unwrap (map (fun p => angle (snd p)) s)) f in
  Ok (Cmult (RtoC mag) (cis ph)).
(** A Series, and a DataFrame column by column over the common index. *)
Definition interp_tf (new : list R) (rows : list (R * C)) : result (list (R * C)) :=
  mapM (fun f => rmap (fun z => (f, z)) (interp_tf_at rows f)) new.
Definition interp_tf_frame (new : list R) (freqs : list R) (cols : list (string * list C)) : result (list (string * list (R * C))) :=
  mapM (fun c => rmap (fun r => (fst c, r)) (interp_tf new (combine freqs (snd c)))) cols.

(** ** tf_delay *)
Section Delay.
(** scipy.optimize.leastsq(residual, guess) and curve_fit's solver, started at the given point *)
Variable leastsq : (list R -> list R) -> list R -> list R.

(** signalproc.py:468-477: ix_coh, ix_freq and their conjunction, for one column of coherence. *)
Definition coh_ok (lim : option R) (c : option R) : bool :=
  match lim with None => true | Some l => match c with None => false | Some v => Rltb l v end end.
Definition freq_ok (lim : option R) (f : R) : bool :=
  match lim with None => true | Some l => Rltb f l end.
Definition mask_col (coh_limit freq_limit : option R) (freqs : list R) (coh : list (option R)) : list bool :=
  map2 (fun f c => (coh_ok coh_limit c && freq_ok freq_limit f)%bool) freqs coh.

(** Selecting the rows of a list where a mask is true *)
Definition select {A} (m : list bool) (l : list A) : list A := map snd (filter (fun p => fst p) (combine m l)).

(** signalproc.py:435-461 _residual for one column: np.nansum((phase - 2 pi f (-d)) * mask). *)
Definition residual_col (freqs : list R) (phases : list (option R)) (mask : list bool) (d : R) : R :=
  Rsum (map (fun p : R * (option R * bool) => match fst (snd p) with
                      | None => 0
                      | Some ph => if snd (snd p) then ph - 2 * PI * fst p * - d else 0
                      end) (combine freqs (combine phases mask))).

(** signalproc.py:509-530 method 'multi': all columns at once; columns entirely NaN get NaN. *)
Definition delay_multi (coh_limit freq_limit : option R) (freqs : list R)
    (cols : list (list (option C) * list (option R))) : list (option R) :=
  let fm := map (freq_ok freq_limit) freqs in
  let fs := select fm freqs in
  let phases := map (fun c => unwrap_nan (map (option_map angle) (select fm (fst c)))) cols in
  let masks := map (fun c => select fm (map (coh_ok coh_limit) (snd c))) cols in
  let res d := map (fun p => residual_col fs (fst (fst p)) (snd (fst p)) (snd p)) (combine (combine phases masks) d) in
  let best := leastsq res (map (fun _ => 0) cols) in
  map2 (fun (c : list (option C) * list (option R)) b => if forallb (fun z => match z with None => true | _ => false end) (fst c) then None else Some b) cols best.

(** signalproc.py:491-508 method 'fit' on one column: curve_fit (one parameter, started at 1) of the
    unwrapped masked phases; no points, or a NaN among them, is a ValueError caught into NaN. *)
Definition delay_fit (coh_limit freq_limit : option R) (freqs : list R)
    (tf : list (option C)) (coh : list (option R)) : option R :=
  let m := mask_col coh_limit freq_limit freqs coh in
  let xs := select m freqs in
  let ys := unwrap_nan (map (option_map angle) (select m tf)) in
  let vs := present ys in
  if (Nat.eqb (length xs) 0 || negb (Nat.eqb (length vs) (length ys)))%bool then None
  else match leastsq (fun d => map2 (fun x y => 2 * PI * x * - nth 0 d 0 - y) xs vs) [1] with
       | [d] => Some d
       | _ => None
       end.

(** signalproc.py:479-489 method 'diff' on one column without NaN: average of the masked finite-difference
    group delays, the last one repeated; gd[-1] of an empty array is an IndexError. An empty mask is 0/0. *)
Definition delay_diff (coh_limit freq_limit : option R) (freqs : list R) (tf : list C) (coh : list (option R)) : result (option R) :=
  let m := mask_col coh_limit freq_limit freqs coh in
  let gd := map2 (fun p f => - p / f) (Rdiff (unwrap (map angle tf))) (Rdiff freqs) in
  match gd with
  | [] => Err IndexError
  | _ =>
    let gd := map (fun g => g / (2 * PI)) (gd ++ [last gd 0]) in
    let k := length (filter (fun b => b) m) in
    if Nat.eqb k 0 then Ok None
    else Ok (Some (Rsum (map2 (fun g (b : bool) => (if b then g else 0) / INR k) gd m)))
  end.

(** signalproc.py:382-532 tf_delay. [freqs] is the index of tf; every column has one entry per frequency;
    a Series is the one-column case. A table with one row and several columns passes the "1D" check of
    'diff' and 'fit' and then fails: in 'fit' because the mask does not match the index, in 'diff' because
    the phase steps do not match the frequency steps (or, for two columns, no step is left).
    Returns the delays and the mask by columns. *)
Definition tf_delay (freqs : list R) (cols : list (list (option C) * list (option R)))
    (coh_limit freq_limit : option R) (method : string) : result (list (option R) * list (list bool)) :=
  let ix := map (fun c => mask_col coh_limit freq_limit freqs (snd c)) cols in
  let one_row := Nat.eqb (length freqs) 1 in
  if String.eqb method "diff" then
    match cols with
    | [c] => if Nat.eqb (length (present (fst c))) (length (fst c))
             then let! d := delay_diff coh_limit freq_limit freqs (present (fst c)) (snd c) in Ok ([d], ix)
             else if one_row then Err IndexError
             else Ok ([None], ix)   (* np.sum over an array with NaN; NaN * False is NaN *)
    | _ => if (one_row && Nat.leb (length cols) 2)%bool then Err IndexError else Err ValueError
    end
  else if String.eqb method "fit" then
    match cols with
    | [c] => Ok ([delay_fit coh_limit freq_limit freqs (fst c) (snd c)], ix)
    | _ => if one_row then Err IndexError else Err ValueError
    end
  else if String.eqb method "multi" then
    match cols with
    | [] => Err IndexError   (* ix_freq[:, 0] *)
    | _ => Ok (delay_multi coh_limit freq_limit freqs cols, ix)
    end
  else Err ValueError.

(** ** compute_delays_tf *)
Variable win : string -> nat -> list R.
Variable dtr : string -> list R -> list R.

(** signalproc.py:813-815 mean_coh: nansum over the rows below freq_limit / their number (0/0 is NaN). *)
Definition mean_coh (freqs : list R) (lim : R) (coh : list (option R)) : option R :=
  let m := map (fun f => Rltb f lim) freqs in
  let k := length (filter (fun b => b) m) in
  if Nat.eqb k 0 then None
  else Some (Rsum (map (fun c => match c with None => 0 | Some v => v end) (select m coh)) / INR k).

(** signalproc.py:829-841, one pair: mean, value at the single zero lag (NaN when not single), and the curve
    interpolated at minus the delay. *)
Definition fmean (l : list fl) : fl := fdiv (fold_right fadd (Fin 0) l) (Fin (INR (length l))).
Definition xcorr_metrics (dt : R) (a b : list R) (delay : option R) : result (fl * fl * fl) :=
  let! (curve, lags) := correlation a b "coeff" in
  let secs := map (fun l => IZR l * dt) lags in
  let zero := match zero_index secs with [z] => nth z curve Nan | _ => Nan end in
  Ok (np_interp (option_map Ropp delay) secs curve, fmean curve, zero).

(** Extras: mean coherence, mask, and with compute_xcorr the lists peak_corr, mean_corr, zero_corr. *)
Record tf_extras : Type := mkTfExtras {
  te_coh : list (option R); te_ix : list (list bool); te_xcorr : option (list fl * list fl * list fl) }.

(** signalproc.py:713-849 compute_delays_tf on two tables (lists of named columns, at least one each; a
    Series is a one-column table). [dt], [n]: step and number of rows of the index.
    tf[col] in the 'fit' loop selects every column of that name. *)
Definition compute_delays_tf (dt : R) (n : nat) (ins outs : list (string * list R)) (navgs : Z)
    (coh_limit freq_limit : option R) (method : string) (overlap : R) (window : string) (compute_xcorr : bool)
  : result (list (option R) * tf_extras) :=
  let n_in := length ins in
  let n_out := length outs in
  if (Nat.ltb 1 n_in && Nat.ltb 1 n_out && negb (Nat.eqb n_in n_out))%bool then Err ValueError
  else
    let! (freqs, tfs) := averaged_tf win dtr dt n (Frame ins) (Frame outs) navgs overlap window None in
    let! (delay, ix) :=
      (if String.eqb method "fit" then
         let! rows := mapM (fun c : string * (list (option C) * list (option R)) =>
                        let named := filter (fun c' => String.eqb (fst c') (fst c)) tfs in
                        tf_delay freqs (map snd named) coh_limit freq_limit "fit") tfs in
         Ok (concat (map fst rows), concat (map snd rows))
       else if String.eqb method "multi" then tf_delay freqs (map snd tfs) coh_limit freq_limit "multi"
       else Err ValueError) in
    match freq_limit with
    | None => Err TypeError
    | Some lim =>
        let cohs := map (fun c => mean_coh freqs lim (snd (snd c))) tfs in
        if compute_xcorr then
          let! rows := mapM (fun i =>
                         let a := snd (nth (if Nat.eqb n_in 1 then 0 else i) ins (""%string, [])) in
                         let b := snd (nth (if Nat.eqb n_out 1 then 0 else i) outs (""%string, [])) in
                         xcorr_metrics dt a b (nth i delay None)) (seq 0 (Nat.max n_in n_out)) in
          Ok (delay, mkTfExtras cohs ix (Some (map (fun r => fst (fst r)) rows, map (fun r => snd (fst r)) rows, map snd rows)))
        else Ok (delay, mkTfExtras cohs ix None)
    end.
End Delay.

(** signalproc.py:852-880 apply_delay (a table is flattened; one column here). *)
Definition apply_delay (tf : list (R * C)) (delay : R) : list C :=
  map (fun p => Cmult (snd p) (cis (2 * PI * fst p * - delay))) tf.
