(** Property theorems. Missing values, tables and whole numbers in the filter functions.
    Proofs are in the X_ file of the same name. *)
From Coq Require Import String.
From Verif Require Import Prelude PreludeFacts RealBase Fl RealStat Dft Phase M_spatial M_cmv M_signal_corr M_signal_tf M_signal_plant Spec_spatial Spec_welch Spec_plant P_list P_plane P_dft P_welch P_signal P_phase P_fft P_parseval P_plant P_cam X_signal_interp P_filter X_signal_filter X_signal_cam X_signal_plant X_signal_camsite Spec_cam_exact X_cam_exact M_filter_nan.
From Coquelicot Require Import Complex.
From Coq Require Import Lra Psatz Permutation Sorted.
Local Open Scope R_scope.
From Verif Require Import X_filter_nan.

(** C123. Without missing values it is the call of C58. *)
Theorem C123_filter_plain :
  forall dt x rows,
  apply_filter_nan dt (map Some x) (map (fun r => (fst r, Some (snd r))) rows) = rmap (map Some) (apply_filter dt x rows).
Proof. exact (@filter_plain). Qed.
Print Assumptions C123_filter_plain.

(** C123. One missing sample in the record, or one NaN among the filter values at or below the frequencies the record reads, makes the
    whole result NaN, without an exception; a NaN in the filter above them does no harm: the result is the one of any filter
    that has numbers in the place of the gaps. A frequency outside the filter raises ValueError. *)
Theorem C123_nan_rule :
  forall dt sig rows, (2 <= length sig)%nat -> dt <> 0 -> NoDup (map fst rows) -> (2 <= length rows)%nat ->
  ((forall k, (k < length sig)%nat -> spans rows (bin_frequency (length sig) k dt)) ->
     (In None sig \/ (exists f0 k, In (f0, None) rows /\ (k < length sig)%nat /\ ~ clear_of rows f0 (bin_frequency (length sig) k dt)) ->
        apply_filter_nan dt sig rows = Ok (repeat None (length sig))) /\
     (forall x h, sig = map Some x ->
        (forall f0 k, In (f0, None) rows -> (k < length sig)%nat -> clear_of rows f0 (bin_frequency (length sig) k dt)) ->
        exists out, apply_filter_nan dt sig rows = Ok (map Some out) /\ apply_filter dt x (filled h rows) = Ok out)) /\
  (forall k, (k < length sig)%nat -> ~ spans rows (bin_frequency (length sig) k dt) -> apply_filter_nan dt sig rows = Err ValueError).
Proof. exact (@nan_rule). Qed.
Print Assumptions C123_nan_rule.

(** C123. Square sites which all lie more than half a step outside the domain, in the direction of the cloud motion, give a cloud
    advection filter without a number in it, and a plant output without a number in it, both without an exception. *)
Theorem C123_outside_domain :
  forall proj pts v d ref dx dt shape sig (m n : nat), d <> (0, 0) -> v <> 0 -> 0 < dx -> 0 < dt ->
  lower shape = "square"%string -> (2 <= length sig)%nat -> (3 <= n)%nat -> INR n * dx = 2 * INR m -> 2 * dx <= dt * Rabs v ->
  pts <> [] -> (forall p, In p pts -> along d ref p <= - INR m - dx / 2 \/ INR m - dx / 2 < along d ref p) ->
  exists filt, get_camfilter proj (EastNorth pts) v d (EastNorth ref) dx 0 None shape (2 * INR m) = Ok filt /\
    length filt = n /\ (forall f z, In (f, z) filt -> z = None) /\
    apply_filter_nan dt sig filt = Ok (repeat None (length sig)).
Proof. exact (@outside_domain). Qed.
Print Assumptions C123_outside_domain.

(** C123. A table in the place of the record or of the filter never gives a result, although the documentation names it. *)
Theorem C123_tables_refused :
  forall dt n m sig rows frows,
  apply_filter_obj dt (OneRecord sig) (OneFilter rows) = apply_filter_nan dt sig rows /\
  (forall r f out, apply_filter_obj dt r f = Ok out -> exists sig' rows', r = OneRecord sig' /\ f = OneFilter rows') /\
  ((2 <= length sig)%nat -> dt <> 0 -> apply_filter_obj dt (OneRecord sig) (FilterTable frows) = Err ValueError) /\
  ((2 <= n)%nat -> dt <> 0 -> apply_filter_obj dt (RecordTable n m) (OneFilter rows) = Err ValueError /\
     apply_filter_obj dt (RecordTable n m) (FilterTable frows) = Err ValueError).
Proof. exact (@tables_refused). Qed.
Print Assumptions C123_tables_refused.

(** C123. Whole-number positions with a reference position that is not a whole number (a Python float, even 5.0) are refused;
    any other mixture gives the plant of the same numbers. *)
Theorem C123_plant_numbers :
  forall centers ref width shape dx xmax,
  (centers <> [] -> (forall c, In c centers -> exists z, c = WholeNo z) -> forall r, ref = FloatNo r ->
     get_1d_plant_num centers ref width shape dx xmax = Err TypeError) /\
  ((exists c r, In c centers /\ c = FloatNo r) \/ centers = [] \/ (exists z, ref = WholeNo z) ->
     get_1d_plant_num centers ref width shape dx xmax = get_1d_plant (map (fun c => Some (number_value c)) centers) (number_value ref) width shape dx xmax).
Proof. exact (@plant_numbers). Qed.
Print Assumptions C123_plant_numbers.

(** C123. The gap at 2 is not read by a record with frequencies up to a half; the sample gap spoils everything; the mean filter of
    three sites 100 m beside a domain of 8 m is empty; whole-number positions with the reference 0.5 raise. *)
Example C123_nan_example :
  (exists out, apply_filter_nan 1 [Some 3; Some 5] holed = Ok (map Some out) /\ apply_filter 1 [3; 5] (filled (fun _ => RtoC 0) holed) = Ok out) /\
  apply_filter_nan 1 [Some 3; None] holed = Ok [None; None] /\
  (exists filt, get_camfilter (fun _ _ lat lon => (lat, lon)) (EastNorth [(100, 0); (100, 7); (120, 3)]) 4 (1, 0) (EastNorth (0, 0)) 1 0 None "square"%string (2 * INR 4) = Ok filt /\
     length filt = 8%nat /\ apply_filter_nan 1 [Some 3; Some 5] filt = Ok [None; None]) /\
  get_1d_plant_num [WholeNo 1; WholeNo 3] (FloatNo (1/2)) None "square"%string 1 8 = Err TypeError /\
  apply_filter_obj 1 (RecordTable 2 1) (OneFilter holed) = Err ValueError.
Proof. exact (@nan_example). Qed.

