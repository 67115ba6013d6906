(** Property theorems. field.py compute_delays: every column against the reference, one at a time.
    Proofs are in the X_ file of the same name. *)
From Coq Require Import String.
From Verif Require Import Prelude PreludeFacts RealBase Fl RealStat Dft Phase Spec_welch Spec_tfdelay M_cmv M_signal_corr M_signal_tf M_field_delays P_list P_tf P_tfdelay X_signal_psd X_signal_tf X_signal_tfdelay X_signal_tfx.
From Coquelicot Require Import Complex Rcomplements.
Local Open Scope string_scope.
Local Open Scope R_scope.
From Verif Require Import X_field_delays.

(** C91. One delay and one mean coherence per column of the table, the reference included, in column order; each is what the pair
    (reference, that column) alone gives: other columns have no influence. *)
Theorem C91_field_delays_separate :
  forall ls win dtr dt n df ref sig navgs cl fl method ds cs, solver ls -> method = "fit" \/ method = "multi" ->
  NoDup (map fst df) -> In (ref, sig) df ->
  field_compute_delays ls win dtr dt n df ref navgs cl fl method = Ok (ds, cs) ->
  length ds = length df /\ length cs = length df /\
  forall i nm x, nth_error df i = Some (nm, x) -> exists d c ex,
    nth_error ds i = Some d /\ nth_error cs i = Some c /\
    compute_delays_tf ls win dtr dt n [(ref, sig)] [(nm, x)] navgs cl fl method (/ 2) "hamming" false = Ok ([d], ex) /\ te_coh ex = [c].
Proof. exact (@field_delays_separate). Qed.
Print Assumptions C91_field_delays_separate.

(** C91. The call fails with KeyError exactly for an unknown reference; otherwise it succeeds for a table exactly when it succeeds for
    the reference alone, and then raises the same exception. *)
Theorem C91_field_delays_outcome :
  forall ls win dtr dt n df ref navgs cl fl method, solver ls -> method = "fit" \/ method = "multi" -> NoDup (map fst df) ->
  (~ In ref (map fst df) -> field_compute_delays ls win dtr dt n df ref navgs cl fl method = Err KeyError) /\
  (forall sig, In (ref, sig) df ->
    ((exists r, field_compute_delays ls win dtr dt n df ref navgs cl fl method = Ok r) <-> exists r, field_compute_delays ls win dtr dt n [(ref, sig)] ref navgs cl fl method = Ok r) /\
    (forall e, field_compute_delays ls win dtr dt n df ref navgs cl fl method = Err e <-> field_compute_delays ls win dtr dt n [(ref, sig)] ref navgs cl fl method = Err e)).
Proof. exact (@field_delays_outcome). Qed.
Print Assumptions C91_field_delays_outcome.

(** C91. The reference's own delay ('multi') is exactly 0 and its mean coherence is the share of bins below the frequency limit in which
    it has energy; if it has none in any bin (a zero signal) the delay is NaN. *)
Theorem C91_field_delays_self :
  forall ls win dtr dt n df ref sig navgs cl lim N V K ds cs i,
  solver ls -> windows win -> keeps_length dtr -> (2 <= n)%nat -> dt <> 0 -> welch_grid n navgs (/ 2) N V -> segments_fit n N V K ->
  power (win "hamming" N) <> 0 -> NoDup (map fst df) -> nth_error df i = Some (ref, sig) -> length sig = n ->
  field_compute_delays ls win dtr dt n df ref (Z.of_nat navgs) cl (Some lim) "multi" = Ok (ds, cs) ->
  let energy k := auto K (fun s => seg_spectrum (win "hamming" N) (detrend_by dtr None) sig N V s k) in
  let bins := filter (fun k => if Rlt_dec (INR k / (INR N * dt)) lim then true else false) (seq 0 (N / 2 + 1)) in
  ((forall k, (k <= N / 2)%nat -> energy k = 0) -> nth_error ds i = Some None) /\
  ((exists k, (k <= N / 2)%nat /\ energy k <> 0) -> nth_error ds i = Some (Some 0)) /\
  (bins <> [] -> nth_error cs i = Some (Some (INR (length (filter (fun k => if Req_EM_T (energy k) 0 then false else true) bins)) / INR (length bins)))).
Proof. exact (@field_delays_self). Qed.
Print Assumptions C91_field_delays_self.

(** C91. With a positive number of averages that leaves at least one sample per segment and a finite frequency limit it succeeds. *)
Theorem C91_field_delays_defined :
  forall ls win dtr dt n df ref sig navgs cl lim method N V K,
  solver ls -> method = "fit" \/ method = "multi" -> windows win -> keeps_length dtr -> (2 <= n)%nat -> dt <> 0 -> welch_grid n navgs (/ 2) N V -> segments_fit n N V K ->
  power (win "hamming" N) <> 0 -> NoDup (map fst df) -> In (ref, sig) df -> length sig = n ->
  exists ds cs, field_compute_delays ls win dtr dt n df ref (Z.of_nat navgs) cl (Some lim) method = Ok (ds, cs).
Proof. exact (@field_delays_defined). Qed.
Print Assumptions C91_field_delays_defined.

(** C91. a one-segment table of two opposite pulses: the call succeeds and the reference's own delay is 0 *)
Example C91_field_delays_example :
  forall ls, solver ls -> exists ds cs,
  field_compute_delays ls box_win no_dtr 1 2 [("a", [1; 0]); ("b", [0; 1])] "a" 1 (Some (/ 2)) (Some 1) "multi" = Ok (ds, cs) /\
  length ds = 2%nat /\ nth_error ds 0 = Some (Some 0).
Proof. exact (@field_delays_example). Qed.

