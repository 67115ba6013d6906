(** Property theorems. compute_predicted_position with its own delays and cloud motion vectors (C99).
    Proofs are in the X_ file of the same name. *)
From Coq Require Import String.
From Verif Require Import Prelude PreludeFacts RealBase Fl RealStat Dft Phase Spec_welch Spec_tfdelay Spec_field_pos M_spatial M_cmv M_signal_corr M_signal_tf M_field_pos M_field_delays M_link M_predict P_list P_dft P_tf P_tfdelay P_welch X_signal_psd X_signal_tf X_signal_tfdelay X_signal_tfx X_field_delays X_field_pos X_signal_wave Spec_cmv Spec_spatial X_cmv_options X_cmv_qc X_cmv_cascade X_cmv_motion X_cmv_rows X_link_delay X_link_good X_link_recover Spec_gap P_gap.
From Coq Require Import Lra Psatz.
From Coquelicot Require Import Complex.
Local Open Scope string_scope.
Local Open Scope R_scope.
From Verif Require Import X_predict.

(** C99. On gap-free tables the delays and coherences used are those compute_delays_tf gives for the reference and the whole table, whatever
    the method (an exception is passed on). *)
Theorem C99_predicted_delays_are :
  forall ls win dtr dt navgs cl fl method ref sig df,
  report_delays ls win dtr dt navgs cl fl method (ref, map Some sig) (map (fun c => (fst c, map Some (snd c))) df) =
  match compute_delays_tf ls win dtr dt (length sig) [(ref, sig)] df navgs cl fl method (/ 2) "hamming" false with
  | Ok (ds, ex) => Ok (map of_option ds, map of_option (te_coh ex))
  | Err e => Err e
  end.
Proof. exact (@predicted_delays_are). Qed.
Print Assumptions C99_predicted_delays_are.

(** C99. The delays are found exactly if there are at least two rows with a non-zero time step, at least one average, no more averages than rows,
    a frequency limit and a known delay method. *)
Theorem C99_predicted_delays_defined :
  forall ls win dtr dt navgs cl fl method ref r df, solver ls -> df <> [] -> NoDup (map fst df) ->
  (exists x, report_delays ls win dtr dt navgs cl fl method (ref, r) df = Ok x) <->
  (2 <= length r)%nat /\ dt <> 0 /\ (1 <= navgs <= Z.of_nat (length r))%Z /\ fl <> None /\ (method = "fit" \/ method = "multi").
Proof. exact (@predicted_delays_defined). Qed.
Print Assumptions C99_predicted_delays_defined.

(** C99. In general there is one delay and one coherence per data column, in column order, and each is what the pair (reference, column) alone
    gives. Samples in rows that no segment reads play no part: they may be missing or hold anything. If the reference or the column has a gap in a row
    that is read, the delay is NaN and the coherence 0 (NaN if no frequency is below the limit). *)
Theorem C99_predicted_delays_separate :
  forall ls win dtr dt navgs cl lim method ref r df ds cs, solver ls -> method = "fit" \/ method = "multi" -> df <> [] -> NoDup (map fst df) ->
  report_delays ls win dtr dt (Z.of_nat navgs) cl (Some lim) method (ref, r) df = Ok (ds, cs) ->
  length ds = length df /\ length cs = length df /\
  forall i nm s, nth_error df i = Some (nm, s) -> length s = length r -> exists d c,
    nth_error ds i = Some d /\ nth_error cs i = Some c /\
    (forall x y, same_where_read (length r) navgs (/ 2) r x -> same_where_read (length r) navgs (/ 2) s y -> exists d' c' ex,
       compute_delays_tf ls win dtr dt (length x) [(ref, x)] [(nm, y)] (Z.of_nat navgs) cl (Some lim) method (/ 2) "hamming" false = Ok ([d'], ex) /\ te_coh ex = [c'] /\
       d = of_option d' /\ c = of_option c') /\
    (gap_read (length r) navgs (/ 2) r \/ gap_read (length r) navgs (/ 2) s -> d = Nan /\ (c = Fin 0 \/ c = Nan) /\ (0 < lim -> c = Fin 0)).
Proof. exact (@predicted_delays_separate). Qed.
Print Assumptions C99_predicted_delays_separate.

(** C99. The call (with CMVs given) succeeds exactly if the reference is listed, both tables are usable, the time step is not zero, there is a frequency
    limit, and delay method and mode are known. *)
Theorem C99_predicted_outcome :
  forall ls win dtr ms lsq sv dt df1 df2 pos ref va vb mode k navgs cl fl method, solver ls -> sorts sv ->
  NoDup (map fst df1) -> NoDup (map fst df2) ->
  (exists x, predicted_position ls win dtr ms lsq sv dt df1 df2 pos ref (Some (va, vb)) mode k navgs cl fl method = Ok x) <->
  In ref (map fst pos) /\ usable_table navgs ref (length pos) df1 /\ usable_table navgs ref (length pos) df2 /\ dt <> 0 /\ fl <> None /\
  (method = "fit" \/ method = "multi") /\ known_mode mode.
Proof. exact (@predicted_outcome). Qed.
Print Assumptions C99_predicted_outcome.

(** C99. The reference's own delay ('multi') is exactly 0 whenever the reference is gap-free and has energy, whatever the other columns hold. *)
Theorem C99_predicted_self_delay :
  forall ls win dtr dt navgs cl lim ref x df ds cs N V K i,
  solver ls -> windows win -> keeps_length dtr -> NoDup (map fst df) -> nth_error df i = Some (ref, map Some x) ->
  welch_grid (length x) navgs (/ 2) N V -> segments_fit (length x) N V K -> power (win "hamming" N) <> 0 -> sounds win x N V K ->
  report_delays ls win dtr dt (Z.of_nat navgs) cl (Some lim) "multi" (ref, map Some x) df = Ok (ds, cs) ->
  nth_error ds i = Some (Fin 0).
Proof. exact (@predicted_self_delay). Qed.
Print Assumptions C99_predicted_self_delay.

(** C99. Self-inclusion bias without any assumption on the reference's own figures: when it is among the used points (mode 'all', 'distance'), and the delays of
    all other used points are the travel times from the sensor's true position x, the result lies short of x by the fraction 1/m. *)
Theorem C99_predicted_own_bias :
  forall ls win dtr ms lsq sv dt df1 df2 pos ref va vb mode k navgs cl lim p s1 s2 x rp m x1 x2 N1 V1 K1 N2 V2 K2,
  solver ls -> windows win -> keeps_length dtr -> NoDup (map fst pos) -> ~ parallel va vb -> dget pos ref = Some rp ->
  map fst df1 = map fst pos -> map fst df2 = map fst pos -> dget df1 ref = Some (map Some x1) -> dget df2 ref = Some (map Some x2) ->
  welch_grid (length x1) navgs (/ 2) N1 V1 -> segments_fit (length x1) N1 V1 K1 -> power (win "hamming" N1) <> 0 -> sounds win x1 N1 V1 K1 ->
  welch_grid (length x2) navgs (/ 2) N2 V2 -> segments_fit (length x2) N2 V2 K2 -> power (win "hamming" N2) <> 0 -> sounds win x2 N2 V2 K2 ->
  predicted_position ls win dtr ms lsq sv dt df1 df2 pos ref (Some (Some va, Some vb)) mode k (Z.of_nat navgs) cl (Some lim) "multi" = Ok (p, (s1, s2)) ->
  NoDup (map fst s1) -> NoDup (map fst s2) -> In ref (map fst s1) -> In ref (map fst s2) -> length s1 = m -> length s2 = m -> (2 <= m)%nat ->
  (forall q r P, In (q, r) s1 -> q <> ref -> dget pos q = Some P -> pp_delay r = Fin (travel_time va x P)) ->
  (forall q r P, In (q, r) s2 -> q <> ref -> dget pos q = Some P -> pp_delay r = Fin (travel_time vb x P)) ->
  inner (sub2 x rp) va <> 0 -> inner (sub2 x rp) vb <> 0 ->
  p = (Fin (fst rp + (INR m - 1) / INR m * (fst x - fst rp)), Fin (snd rp + (INR m - 1) / INR m * (snd x - snd rp))).
Proof. exact (@predicted_own_bias). Qed.
Print Assumptions C99_predicted_own_bias.

(** C99. Without given CMVs: if each table shows one disturbance moving with constant velocity over the sites (under the conditions of C94 for its exact
    recovery), the result is that for these velocities. *)
Theorem C99_predicted_own_cmv :
  forall ls win dtr ms lsq sv dt df1 df2 pos ref mode k navgs cl fl method va vb,
  keeps_count ls -> 0 < dt ->
  (forall df vel, (df, vel) = (df1, va) \/ (df, vel) = (df2, vb) ->
     (2 <= rows_of df)%nat /\ vel <> (0, 0) /\ moving_pattern dt (rows_of df) df pos vel /\
     exists v t w o f, cmv ls win dtr ms lsq dt (rows_of df) df pos RefNone "jamaly" None "xcorr" = Ok ((v, t, w), o) /\ w_fit w = Some f /\
       spanning (good_separations pos (w_allpairs w) (w_pair_flag w)) /\
       minimises ms (speed_variance (good_separations pos (w_allpairs w) (w_pair_flag w)) vel)) ->
  predicted_position ls win dtr ms lsq sv dt df1 df2 pos ref None mode k navgs cl fl method =
  predicted_position ls win dtr ms lsq sv dt df1 df2 pos ref (Some (Some va, Some vb)) mode k navgs cl fl method.
Proof. exact (@predicted_own_cmv). Qed.
Print Assumptions C99_predicted_own_cmv.

(** C99. If in either table fewer than two pairs of sites pass the quality checks, its velocity is taken as zero and the result is never finite. *)
Theorem C99_predicted_no_cmv :
  forall ls win dtr ms lsq sv dt df1 df2 pos ref mode k navgs cl fl method p s v1 t1 w1 o1 v2 t2 w2 o2,
  keeps_count ls ->
  cmv ls win dtr ms lsq dt (rows_of df1) df1 pos RefNone "jamaly" None "xcorr" = Ok ((v1, t1, w1), o1) ->
  cmv ls win dtr ms lsq dt (rows_of df2) df2 pos RefNone "jamaly" None "xcorr" = Ok ((v2, t2, w2), o2) ->
  ~ two_good (w_pair_flag w1) \/ ~ two_good (w_pair_flag w2) ->
  predicted_position ls win dtr ms lsq sv dt df1 df2 pos ref None mode k navgs cl fl method = Ok (p, s) ->
  is_finite (fst p) = false /\ is_finite (snd p) = false.
Proof. exact (@predicted_no_cmv). Qed.
Print Assumptions C99_predicted_no_cmv.

(** C99. Clouds moving east and then north over the three sensors, mode 'all' (a rectangular window standing in for the Hamming window): all hypotheses of
    the bias theorem hold, and the result is (2/3, 2/3) instead of (1, 1). *)
Example C99_predicted_joined_example :
  forall ls ms lsq, solver ls -> exists p s1 s2 K,
  predicted_position ls box_win no_dtr ms lsq (sort_by rank_leb) 1 (pulses eastward) (pulses northward) three_sites "a" (Some (Some (1, 0), Some (0, 1))) "all" 8
    2 (Some (6 / 10)) (Some (1 / 2)) "multi" = Ok (p, (s1, s2)) /\
  p = (Fin (2 / 3), Fin (2 / 3)) /\
  dget (pulses eastward) "a" = Some (map Some (arriving pulse 8 0 1)) /\ welch_grid 8 2 (/ 2) 4 2 /\ segments_fit 8 4 2 K /\ sounds box_win (arriving pulse 8 0 1) 4 2 K /\
  map fst s1 = ["a"; "b"; "c"] /\ map fst s2 = ["a"; "b"; "c"] /\
  (forall q r P, In (q, r) s1 -> q <> "a" -> dget three_sites q = Some P -> pp_delay r = Fin (travel_time (1, 0) (1, 1) P)) /\
  (forall q r P, In (q, r) s2 -> q <> "a" -> dget three_sites q = Some P -> pp_delay r = Fin (travel_time (0, 1) (1, 1) P)).
Proof. exact (@predicted_joined_example). Qed.

(** C99. Nine rows cut into segments of four: no segment reads the last row, so a sample missing there does no harm, while one missing in the first row makes
    the delay NaN. *)
Example C99_predicted_gaps_example :
  forall ls, solver ls -> exists ds cs d c,
  report_delays ls box_win no_dtr 1 2 (Some (6 / 10)) (Some (1 / 2)) "multi" ("a", tail_gap) [("a", tail_gap); ("b", inner_gap)] = Ok (ds, cs) /\
  (forall z, same_where_read 9 2 (/ 2) tail_gap (arriving pulse 8 1 1 ++ [z])%list) /\ ~ gap_read 9 2 (/ 2) tail_gap /\ gap_read 9 2 (/ 2) inner_gap /\
  nth_error ds 0 = Some d /\
  (forall z, exists d' ex, compute_delays_tf ls box_win no_dtr 1 9 [("a", (arriving pulse 8 1 1 ++ [z])%list)] [("a", (arriving pulse 8 1 1 ++ [z])%list)] 2 (Some (6 / 10)) (Some (1 / 2)) "multi" (/ 2)
     "hamming" false = Ok ([d'], ex) /\ d = of_option d') /\
  nth_error ds 1 = Some Nan /\ nth_error cs 1 = Some c /\ c = Fin 0.
Proof. exact (@predicted_gaps_example). Qed.

