(** Property theorems. Cleaning of the HOPE data: flags by label, gaps on arbitrary time stamps.
    Proofs are in the X_ file of the same name. *)
From Coq Require Import String Reals Lra Permutation.
From Verif Require Import Prelude PreludeFacts P_list RealBase M_hope M_field_remap M_clean Spec_dataio Spec_field Spec_clean X_dataio_clean.
From Verif Require Import X_clean.

(** C111. interp_nan succeeds exactly when the limit is positive, every column has at least twice as many samples, and the time stamps
    never go down or never go up; otherwise it raises ValueError. *)
Theorem C111_stamped_ok :
  forall times cols limit,
  ((exists outs, interp_nan_t times cols limit = Ok outs) <->
   forall l, In l cols -> 0 < limit /\ 2 * limit <= length l /\ (rising times \/ falling times)) /\
  forall e, interp_nan_t times cols limit = Err e -> e = ValueError.
Proof. exact (@stamped_ok). Qed.
Print Assumptions C111_stamped_ok.

(** C111. Every sample of every column, whatever the stamps: blanked ones are missing; otherwise observed samples are unchanged, samples
    at most [limit] positions into a gap lie on the line through its two neighbours, in position and not in time, and all other gaps
    stay missing. *)
Theorem C111_stamped_value :
  forall times cols limit outs, interp_nan_t times cols limit = Ok outs ->
  length outs = length cols /\ forall l out, In (l, out) (combine cols outs) -> length times = length l ->
  length out = length l /\ forall j, j < length l ->
    (erased_t limit times l j -> missing out j) /\
    (~ erased_t limit times l j ->
      (forall v, present l j v -> present out j v) /\
      (left_open limit l j -> missing out j) /\
      (forall p q a b, in_gap l p q j -> present l p a -> present l q b -> j <= p + limit -> present out j (on_line p q a b j))).
Proof. exact (@stamped_value). Qed.
Print Assumptions C111_stamped_value.

(** C111. On stamps one second apart this is the behaviour described for 1 Hz data. *)
Theorem C111_stamped_1hz :
  forall t0 n cols limit, (forall l, In l cols -> length l = n) ->
  interp_nan_t (every_second t0 n) cols limit = interp_nan cols limit.
Proof. exact (@stamped_1hz). Qed.
Print Assumptions C111_stamped_1hz.

(** C111. Whatever the stamps, nothing is lost when a column starts and ends with an observation and no gap has more than [limit]
    samples: all observations survive and all gaps are filled. *)
Theorem C111_stamped_short :
  forall times cols limit outs l out,
  interp_nan_t times cols limit = Ok outs -> In (l, out) (combine cols outs) -> length times = length l ->
  (exists v, present l 0 v) -> (exists v, present l (length l - 1) v) ->
  (forall p q i, in_gap l p q i -> q - p - 1 <= limit) ->
  (forall j v, present l j v -> present out j v) /\
  (forall p q j a b, in_gap l p q j -> present l p a -> present l q b -> present out j (on_line p q a b j)).
Proof. exact (@stamped_short). Qed.
Print Assumptions C111_stamped_short.

(** C110. flag_qc with rows and columns in any order, and labels missing on either side: the labels of the data are kept, a sample is
    blanked exactly when the flag table has a flag of at least the level under the same two labels, and kept otherwise, also where
    there is no flag at all. *)
Theorem C110_labelled_value :
  forall (data flag : M_field_remap.table Z string R) level, wf_table data -> wf_table flag ->
  t_cols (flag_qc_labelled data flag level) = t_cols data /\ t_index (flag_qc_labelled data flag level) = t_index data /\
  wf_table (flag_qc_labelled data flag level) /\
  forall k c v, cell data k c = Some v ->
    ((exists x, cell flag k c = Some (Some x) /\ (level <= x)%R) -> cell (flag_qc_labelled data flag level) k c = Some None) /\
    (~ (exists x, cell flag k c = Some (Some x) /\ (level <= x)%R) -> cell (flag_qc_labelled data flag level) k c = Some v).
Proof. exact (@labelled_value). Qed.
Print Assumptions C110_labelled_value.

(** C110. The order of the rows and columns of the flag table does not matter, nor does anything it holds under other labels. *)
Theorem C110_labelled_order :
  forall (data flag flag' : M_field_remap.table Z string R) level,
  (forall k c, In k (t_index data) -> In c (t_cols data) -> cell flag k c = cell flag' k c) ->
  flag_qc_labelled data flag level = flag_qc_labelled data flag' level.
Proof. exact (@labelled_order). Qed.
Print Assumptions C110_labelled_order.

(** C110. On tables with the same labels in the same order this is the behaviour described for tables that line up. *)
Theorem C110_labelled_aligned :
  forall (data flag : M_field_remap.table Z string R) level, wf_table data -> wf_table flag ->
  t_index data = t_index flag -> t_cols data = t_cols flag ->
  map snd (t_rows (flag_qc_labelled data flag level)) = flag_qc (map snd (t_rows data)) (map snd (t_rows flag)) level.
Proof. exact (@labelled_aligned). Qed.
Print Assumptions C110_labelled_aligned.

(** C110. Flags under labels the data does not have change nothing: where no label is shared, all samples are kept. *)
Theorem C110_labelled_apart :
  forall (data flag : M_field_remap.table Z string R) level, wf_table data ->
  (forall k c, In k (t_index data) -> In c (t_cols data) -> ~ (In k (t_index flag) /\ In c (t_cols flag))) ->
  flag_qc_labelled data flag level = data.
Proof. exact (@labelled_apart). Qed.
Print Assumptions C110_labelled_apart.

(** C110. The flags list the columns in another order, one more column, and not all rows. *)
Example C110_labelled_ex :
  wf_table seen_demo /\ wf_table flag_demo /\
  flag_qc_labelled seen_demo flag_demo 2 = mkTable ["a"; "b"]%string [(0%Z, [Some 5; Some 6]); (1%Z, [None; None])]%R /\
  flag_qc_labelled seen_demo flag_demo 3 = seen_demo.
Proof. exact (@labelled_ex). Qed.

(** C111. The guarantee for 1 Hz data, that a gap shorter than twice the limit costs no observation, fails when the stamps jump: here a
    gap of three samples, limit two, erases the second observation after it, which is kept on stamps one second apart. *)
Theorem C111_stamped_jump_refuted :
  exists times l out out',
  interp_nan_t times [l] 2 = Ok [out] /\ interp_nan_t (every_second 0 (length l)) [l] 2 = Ok [out'] /\ length times = length l /\ rising times /\
  (exists v, present l 0 v) /\ (exists v, present l (length l - 1) v) /\ (forall p q i, in_gap l p q i -> q - p - 1 = 3) /\
  (exists v, present l 7 v /\ present out' 7 v) /\ missing out 7.
Proof. exact (@stamped_jump_refuted). Qed.
Print Assumptions C111_stamped_jump_refuted.

(** C111. The filled values do not take the stamps into account: here the middle of three samples is filled with the mean of its
    neighbours, although it was taken much closer to the first. *)
Theorem C111_stamped_line_refuted :
  exists times l out, interp_nan_t times [l] 1 = Ok [out] /\ rising times /\ length times = length l /\
  times = map (fun s => (s * 1000000000)%Z) [0; 1; 10]%Z /\ present l 0 0%R /\ missing l 1 /\ present l 2 10%R /\ present out 1 5%R.
Proof. exact (@stamped_line_refuted). Qed.
Print Assumptions C111_stamped_line_refuted.

(** C111. Stamps going down. *)
Example C111_stamped_ex :
  let l := [Some 0; None; Some 10]%R in let times := map (fun s => (s * 1000000000)%Z) [10; 9; 0]%Z in
  exists out, interp_nan_t times [l] 1 = Ok [out] /\ falling times /\ ~ rising times /\ length times = length l /\ in_gap l 0 2 1 /\
  (exists v, present l 0 v) /\ (exists v, present l (length l - 1) v) /\ (forall p q i, in_gap l p q i -> q - p - 1 <= 1) /\
  (forall e, interp_nan_t (map (fun s => (s * 1000000000)%Z) [10; 0; 9]%Z) [l] 1 = Err e -> e = ValueError) /\
  ~ (exists o, interp_nan_t (map (fun s => (s * 1000000000)%Z) [10; 0; 9]%Z) [l] 1 = Ok o).
Proof. exact (@stamped_ex). Qed.

