(** Property theorems. Cleaning of the HOPE data: flags, sentinel values and gaps.
    Proofs are in the X_ file of the same name. *)
From Coq Require Import String Reals Lra.
From Verif Require Import Prelude PreludeFacts P_list RealBase M_hope Spec_dataio.
From Verif Require Import X_dataio_clean.

(** C78. flag_qc blanks exactly the samples whose flag is at least the level (a missing flag never is) and keeps every other sample. *)
Theorem C78_flag_value :
  forall data flag level, same_shape data flag ->
  same_shape (flag_qc data flag level) data /\
  forall i j v f, entry data i j = Some v -> entry flag i j = Some f ->
    ((exists x, f = Some x /\ (level <= x)%R) -> entry (flag_qc data flag level) i j = Some None) /\
    (~ (exists x, f = Some x /\ (level <= x)%R) -> entry (flag_qc data flag level) i j = Some v).
Proof. exact (@flag_value). Qed.
Print Assumptions C78_flag_value.

(** C78. null_qc blanks exactly the samples below -100 and keeps every other sample. *)
Theorem C78_null_value :
  forall data, same_shape (null_qc data) data /\
  forall i j v, entry data i j = Some v ->
    ((exists x, v = Some x /\ (x < -100)%R) -> entry (null_qc data) i j = Some None) /\
    (~ (exists x, v = Some x /\ (x < -100)%R) -> entry (null_qc data) i j = Some v).
Proof. exact (@null_value). Qed.
Print Assumptions C78_null_value.

(** C78. Both are idempotent, and their order does not matter. *)
Theorem C78_qc_laws :
  forall data flag level, same_shape data flag ->
  null_qc (null_qc data) = null_qc data /\
  flag_qc (flag_qc data flag level) flag level = flag_qc data flag level /\
  null_qc (flag_qc data flag level) = flag_qc (null_qc data) flag level.
Proof. exact (@qc_laws). Qed.
Print Assumptions C78_qc_laws.

Example C78_qc_ex :
  same_shape [[Some 5; Some (-999)]; [Some 7; None]]%R [[Some 1; Some 4]; [None; Some 1]]%R /\
  flag_qc [[Some 5; Some (-999)]; [Some 7; None]]%R [[Some 3; Some 1]; [None; Some 1]]%R 2 = [[None; Some (-999)]; [Some 7; None]]%R /\
  null_qc [[Some 5; Some (-999)]; [Some 7; None]]%R = [[Some 5; None]; [Some 7; None]]%R.
Proof. exact (@qc_ex). Qed.

(** C79. interp_nan succeeds exactly when the limit is positive and every column has at least twice as many samples; otherwise it
    raises ValueError. *)
Theorem C79_gaps_ok :
  forall cols limit,
  ((exists outs, interp_nan cols limit = Ok outs) <-> forall l, In l cols -> 0 < limit /\ 2 * limit <= length l) /\
  forall e, interp_nan cols limit = Err e -> e = ValueError.
Proof. exact (@gaps_ok). Qed.
Print Assumptions C79_gaps_ok.

(** C79. Every sample of every column: blanked ones are missing; otherwise observed samples are unchanged, samples at most [limit] steps
    into a gap between observations lie on the straight line between its two neighbours, and all other gaps stay missing. *)
Theorem C79_gaps_value :
  forall cols limit outs, interp_nan cols limit = Ok outs ->
  length outs = length cols /\ forall l out, In (l, out) (combine cols outs) ->
  length out = length l /\ forall j, j < length l ->
    (erased limit l j -> missing out j) /\
    (~ erased limit l j ->
      (forall v, present l j v -> present out j v) /\
      (left_open limit l j -> missing out j) /\
      (forall p q a b, in_gap l p q j -> present l p a -> present l q b -> j <= p + limit -> present out j (on_line p q a b j))).
Proof. exact (@gaps_value). Qed.
Print Assumptions C79_gaps_value.

(** C79. Each sample falls under exactly one of these cases. *)
Theorem C79_gaps_cases :
  forall limit l j, j < length l ->
  let seen := exists v, present l j v in
  let open := left_open limit l j in
  let filled := exists p q a b, in_gap l p q j /\ present l p a /\ present l q b /\ j <= p + limit in
  (seen \/ open \/ filled) /\ ~ (seen /\ open) /\ ~ (seen /\ filled) /\ ~ (open /\ filled).
Proof. exact (@gaps_cases). Qed.
Print Assumptions C79_gaps_cases.

(** C79. Nothing is blanked when the column starts with an observation, every gap is shorter than twice the limit and fewer than
    [limit] samples are missing at the end: all observations survive, and gaps of at most [limit] samples are filled completely. *)
Theorem C79_gaps_short :
  forall cols limit outs l out,
  interp_nan cols limit = Ok outs -> In (l, out) (combine cols outs) ->
  (exists v, present l 0 v) ->
  (forall p q i, in_gap l p q i -> q - p - 1 < 2 * limit) ->
  (forall i, in_tail l i -> length l < i + limit) ->
  (forall j v, present l j v -> present out j v) /\
  (forall p q j a b, in_gap l p q j -> q - p - 1 <= limit -> present l p a -> present l q b -> present out j (on_line p q a b j)).
Proof. exact (@gaps_short). Qed.
Print Assumptions C79_gaps_short.

(** C79. An observation is lost after any gap at the start, even of one sample: the sample [limit] steps from the start is blanked. *)
Theorem C79_gaps_leading_loss :
  forall cols limit outs l out,
  interp_nan cols limit = Ok outs -> In (l, out) (combine cols outs) -> missing l 0 -> 2 * limit < length l -> missing out limit.
Proof. exact (@gaps_leading_loss). Qed.
Print Assumptions C79_gaps_leading_loss.

(** C79. A gap of at least twice the limit also erases observations behind it, and the last value filled at its start. *)
Theorem C79_gaps_long_loss :
  forall cols limit outs l out p q i,
  interp_nan cols limit = Ok outs -> In (l, out) (combine cols outs) -> in_gap l p q i -> 2 * limit <= q - p - 1 ->
  missing out (p + limit) /\
  forall j, q <= j < q + limit -> p + 3 * limit <= j -> j + limit < length l -> missing out j.
Proof. exact (@gaps_long_loss). Qed.
Print Assumptions C79_gaps_long_loss.

(** C79. The documented rule is false: a gap longer than the limit does not stay missing; its first samples are filled. *)
Theorem C79_gaps_rule_refuted :
  exists l out,
  interp_nan [l] 2 = Ok [out] /\ (forall j, 1 <= j <= 3 -> missing l j) /\ in_gap l 0 4 1 /\ present out 1 (11 / 4)%R /\ present out 2 (7 / 2)%R /\ missing out 3.
Proof. exact (@gaps_rule_refuted). Qed.
Print Assumptions C79_gaps_rule_refuted.

Example C79_gaps_ex :
  let l := [Some 1; None; Some 3; Some 5]%R in
  (exists outs, interp_nan [l] 1 = Ok outs) /\ in_gap l 0 2 1 /\ (exists v, present l 0 v) /\
  (forall p q i, in_gap l p q i -> q - p - 1 < 2 * 1) /\ (forall i, in_tail l i -> length l < i + 1).
Proof. exact (@gaps_ex). Qed.

