(** Property theorems. Reading one pair's column out of the tables averaged_tf returns (C138).
    Proofs are in the X_ file of the same name. *)
From Coq Require Import String Ascii.
From Verif Require Import Prelude PreludeFacts RealBase Fl RealStat Dft Phase Spec_welch Spec_dataio M_cmv M_signal_corr M_signal_tf M_tf_names P_signal P_corr P_dft P_welch P_parseval P_tf X_signal_psd X_signal_tf X_signal_tfdelay X_signal_tfx X_field_delays.
From Coq Require Import Lra Psatz.
From Coquelicot Require Import Complex.
Local Open Scope R_scope.
From Verif Require Import X_tf_names.

(** C138. With labels that tell the pairs apart, tf["in_out"] is one column, and it is what averaged_tf gives for that input and that output on their own. *)
Theorem C138_names_pick :
  forall win dtr dt n ins outs navgs overlap window d fr out, telling ins outs ->
  averaged_tf win dtr dt n (Frame ins) (Frame outs) navgs overlap window d = Ok (fr, out) ->
  forall i a x b y, (i < length out)%nat -> partner ins i = Some (a, x) -> partner outs i = Some (b, y) ->
  exists c, pick (a ++ "_" ++ b)%string out = Ok (OneColumn c) /\
    averaged_tf win dtr dt n (Ser a x) (Ser b y) navgs overlap window d = Ok (fr, [((a ++ "_" ++ b)%string, c)]).
Proof. exact (@names_pick). Qed.
Print Assumptions C138_names_pick.

(** C138. A name that no pair has is a KeyError. *)
Theorem C138_names_unknown :
  forall win dtr dt n ins outs navgs overlap window d fr out nm,
  averaged_tf win dtr dt n (Frame ins) (Frame outs) navgs overlap window d = Ok (fr, out) ->
  (forall i a x b y, partner ins i = Some (a, x) -> partner outs i = Some (b, y) -> nm <> (a ++ "_" ++ b)%string) ->
  pick nm out = Err KeyError.
Proof. exact (@names_unknown). Qed.
Print Assumptions C138_names_unknown.

(** C138. When two pairs get the same name, tf[name] is a table of at least two columns, and compute_delays_tf with method 'fit' raises. *)
Theorem C138_names_clash :
  forall ls win dtr dt n ins outs navgs overlap window fr out,
  averaged_tf win dtr dt n (Frame ins) (Frame outs) navgs overlap window None = Ok (fr, out) ->
  forall i j a x b y a' x' b' y', (i < length out)%nat -> (j < length out)%nat -> i <> j ->
  partner ins i = Some (a, x) -> partner outs i = Some (b, y) -> partner ins j = Some (a', x') -> partner outs j = Some (b', y') ->
  (a ++ "_" ++ b)%string = (a' ++ "_" ++ b')%string ->
  (exists cs, pick (a ++ "_" ++ b)%string out = Ok (Columns cs) /\ (2 <= length cs)%nat) /\
  forall cl fl xcorr, compute_delays_tf ls win dtr dt n ins outs navgs cl fl "fit" overlap window xcorr
    = Err (if Nat.eqb (length fr) 1 then IndexError else ValueError).
Proof. exact (@names_clash). Qed.
Print Assumptions C138_names_clash.

(** C138. With labels that tell the pairs apart and a frequency limit, method 'fit' gives every pair the delay it has on its own. *)
Theorem C138_names_fit :
  forall ls win dtr dt n ins outs navgs overlap window cl lim fr out, telling ins outs ->
  averaged_tf win dtr dt n (Frame ins) (Frame outs) navgs overlap window None = Ok (fr, out) ->
  exists ds ex, compute_delays_tf ls win dtr dt n ins outs navgs cl (Some lim) "fit" overlap window false = Ok (ds, ex) /\
    length ds = Nat.max (length ins) (length outs) /\
    forall i a x b y, (i < length ds)%nat -> partner ins i = Some (a, x) -> partner outs i = Some (b, y) ->
    exists v ex', nth_error ds i = Some v /\
      compute_delays_tf ls win dtr dt n [(a, x)] [(b, y)] navgs cl (Some lim) "fit" overlap window false = Ok ([v], ex').
Proof. exact (@names_fit). Qed.
Print Assumptions C138_names_fit.

(** C138. Method 'multi' does not look at the labels: relabelling the columns of either table changes neither the delays nor the quality metrics. *)
Theorem C138_names_multi :
  forall ls win dtr dt n ins outs ins' outs' navgs cl fl overlap window xcorr,
  map snd ins' = map snd ins -> map snd outs' = map snd outs ->
  compute_delays_tf ls win dtr dt n ins' outs' navgs cl fl "multi" overlap window xcorr =
  compute_delays_tf ls win dtr dt n ins outs navgs cl fl "multi" overlap window xcorr.
Proof. exact (@names_multi). Qed.
Print Assumptions C138_names_multi.

(** C138. Four different labels can still clash: the pairs (a, b_c) and (a_b, c) are both called a_b_c. Then tf["a_b_c"] is a table, and method 'fit' raises ValueError. *)
Theorem C138_names_refuted :
  NoDup (map fst first_in ++ map fst first_out) /\ length first_in = length first_out /\
  exists fr out, averaged_tf box_win no_dtr 1 4 (Frame first_in) (Frame first_out) 2 0 "boxcar" None = Ok (fr, out) /\
    (exists cs, pick "a_b_c" out = Ok (Columns cs) /\ (2 <= length cs)%nat) /\
    forall ls cl fl xcorr, compute_delays_tf ls box_win no_dtr 1 4 first_in first_out 2 cl fl "fit" 0 "boxcar" xcorr = Err ValueError.
Proof. exact (@names_refuted). Qed.
Print Assumptions C138_names_refuted.

(** C138. two inputs against one output: the labels may contain underscores, and every pair can be read by its name *)
Example C138_names_example :
  telling first_in [("c"%string, [0; 1; 1; 0])] /\
  exists fr out, averaged_tf box_win no_dtr 1 4 (Frame first_in) (Frame [("c"%string, [0; 1; 1; 0])]) 2 0 "boxcar" None = Ok (fr, out) /\
    (exists c, pick "a_b_c" out = Ok (OneColumn c)) /\ pick "a_b" out = Err KeyError.
Proof. exact (@names_example). Qed.

