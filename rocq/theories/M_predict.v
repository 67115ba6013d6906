(** compute_predicted_position (field.py) joined to compute_delays_tf (signalproc.py) and compute_cmv
    (cmv.py), so that neither delays nor cloud motion vectors are left as parameters. Sensor labels are
    strings. Simplification: both tables have the same time step [dt]. *)
From Coq Require Import String.
From Verif Require Import Prelude RealBase Fl RealStat M_spatial M_cmv M_signal_corr M_signal_tf M_field_pos M_link.
Local Open Scope R_scope.

Section Joined.
  Variable leastsq : (list R -> list R) -> list R -> list R.
  Variable win : string -> nat -> list R.
  Variable dtr : string -> list R -> list R.
  Variable minimize_scalar : (R -> fl) -> R.
  Variable leastsq2 : (R -> R -> list fl) -> fl * fl.
  Variable sort_values : list (string * fl) -> list (string * fl).
  Variable dt : R.

  (** field.py:97-101 compute_delays_tf(df[ref], df, navgs, coh_limit, freq_limit, method=delay_method), with
      the default overlap 0.5 and window 'hamming'; the table has as many rows as the reference signal.
      Simplification: the reference is paired with each column (which is what a single input column
      means, signalproc.py:303-311) so that a pair with a NaN sample can be represented as in M_link. *)
  Definition report_delays (navgs : Z) (coh_limit freq_limit : option R) (method : string)
      (r : string * list (option R)) (df : list (string * list (option R))) : result (list fl * list fl) :=
    let n := List.length (snd r) in
    let ps := seen_pairs (rows_read n navgs (/ 2)) n (map (fun _ => snd r) df) (map snd df) in
    let! (delay, ex) := compute_delays_tf leastsq win dtr dt n (map (fun p => (fst r, fst p)) ps) (combine (map fst df) (map snd ps))
                          navgs coh_limit freq_limit method (/ 2) "hamming" false in
    Ok (map of_option delay, map of_option (te_coh ex)).

  (** field.py:87-92 cmv.compute_cmv(df, pos_utm, method='jamaly'), speed and direction *)
  Definition own_cmv (df : list (string * list (option R))) (pos_utm : list (string * (R * R))) : result (fl * fl) :=
    let n := match df with c :: _ => List.length (snd c) | [] => 0%nat end in
    let! (r, _) := cmv leastsq win dtr minimize_scalar leastsq2 dt n df pos_utm RefNone "jamaly" None "xcorr" in
    Ok (fst r).

  (** field.py:13-170 compute_predicted_position *)
  Definition predicted_position (df1 df2 : list (string * list (option R))) (pos_utm : list (string * (R * R))) (ref : string)
      (cld_vecs : option (cmv_vec * cmv_vec)) (mode : string) (ndownsel : nat)
      (navgs : Z) (coh_limit freq_limit : option R) (delay_method : string) :=
    compute_predicted_position (report_delays navgs coh_limit freq_limit delay_method) sort_values own_cmv
      df1 df2 pos_utm ref cld_vecs mode ndownsel.
End Joined.
