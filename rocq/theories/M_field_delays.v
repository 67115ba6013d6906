(** Model of src/solarspatialtools/field.py: the deprecated compute_delays, on top of the model of
    signalproc.compute_delays_tf. *)
From Coq Require Import String.
From Verif Require Import Prelude RealBase M_cmv M_signal_corr M_signal_tf.
Local Open Scope R_scope.

Section FieldDelays.
  Variable ls : (list R -> list R) -> list R -> list R.
  Variable win : string -> nat -> list R.
  Variable dtr : string -> list R -> list R.
  (** field.py:173-216 compute_delays. [dt], [n]: step and number of rows. Simplification: column names are
      distinct (a repeated name makes df[ref] a table). *)
  Definition field_compute_delays (dt : R) (n : nat) (df : list (string * list R)) (ref : string) (navgs : Z)
      (coh_limit freq_limit : option R) (method : string) : result (list (option R) * list (option R)) :=
    let! sig := lookup df ref in
    let! (delays, ex) := compute_delays_tf ls win dtr dt n [(ref, sig)] df navgs coh_limit freq_limit method (/ 2) "hamming" false in
    Ok (delays, te_coh ex).
End FieldDelays.
