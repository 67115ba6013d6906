(** Model of src/solarspatialtools/signalproc.py averaged_tf (218-326) when the two tables have different numbers of rows.
    M_signal_tf.averaged_tf is the case of equal row counts (theorem C103_rows_same).
    [None] in the result stands for a value that is not a finite number (NaN, or inf from a zero denominator).
    Simplification: the output table has at least one row. *)
From Coq Require Import String.
From Verif Require Import Prelude RealBase Fl RealStat Dft Phase M_cmv M_signal_corr M_signal_tf.
From Coquelicot Require Import Complex.
Local Open Scope R_scope.

Section Rows.
Variable win : string -> nat -> list R.
Variable dtr : string -> list R -> list R.

(** scipy csd (signalproc.py:309-311) appends zeros to the shorter signal. *)
Definition zero_padded (L : nat) (x : list R) : list R := x ++ repeat 0 (L - length x).
(** scipy welch (signalproc.py:303-308) of signals shorter than a segment: the segment shrinks to the signal, and must still
    exceed the overlap. *)
Definition welch_segment (m : nat) (nperseg noverlap : Z) : result Z :=
  let np := Z.min nperseg (Z.of_nat m) in
  if Z.leb np noverlap then Err ValueError else Ok np.
(** numpy broadcasting of psdyy against the other spectra (signalproc.py:315-316): as many bins, or a single one. *)
Definition broadcast (nperseg np : Z) : result unit :=
  if Nat.eqb (n_bins np) (n_bins nperseg) then Ok tt else if Nat.eqb (n_bins np) 1 then Ok tt else Err ValueError.
(** signalproc.py:218-326 with [n] input rows and [m] output rows: segment length from the input rows (299), psdxx over the input's
    segments, psdyy over the output's, csdxy over the segments of the padded pair. *)
Definition averaged_tf_rows (dt : R) (n m : nat) (ins outs : list (string * list R)) (navgs : Z) (overlap : R)
    (window : string) (d : option string) : result tf_table :=
  let! fs := sample_rate dt n in
  let! pairs := pair_columns ins outs in
  let! (nperseg, noverlap) := segmenting n navgs overlap in
  let! sc := psd_scale win fs window nperseg "density" in
  let! _ := some_column pairs in
  let! np := welch_segment m nperseg noverlap in
  let! scy := psd_scale win fs window np "density" in
  let! _ := broadcast nperseg np in
  let L := Nat.max n m in
  let ks := seq 0 (n_bins nperseg) in
  let ybin k := if Nat.eqb (n_bins np) (n_bins nperseg) then k else 0%nat in
  Ok (map (bin_freq fs nperseg) ks,
      map (fun p => let '(nm, (a, b)) := p in
             let sxx := psd_bin win dtr sc window d a nperseg noverlap in
             let syy k := psd_bin win dtr scy window d b np noverlap (ybin k) in
             let sxy := csd_bin win dtr sc window d (zero_padded L a) (zero_padded L b) nperseg noverlap in
             (nm, (map (fun k => tf_bin (sxx k) (sxy k)) ks, map (fun k => coh_bin (sxx k) (syy k) (sxy k)) ks)))
          pairs).
End Rows.
