(** Property theorems. Delays from transfer-function phase: tf_delay and apply_delay (C51, C52, C54).
    Proofs are in the X_ file of the same name. *)
From Coq Require Import String.
From Verif Require Import Prelude PreludeFacts RealBase Fl RealStat Dft Phase Spec_tfdelay M_cmv M_signal_corr M_signal_tf P_signal P_dft P_phase P_list P_tfdelay.
From Coq Require Import Lra Psatz ClassicalEpsilon.
From Coquelicot Require Import Complex.
Local Open Scope string_scope.
Local Open Scope R_scope.
From Verif Require Import X_signal_tfdelay.

(** C51. There is a least-squares solver in the sense the theorems below assume. *)
Theorem C51_solver_exists :
  exists ls, solver ls.
Proof. exact (@solver_exists). Qed.
Print Assumptions C51_solver_exists.

(** C51. Method 'multi': one delay per column; missing exactly when the whole column is missing; otherwise the delay
    at which the phase residuals over the used bins sum to zero, or 0 when the used frequencies sum to zero. *)
Theorem C51_multi_value :
  forall ls freqs cols cl fl, solver ls -> table freqs cols -> cols <> [] ->
  exists ds ix, tf_delay ls freqs cols cl fl "multi" = Ok (ds, ix) /\ length ds = length cols /\
  forall i tf coh, nth_error cols i = Some (tf, coh) ->
    (Forall (fun z => z = None) tf -> nth_error ds i = Some None) /\
    (~ Forall (fun z => z = None) tf -> exists d, nth_error ds i = Some (Some d) /\
      let pts := multi_points cl fl (bins_of freqs tf coh) in
      (sum_f pts <> 0 -> Rsum (map (fun p => snd p - - (2 * PI * fst p * d)) pts) = 0 /\ d = - sum_p pts / (2 * PI * sum_f pts)) /\
      (sum_f pts = 0 -> d = 0)).
Proof. exact (@multi_value). Qed.
Print Assumptions C51_multi_value.

(** C51. Method 'multi' recovers an exactly linear phase: if the values below the frequency limit are those of a pure
    delay d (times positive gains), the first phase and all phase steps staying below half a turn, the result
    is d, unless the used frequencies sum to zero. *)
Theorem C51_multi_recovers :
  forall ls freqs tf coh cl fl d, solver ls -> table freqs [(tf, coh)] ->
  let bl := filter (fun b => if below_dec fl b then true else false) (bins_of freqs tf coh) in
  (forall b, In b bl -> exists r, 0 < r /\ b_tf b = Some (Cmult (RtoC r) (cis (- (2 * PI * b_freq b * d))))) ->
  (forall b r, bl = b :: r -> Rabs (b_freq b * d) < / 2) ->
  (forall i b b', nth_error bl i = Some b -> nth_error bl (S i) = Some b' -> Rabs ((b_freq b' - b_freq b) * d) < / 2) ->
  Rsum (map b_freq (used cl fl (bins_of freqs tf coh))) <> 0 ->
  exists ix, tf_delay ls freqs [(tf, coh)] cl fl "multi" = Ok ([Some d], ix).
Proof. exact (@multi_recovers). Qed.
Print Assumptions C51_multi_recovers.

(** C51. Method 'multi' ignores everything after the first missing value below the frequency limit, whatever the
    coherence there: two columns that agree up to a missing value get the same delay. *)
Theorem C51_multi_gap :
  forall ls cl fl (pre post post' : list bin) gap gap', solver ls ->
  b_tf gap = None -> b_tf gap' = None -> below fl gap -> below fl gap' ->
  (exists b, In b pre /\ b_tf b <> None) ->
  let col bs := [(map b_tf bs, map b_coh bs)] in
  rmap fst (tf_delay ls (map b_freq (pre ++ gap :: post)) (col (pre ++ gap :: post)%list) cl fl "multi")
  = rmap fst (tf_delay ls (map b_freq (pre ++ gap' :: post')) (col (pre ++ gap' :: post')%list) cl fl "multi").
Proof. exact (@multi_gap). Qed.
Print Assumptions C51_multi_gap.

(** C51. When no bin, or only frequency zero, is used, 'multi' returns 0 (for a column with some value) while 'fit'
    returns NaN without bins and its starting value 1 with only frequency zero. *)
Theorem C51_nothing_used :
  forall ls freqs tf coh cl fl, solver ls -> table freqs [(tf, coh)] -> ~ Forall (fun z => z = None) tf ->
  (forall b, In b (used cl fl (bins_of freqs tf coh)) -> b_freq b = 0) ->
  (exists ix, tf_delay ls freqs [(tf, coh)] cl fl "multi" = Ok ([Some 0], ix)) /\
  (used cl fl (bins_of freqs tf coh) = [] -> exists ix, tf_delay ls freqs [(tf, coh)] cl fl "fit" = Ok ([None], ix)) /\
  (used cl fl (bins_of freqs tf coh) <> [] -> (forall b, In b (used cl fl (bins_of freqs tf coh)) -> b_tf b <> None) ->
    exists ix, tf_delay ls freqs [(tf, coh)] cl fl "fit" = Ok ([Some 1], ix)).
Proof. exact (@nothing_used). Qed.
Print Assumptions C51_nothing_used.

(** C51. Method 'fit' on one column: NaN when no bin is used or a used bin has no value; otherwise the least-squares
    slope through the origin of the phases of the used bins, unwrapped among themselves. *)
Theorem C51_fit_value :
  forall ls freqs tf coh cl fl, solver ls -> table freqs [(tf, coh)] ->
  let us := used cl fl (bins_of freqs tf coh) in
  exists o ix, tf_delay ls freqs [(tf, coh)] cl fl "fit" = Ok ([o], ix) /\
  (o = None <-> us = [] \/ exists b, In b us /\ b_tf b = None) /\
  (forall zs d, map b_tf us = map Some zs -> o = Some d ->
     let pts := combine (map b_freq us) (unwrap (map angle zs)) in
     forall d', squares (map (fun p => snd p - - (2 * PI * fst p * d)) pts) <= squares (map (fun p => snd p - - (2 * PI * fst p * d')) pts)) /\
  (forall zs d, map b_tf us = map Some zs -> o = Some d ->
     let pts := combine (map b_freq us) (unwrap (map angle zs)) in
     sum_ff pts <> 0 -> d = - sum_fp pts / (2 * PI * sum_ff pts)).
Proof. exact (@fit_value). Qed.
Print Assumptions C51_fit_value.

(** C51. Method 'fit' recovers a pure delay too; here only the used bins need values, and the phase steps that must
    stay below half a turn are those between successive used bins. *)
Theorem C51_fit_recovers :
  forall ls freqs tf coh cl fl d, solver ls -> table freqs [(tf, coh)] ->
  let us := used cl fl (bins_of freqs tf coh) in
  (forall b, In b us -> exists r, 0 < r /\ b_tf b = Some (Cmult (RtoC r) (cis (- (2 * PI * b_freq b * d))))) ->
  (forall b r, us = b :: r -> Rabs (b_freq b * d) < / 2) ->
  (forall i b b', nth_error us i = Some b -> nth_error us (S i) = Some b' -> Rabs ((b_freq b' - b_freq b) * d) < / 2) ->
  (exists b, In b us /\ b_freq b <> 0) ->
  exists ix, tf_delay ls freqs [(tf, coh)] cl fl "fit" = Ok ([Some d], ix).
Proof. exact (@fit_recovers). Qed.
Print Assumptions C51_fit_recovers.

(** C51. Method 'diff' on one complete column with at least two frequencies: the average over the used bins of the
    group delay (phase step over frequency step, over two pi), the last bin repeating the step before it;
    NaN (0/0) when no bin is used. A single frequency raises IndexError. A missing value anywhere, used or
    not, makes the result NaN. *)
Theorem C51_diff_value :
  forall ls freqs zs coh cl fl, table freqs [(map Some zs, coh)] ->
  ((2 <= length freqs)%nat ->
    exists o ix m, tf_delay ls freqs [(map Some zs, coh)] cl fl "diff" = Ok ([o], ix) /\ ix = [m] /\
    (o = None <-> used cl fl (bins_of freqs (map Some zs) coh) = []) /\
    (forall d, o = Some d -> d = Rsum (map (bin_delay freqs zs) (filter (fun k => nth k m false) (seq 0 (length freqs)))) / INR (length (used cl fl (bins_of freqs (map Some zs) coh))))) /\
  (length freqs = 1%nat -> tf_delay ls freqs [(map Some zs, coh)] cl fl "diff" = Err IndexError).
Proof. exact (@diff_value). Qed.
Print Assumptions C51_diff_value.

Theorem C51_diff_missing :
  forall ls freqs tf coh cl fl, table freqs [(tf, coh)] -> In None tf ->
  ((2 <= length freqs)%nat -> exists ix, tf_delay ls freqs [(tf, coh)] cl fl "diff" = Ok ([None], ix)) /\
  (length freqs = 1%nat -> tf_delay ls freqs [(tf, coh)] cl fl "diff" = Err IndexError).
Proof. exact (@diff_missing). Qed.
Print Assumptions C51_diff_missing.

(** C51. Method 'diff' recovers a pure delay wherever at least one bin is used. *)
Theorem C51_diff_recovers :
  forall ls freqs zs coh cl fl d, table freqs [(map Some zs, coh)] -> (2 <= length freqs)%nat ->
  used cl fl (bins_of freqs (map Some zs) coh) <> [] ->
  (forall k, (S k < length freqs)%nat -> nth k freqs 0 < nth (S k) freqs 0) ->
  (forall k, (k < length freqs)%nat -> exists r, 0 < r /\ nth k zs (RtoC 0) = Cmult (RtoC r) (cis (- (2 * PI * nth k freqs 0 * d)))) ->
  (forall k, (S k < length freqs)%nat -> Rabs ((nth (S k) freqs 0 - nth k freqs 0) * d) < / 2) ->
  exists ix, tf_delay ls freqs [(map Some zs, coh)] cl fl "diff" = Ok ([Some d], ix).
Proof. exact (@diff_recovers). Qed.
Print Assumptions C51_diff_recovers.

(** C51. 'fit' and 'diff' accept one column only; an unknown method raises ValueError; a table without columns
    raises IndexError under 'multi'. *)
Theorem C51_tf_delay_errors :
  forall ls freqs cols cl fl,
  ((2 <= length freqs)%nat -> length cols <> 1%nat ->
     tf_delay ls freqs cols cl fl "fit" = Err ValueError /\ tf_delay ls freqs cols cl fl "diff" = Err ValueError) /\
  (length freqs = 1%nat -> (2 <= length cols)%nat ->
     tf_delay ls freqs cols cl fl "fit" = Err IndexError /\
     tf_delay ls freqs cols cl fl "diff" = Err (if Nat.eqb (length cols) 2 then IndexError else ValueError)) /\
  (forall method, method <> "fit" -> method <> "diff" -> method <> "multi" -> tf_delay ls freqs cols cl fl method = Err ValueError) /\
  tf_delay ls freqs [] cl fl "multi" = Err IndexError.
Proof. exact (@tf_delay_errors). Qed.
Print Assumptions C51_tf_delay_errors.

(** C52. With every method the reported mask says for each column and bin whether the coherence exceeds coh_limit
    (or that is None) and the frequency is below freq_limit (or that is None). *)
Theorem C52_mask_value :
  forall ls freqs cols cl fl method ds ix, table freqs cols ->
  tf_delay ls freqs cols cl fl method = Ok (ds, ix) ->
  length ix = length cols /\
  forall i tf coh, nth_error cols i = Some (tf, coh) ->
    exists m, nth_error ix i = Some m /\ length m = length freqs /\
    forall k f c, nth_error freqs k = Some f -> nth_error coh k = Some c ->
      exists b, nth_error m k = Some b /\
      (b = true <-> (forall l, cl = Some l -> exists v, c = Some v /\ l < v) /\ (forall l, fl = Some l -> f < l)).
Proof. exact (@mask_value). Qed.
Print Assumptions C52_mask_value.

(** C54. apply_delay gives one value per frequency, keeps every magnitude, and leaves the value at frequency zero. *)
Theorem C54_apply_delay_magnitude :
  forall tf d, length (apply_delay tf d) = length tf /\
  forall k f z, nth_error tf k = Some (f, z) -> exists y, nth_error (apply_delay tf d) k = Some y /\
    Cmod y = Cmod z /\ (f = 0 -> y = z) /\ y = Cmult z (cis (- (2 * PI * f * d))).
Proof. exact (@apply_delay_magnitude). Qed.
Print Assumptions C54_apply_delay_magnitude.

(** C54. Delays add up; a zero delay changes nothing; a negative delay undoes a positive one. *)
Theorem C54_apply_delay_group :
  forall tf d d',
  apply_delay (combine (map fst tf) (apply_delay tf d)) d' = apply_delay tf (d + d') /\
  apply_delay tf 0 = map snd tf /\
  apply_delay (combine (map fst tf) (apply_delay tf d)) (- d) = map snd tf.
Proof. exact (@apply_delay_group). Qed.
Print Assumptions C54_apply_delay_group.

(** C54. Measuring a flat (positive) transfer function delayed by d with method 'multi' returns d, when the first
    phase and the phase steps stay below half a turn. *)
Theorem C54_apply_delay_measured :
  forall ls (fs : list R) g d, solver ls -> 0 < g ->
  (forall f r, fs = f :: r -> Rabs (f * d) < / 2) ->
  (forall i, (S i < length fs)%nat -> Rabs ((nth (S i) fs 0 - nth i fs 0) * d) < / 2) ->
  Rsum fs <> 0 ->
  exists ix, tf_delay ls fs [(map Some (apply_delay (map (fun f => (f, RtoC g)) fs) d), map (fun _ => Some 1) fs)] None None "multi" = Ok ([Some d], ix).
Proof. exact (@apply_delay_measured). Qed.
Print Assumptions C54_apply_delay_measured.

Example C54_measured_example :
  exists ls ix, solver ls /\
  tf_delay ls [0; 1; 2; 3] [(map Some (apply_delay (map (fun f => (f, RtoC 2)) [0; 1; 2; 3]) (/ 4)), map (fun _ => Some 1) [0; 1; 2; 3])] None None "multi" = Ok ([Some (/ 4)], ix).
Proof. exact (@measured_example). Qed.

