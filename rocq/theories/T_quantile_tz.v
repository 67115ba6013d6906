(** Property theorems. Daily quantiles on an index with a time zone.
    Proofs are in the X_ file of the same name. *)
From Coq Require Import Permutation Sorted String.
From Verif Require Import Prelude PreludeFacts RealBase Fl RealStat M_spatial M_stats Spec_stats P_stats P_resample P_quantile X_stats_quantile M_quantile_tz Spec_quantile_tz.
Local Open Scope R_scope.
From Verif Require Import X_quantile_tz.

(** C125. Zones as they occur: clocks put forward at any time, or put back within one day, obey the two rules that the other theorems ask for;
    with no switch at all every reading occurs exactly once. *)
Theorem C125_switching_clock :
  forall a b T : Z, ((b < a)%Z -> ((T + b) / one_day = (T + a - 1) / one_day)%Z) ->
  clock (switching a b T) /\ locates (switching a b T) (find_reading a b T) /\
  (a = b -> forall d t : Z, (0 <= t < one_day)%Z -> exists i, find_reading a b T (d, t) = Some i).
Proof. exact (@switching_clock). Qed.
Print Assumptions C125_switching_clock.

(** C125. Whenever a result comes back, it is the result of C39 for the clock readings, under the instants of the input. *)
Theorem C125_quantile_tz_agrees :
  forall strict local locate rows nm n q name out, locates local locate -> clock local ->
  calc_quantile_tz strict local locate rows nm n q = Ok (name, out) ->
  map fst out = map fst rows /\
  calc_quantile (map (fun r => (local (fst r), snd r)) rows) nm n q = Ok (name, map (fun r => (local (fst r), snd r)) out).
Proof. exact (@quantile_tz_agrees). Qed.
Print Assumptions C125_quantile_tz_agrees.

(** C125. With an earlier pandas: if the midnights of the windows and the readings to be given out occur exactly once, the call does what it does
    for the clock readings without a time zone, errors included. *)
Theorem C125_quantile_tz_total :
  forall local locate rows nm n q, locates local locate -> clock local ->
  (forall i j a b, (i < j)%nat -> nth_error rows i = Some a -> nth_error rows j = Some b -> (fst a <= fst b)%Z) ->
  (forall d e, data_day (map (fun r => (local (fst r), snd r)) rows) d -> data_day (map (fun r => (local (fst r), snd r)) rows) e -> (d + n <= e)%Z ->
     locate (d, 0%Z) <> None /\ locate ((d + n)%Z, 0%Z) <> None /\
     forall r, In r rows -> (d <= fst (local (fst r)) <= d + n)%Z -> locate ((d + n)%Z, snd (local (fst r))) <> None) ->
  calc_quantile_tz false local locate rows nm n q =
  rmap (fun p => (fst p, combine (map fst rows) (map snd (snd p)))) (calc_quantile (map (fun r => (local (fst r), snd r)) rows) nm n q).
Proof. exact (@quantile_tz_total). Qed.
Print Assumptions C125_quantile_tz_total.

(** C125. With a present pandas a time zone makes the call fail as soon as one window fits; if none does, everything is missing, with
    either pandas. *)
Theorem C125_quantile_tz_strict :
  forall strict local locate rows nm n q s, locates local locate -> clock local -> rows <> [] -> one_column nm s ->
  (forall i j a b, (i < j)%nat -> nth_error rows i = Some a -> nth_error rows j = Some b -> (fst a <= fst b)%Z) ->
  (window_fits (map (fun r => (local (fst r), snd r)) rows) n -> calc_quantile_tz true local locate rows nm n q = Err TypeError) /\
  (~ window_fits (map (fun r => (local (fst r), snd r)) rows) n ->
     calc_quantile_tz strict local locate rows nm n q = Ok ((s ++ "_quant")%string, map (fun r => (fst r, None)) rows)).
Proof. exact (@quantile_tz_strict). Qed.
Print Assumptions C125_quantile_tz_strict.

(** C125. Clocks put back: two rows with one reading in a window make the call fail. Clocks put forward or back: a reading that would have to be
    given out for the last day of a window, and which that day does not have exactly once, makes the call fail. *)
Theorem C125_quantile_tz_change :
  forall strict local locate rows nm n q s, locates local locate -> clock local -> one_column nm s -> (1 <= n)%Z ->
  (forall i j a b, (i < j)%nat -> nth_error rows i = Some a -> nth_error rows j = Some b -> (fst a <= fst b)%Z) ->
  (forall i j a b e, (i < j)%nat -> nth_error rows i = Some a -> nth_error rows j = Some b -> local (fst a) = local (fst b) ->
     data_day (map (fun r => (local (fst r), snd r)) rows) e -> (fst (local (fst a)) + n <= e)%Z ->
     exists x, calc_quantile_tz strict local locate rows nm n q = Err x) /\
  (forall r d e, In r rows -> data_day (map (fun r => (local (fst r), snd r)) rows) d -> data_day (map (fun r => (local (fst r), snd r)) rows) e ->
     (d + n <= e)%Z -> (d <= fst (local (fst r)) < d + n)%Z -> locate ((d + n)%Z, snd (local (fst r))) = None ->
     exists x, calc_quantile_tz strict local locate rows nm n q = Err x).
Proof. exact (@quantile_tz_change). Qed.
Print Assumptions C125_quantile_tz_change.

(** C125. Noon values pass the change of the clocks with an earlier pandas; night values do not; a present pandas refuses both. *)
Example C125_spring_example :
  (locates spring spring_find /\ clock spring) /\
  (exists out, calc_quantile_tz false spring spring_find noons (SeriesName (Some "ghi"%string)) 2 (1/2) = Ok ("ghi_quant"%string, out) /\ map fst out = map fst noons) /\
  (exists e, calc_quantile_tz false spring spring_find nights (SeriesName (Some "ghi"%string)) 2 (1/2) = Err e) /\
  calc_quantile_tz true spring spring_find noons (SeriesName (Some "ghi"%string)) 2 (1/2) = Err TypeError.
Proof. exact (@spring_example). Qed.

