(** Property theorems. Final forms: the table of field_demo.py and the worked steps of field_demo_detailed.ipynb.
    Proofs are in the X_ file of the same name. *)
From Coq Require Import String Permutation Sorted Lia Lra.
From Verif Require Import Prelude PreludeFacts P_list RealBase Fl M_spatial Spec_spatial P_plane M_cmv M_field_pos Spec_field_pos X_field_pos Spec_field_mislabel X_field_mislabel
  Spec_field_demo M_field_demo.
Local Open Scope R_scope.
From Verif Require Import X_field_demo.

(** C120. The table of the demonstration: one row per combiner in the order of the plan. The rows from lo up to, not including, hi hold the planned
    position and the predicted one, the others nothing. *)
Theorem C120_demo_table :
  forall (K : Type) (HK : Label K) dtf sv cmv lo hi (ts_a ts_b : list (K * list (option R))) va vb pos (P : K -> fl * fl),
  NoDup (map fst pos) ->
  (forall i k q, nth_error pos i = Some (k, q) -> (lo <= i < hi)%nat ->
     exists rest, compute_predicted_position dtf sv cmv ts_a ts_b pos k (Some (Some va, Some vb)) "preavg" 8 = Ok (P k, rest)) ->
  exists df, field_demo dtf sv cmv lo hi ts_a ts_b va vb pos = Ok df /\ length df = length pos /\ length (red_lines df) = length pos /\
    forall i k q, nth_error pos i = Some (k, q) ->
      ((lo <= i < hi)%nat -> nth_error df i = Some (k, [Fin (fst q); Fin (snd q); fst (P k); snd (P k)]) /\
                             nth_error (red_lines df) i = Some ((Fin (fst q), Fin (snd q)), P k)) /\
      (~ (lo <= i < hi)%nat -> nth_error df i = Some (k, [Nan; Nan; Nan; Nan]) /\ nth_error (red_lines df) i = Some ((Nan, Nan), (Nan, Nan))).
Proof. exact (@demo_table). Qed.
Print Assumptions C120_demo_table.

(** C120. The first combiner that cannot be predicted ends the demonstration with its exception. *)
Theorem C120_demo_fails :
  forall (K : Type) (HK : Label K) dtf sv cmv lo hi (ts_a ts_b : list (K * list (option R))) va vb pos (P : K -> fl * fl) i k q e,
  NoDup (map fst pos) -> nth_error pos i = Some (k, q) -> (lo <= i < hi)%nat ->
  (forall j k' q', nth_error pos j = Some (k', q') -> (lo <= j < i)%nat ->
     exists rest, compute_predicted_position dtf sv cmv ts_a ts_b pos k' (Some (Some va, Some vb)) "preavg" 8 = Ok (P k', rest)) ->
  compute_predicted_position dtf sv cmv ts_a ts_b pos k (Some (Some va, Some vb)) "preavg" 8 = Err e ->
  field_demo dtf sv cmv lo hi ts_a ts_b va vb pos = Err e.
Proof. exact (@demo_fails). Qed.
Print Assumptions C120_demo_fails.

(** C120. With clean data the demonstration runs. If one combiner is at another place than the plan says, and the rest are right, its red line
    goes from the planned to the true place, provided the error has a part along both CMVs. *)
Theorem C120_demo_finds :
  forall (K : Type) (HK : Label K) dtf sv cmv lo hi (ts_a ts_b : list (K * list (option R))) va vb pos (X : K -> R * R) i m q,
  sorts sv -> NoDup (map fst pos) -> ~ parallel va vb -> (2 <= length pos)%nat ->
  clean_data dtf (map fst pos) X ts_a va -> clean_data dtf (map fst pos) X ts_b vb ->
  (forall j p, j <> m -> dget pos j = Some p -> p = X j) ->
  nth_error pos i = Some (m, q) -> (lo <= i < hi)%nat -> inner (sub2 (X m) q) va <> 0 -> inner (sub2 (X m) q) vb <> 0 ->
  exists df, field_demo dtf sv cmv lo hi ts_a ts_b va vb pos = Ok df /\
    nth_error df i = Some (m, [Fin (fst q); Fin (snd q); Fin (fst (X m)); Fin (snd (X m))]) /\
    nth_error (red_lines df) i = Some ((Fin (fst q), Fin (snd q)), (Fin (fst (X m)), Fin (snd (X m)))).
Proof. exact (@demo_finds). Qed.
Print Assumptions C120_demo_finds.

(** C120. With clean data and a right plan there is nothing to draw: the predicted places are all NaN, not the planned places. *)
Theorem C120_demo_right_plan :
  forall (K : Type) (HK : Label K) dtf sv cmv lo hi (ts_a ts_b : list (K * list (option R))) va vb pos (X : K -> R * R),
  sorts sv -> NoDup (map fst pos) -> ~ parallel va vb -> (2 <= length pos)%nat ->
  clean_data dtf (map fst pos) X ts_a va -> clean_data dtf (map fst pos) X ts_b vb ->
  (forall j p, dget pos j = Some p -> p = X j) ->
  exists df, field_demo dtf sv cmv lo hi ts_a ts_b va vb pos = Ok df /\
    forall i k q, nth_error pos i = Some (k, q) -> (lo <= i < hi)%nat -> nth_error df i = Some (k, [Fin (fst q); Fin (snd q); Nan; Nan]).
Proof. exact (@demo_right_plan). Qed.
Print Assumptions C120_demo_right_plan.

(** C120. The steps of the notebook give the position that compute_predicted_position gives (mode 'coherence'), and the same exceptions, if every
    coherence is a finite number. The distance printed is the one between the planned and the predicted position, and
    NaN when a coordinate of the prediction is. *)
Theorem C120_worked_same :
  forall (K : Type) (HK : Label K) dtf sv cmv (ts_a ts_b : list (K * list (option R))) pos ref va vb n,
  va <> (0, 0) -> vb <> (0, 0) ->
  (forall df sig delay coh, df = ts_a \/ df = ts_b -> dget df ref = Some sig -> dtf (ref, sig) df = Ok (delay, coh) -> all_finite coh) ->
  match compute_predicted_position dtf sv cmv ts_a ts_b pos ref (Some (Some va, Some vb)) "coherence" n with
  | Ok (p, _) => exists d, worked_steps dtf sv ts_a ts_b pos ref va vb n = Ok (p, d) /\
      (forall x y rp, p = (Fin x, Fin y) -> dget pos ref = Some rp -> d = Fin (dist2 (x, y) rp)) /\
      (fst p = Nan \/ snd p = Nan -> d = Nan)
  | Err e => worked_steps dtf sv ts_a ts_b pos ref va vb n = Err e
  end.
Proof. exact (@worked_same). Qed.
Print Assumptions C120_worked_same.

(** C120. Not so with a dead sensor (no coherence): it is ranked above the rest, so the notebook keeps the combiner itself among the
    points it averages, and the answer is pulled towards the plan. The sensor at (10, 20) is found by the library, the notebook puts it at (7.5, 15). *)
Theorem C120_worked_dead_sensor_refuted :
  exists (dtf : nat * list (option R) -> list (nat * list (option R)) -> result (list fl * list fl)) sv cmv ts_a ts_b pos va vb rest d,
  sorts sv /\ va <> (0, 0) /\ vb <> (0, 0) /\ NoDup (map fst pos) /\
  compute_predicted_position dtf sv cmv ts_a ts_b pos 0%nat (Some (Some va, Some vb)) "coherence" 8 = Ok ((Fin 10, Fin 20), rest) /\
  worked_steps dtf sv ts_a ts_b pos 0%nat va vb 8 = Ok ((Fin 7.5, Fin 15), d).
Proof. exact (@worked_dead_sensor_refuted). Qed.
Print Assumptions C120_worked_dead_sensor_refuted.

(** C120. The demonstration on the second and third of three combiners. *)
Example C120_demo_example :
  sorts (sort_by (rank_leb (K := nat))) /\ NoDup (map fst trio) /\ ~ parallel (10, 0) (0, 5) /\ (2 <= length trio)%nat /\
  clean_data trio_dtf (map fst trio) trio_truth (trio_df 1) (10, 0) /\ clean_data trio_dtf (map fst trio) trio_truth (trio_df 2) (0, 5) /\
  (forall j p, j <> 1%nat -> dget trio j = Some p -> p = trio_truth j) /\ nth_error trio 1 = Some (1%nat, (100, 100)) /\
  inner (sub2 (trio_truth 1) (100, 100)) (10, 0) <> 0 /\ inner (sub2 (trio_truth 1) (100, 100)) (0, 5) <> 0 /\
  exists df, field_demo trio_dtf (sort_by rank_leb) no_cmv 1 3 (trio_df 1) (trio_df 2) (10, 0) (0, 5) trio = Ok df /\
    nth_error df 0 = Some (0%nat, [Nan; Nan; Nan; Nan]) /\ nth_error df 1 = Some (1%nat, [Fin 100; Fin 100; Fin 110; Fin 130]).
Proof. exact (@demo_example). Qed.

