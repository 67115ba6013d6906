(** Property theorems. Final forms: the iterative reassignment of a whole plant.
    Proofs are in the X_ file of the same name. *)
From Coq Require Import String Permutation Sorted Lia Lra.
From Verif Require Import Prelude PreludeFacts RealBase Fl M_spatial Spec_spatial M_cmv M_field_remap Spec_field P_field_remap P_field_assign P_field_lsa
  M_field_pos Spec_field_pos X_field_pos Spec_field_mislabel X_field_mislabel M_field_loop Spec_field_loop P_field_loop.
Local Open Scope nat_scope.
From Verif Require Import X_field_loop.

(** C108. The loop ends after at most ten rounds, whatever the predictions: allowing more rounds changes nothing. *)
Theorem C108_process_bound :
  forall (K : Type) (HK : Label K) inv_of lsa mean_pred (plan : table K string R) fuel,
  10 <= fuel -> rounds inv_of lsa mean_pred fuel plan (loop_start plan) = field_process inv_of lsa mean_pred plan.
Proof. exact (@process_bound). Qed.
Print Assumptions C108_process_bound.

(** C108. What the process returns: the history of at most ten rounds, each made from the remap and layout of the
    round before; all remaps but the last are different; it stopped because the last one had occurred before, or
    after ten rounds. The remap reported as final is the one before the last; "failed to converge" compares those
    two entry by entry. *)
Theorem C108_process_history :
  forall (K : Type) (HK : Label K) inv_of lsa mean_pred (plan : table K string R) st ch,
  field_process inv_of lsa mean_pred plan = Ok (st, ch) ->
  exists n b, 1 <= n <= 10 /\
    length (l_predictions st) = n /\ length (l_remaps st) = S n /\ length (l_positions st) = S n /\
    nth_error (l_remaps st) 0 = Some (identity_remap (t_index plan)) /\ nth_error (l_positions st) 0 = Some plan /\
    (forall i P, nth_error (l_predictions st) i = Some P -> exists a L a' L',
       nth_error (l_remaps st) i = Some a /\ nth_error (l_positions st) i = Some L /\
       nth_error (l_remaps st) (S i) = Some a' /\ nth_error (l_positions st) (S i) = Some L' /\
       one_round inv_of lsa mean_pred plan a L P a' L') /\
    NoDup (firstn n (l_remaps st)) /\
    nth_error (l_remaps st) n = Some b /\ (In b (firstn n (l_remaps st)) \/ n = 10) /\
    nth_error (l_remaps st) (n - 1) = Some (l_remap st) /\ nth_error (l_positions st) (n - 1) = Some (l_pos_map st) /\
    (forall k, In k ch <-> exists i s q, nth_error b i = Some (k, s) /\ nth_error (l_remap st) i = Some q /\ q <> (k, s)).
Proof. exact (@process_history). Qed.
Print Assumptions C108_process_history.

(** C108. With predictions that never fail (NaN allowed) the process never fails, and each layout of the history is the
    plan rearranged by the corresponding remap, which lists every entity exactly once. If no inverter's name occurs
    inside another's, every remap is one-to-one and moves nothing across inverters: no location is lost or given
    out twice. *)
Theorem C108_process_sound :
  forall (K : Type) (HK : Label K) inv_of lsa mean_pred (plan : table K string R),
  lsa_correct lsa -> wf_table plan -> all_located plan ->
  (forall L k, wf_table L -> t_index L = t_index plan -> all_located L -> In k (t_index plan) -> exists x, mean_pred L k = Ok x) ->
  exists st ch, field_process inv_of lsa mean_pred plan = Ok (st, ch) /\
    forall i a L, nth_error (l_remaps st) i = Some a -> nth_error (l_positions st) i = Some L ->
      Permutation (map fst a) (t_index plan) /\ (forall p, In p a -> In (snd p) (t_index plan)) /\ rearranged plan a L /\
      (clear_names inv_of (t_index plan) -> one_to_one (t_index plan) a /\ keeps_inverter inv_of a).
Proof. exact (@process_sound). Qed.
Print Assumptions C108_process_sound.

(** C108. Recovery: if, for every layout the process may try, each prediction is nearest to the entity's true location
    among the locations of its inverter (or is NaN and the layout has that entity right already), the process ends
    with the true reassignment after at most two rounds, reports it, and reports nothing as unconverged. *)
Theorem C108_process_recovers :
  forall (K : Type) (HK : Label K) inv_of lsa mean_pred (plan : table K string R) s,
  lsa_correct lsa -> wf_table plan -> all_located plan -> clear_names inv_of (t_index plan) ->
  one_to_one (t_index plan) s -> keeps_inverter inv_of s ->
  (forall r L, one_to_one (t_index plan) r -> keeps_inverter inv_of r -> wf_table L -> rearranged plan r L -> forall k m, In (k, m) s ->
     (exists p, mean_pred L k = Ok (Some (fst p), Some (snd p)) /\ nearest_is inv_of plan p m) \/
     (exists x, mean_pred L k = Ok x /\ (fst x = None \/ snd x = None) /\ In (k, m) r)) ->
  exists st, field_process inv_of lsa mean_pred plan = Ok (st, []) /\ length (l_predictions st) <= 2 /\
    Permutation (l_remap st) s /\ rearranged plan s (l_pos_map st).
Proof. exact (@process_recovers). Qed.
Print Assumptions C108_process_recovers.

(** C108. The whole chain: when the delays are the true travel times, the CMVs of each pair are not parallel, any two
    locations of an inverter differ along both CMVs of some pair, and mode='all' is used, the process finds the
    true reassignment, however many labels within each inverter are wrong. *)
Theorem C108_process_exact :
  forall (K : Type) (HK : Label K) inv_of lsa dtf sv cmv pairs n (plan : table K string R) s (X : K -> R * R),
  lsa_correct lsa -> sorts sv -> wf_table plan -> all_located plan -> clear_names inv_of (t_index plan) ->
  one_to_one (t_index plan) s -> keeps_inverter inv_of s -> (forall k m, In (k, m) s -> position plan m = Some (X k)) ->
  (forall dfa va dfb vb, In ((dfa, va), (dfb, vb)) pairs ->
     ~ parallel va vb /\ exact_delays dtf (t_index plan) X dfa va /\ exact_delays dtf (t_index plan) X dfb vb) ->
  (forall m m' q q', In m (t_index plan) -> In m' (t_index plan) -> inv_of m = inv_of m' -> m <> m' ->
     position plan m = Some q -> position plan m' = Some q' ->
     exists dfa va dfb vb, In ((dfa, va), (dfb, vb)) pairs /\ inner (sub2 q q') va <> 0%R /\ inner (sub2 q q') vb <> 0%R) ->
  exists st, field_process inv_of lsa (pairs_mean dtf sv cmv pairs "all"%string n) plan = Ok (st, []) /\ length (l_predictions st) <= 2 /\
    Permutation (l_remap st) s /\ rearranged plan s (l_pos_map st).
Proof. exact (@process_exact). Qed.
Print Assumptions C108_process_exact.

(** C108. Inverter names that contain one another break this: with inverters "1" and "12" the first one's group takes
    in the second one's combiners, and the final map gives one location to two combiners and another to none. *)
Theorem C108_process_names_refuted :
  exists (plan : table string string R) inv_of mean_pred,
  wf_table plan /\ all_located plan /\ (forall L k, exists x, mean_pred L k = Ok x) /\
  forall lsa, lsa_correct lsa -> exists st ch, field_process inv_of lsa mean_pred plan = Ok (st, ch) /\
    ~ one_to_one (t_index plan) (l_remap st) /\
    forall p, In p (l_remap st) -> snd p = "A-12"%string.
Proof. exact (@process_names_refuted). Qed.
Print Assumptions C108_process_names_refuted.

(** C108. Two combiners of inverter 20 with exchanged labels; eastward and northward clouds. *)
Example C108_process_example :
  lsa_correct lsa_brute /\ sorts (sort_by (rank_leb (K := nat))) /\ wf_table swap_plan /\ all_located swap_plan /\ clear_names swap_inv (t_index swap_plan) /\
  one_to_one (t_index swap_plan) [(0, 1); (1, 0)] /\ keeps_inverter swap_inv [(0, 1); (1, 0)] /\
  (forall k m, In (k, m) [(0, 1); (1, 0)] -> position swap_plan m = Some (swap_truth k)) /\
  (forall dfa va dfb vb, In ((dfa, va), (dfb, vb)) swap_pairs ->
     ~ parallel va vb /\ exact_delays swap_exact (t_index swap_plan) swap_truth dfa va /\ exact_delays swap_exact (t_index swap_plan) swap_truth dfb vb) /\
  (forall m m' q q', In m (t_index swap_plan) -> In m' (t_index swap_plan) -> swap_inv m = swap_inv m' -> m <> m' ->
     position swap_plan m = Some q -> position swap_plan m' = Some q' ->
     exists dfa va dfb vb, In ((dfa, va), (dfb, vb)) swap_pairs /\ inner (sub2 q q') va <> 0%R /\ inner (sub2 q q') vb <> 0%R).
Proof. exact (@process_example). Qed.

