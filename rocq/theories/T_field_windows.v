(** Property theorems. Final forms: the whole-plant workflow with the demo's choice of CMV pairs.
    Proofs are in the X_ file of the same name. *)
From Coq Require Import String Permutation Sorted Lia Lra.
From Verif Require Import Prelude PreludeFacts RealBase Fl M_spatial Spec_spatial M_cmv M_field_remap Spec_field P_field_lsa M_field_pos Spec_field_pos X_field_pos Spec_field_mislabel X_field_mislabel
  M_field_loop Spec_field_loop X_field_loop M_auto_cmv Spec_auto_cmv X_auto_cmv.
Local Open Scope R_scope.
From Verif Require Import X_field_windows.

(** C108. With the demo's own pairs: if in every time window the delays are the true travel times of clouds moving with the window's CMV, and any two
    locations of an inverter differ along both CMVs of some pair of windows crossing at more than 45 degrees, the true map is found in at most two
    rounds, however the labels are permuted within the inverters. *)
Theorem C108_process_windows :
  forall (K : Type) (HK : Label K) inv_of lsa dtf sv cmv (windows : list (list (K * list (option R)) * (R * R))) n (plan : table K string R) s (X : K -> R * R),
  lsa_correct lsa -> sorts sv -> wf_table plan -> all_located plan -> clear_names inv_of (t_index plan) ->
  one_to_one (t_index plan) s -> keeps_inverter inv_of s -> (forall k m, In (k, m) s -> position plan m = Some (X k)) ->
  (forall df v, In (df, v) windows -> exact_delays dtf (t_index plan) X df v) ->
  (forall m m' q q', In m (t_index plan) -> In m' (t_index plan) -> inv_of m = inv_of m' -> m <> m' ->
     position plan m = Some q -> position plan m' = Some q' ->
     exists p, earlier_later windows p /\ crosses_at 45 (snd (fst p)) (snd (snd p)) /\
       inner (sub2 q q') (snd (fst p)) <> 0 /\ inner (sub2 q q') (snd (snd p)) <> 0) ->
  exists st, field_process inv_of lsa (pairs_mean dtf sv cmv (cmv_pairs 45 windows) "all"%string n) plan = Ok (st, []) /\ (length (l_predictions st) <= 2)%nat /\
    Permutation (l_remap st) s /\ rearranged plan s (l_pos_map st).
Proof. exact (@process_windows). Qed.
Print Assumptions C108_process_windows.

(** C108. Two combiners with exchanged labels, an eastward and a northward window. *)
Example C108_windows_example :
  let windows := [(swap_df 1, (10, 0)); (swap_df 2, (0, 5))] in
  (forall df v, In (df, v) windows -> exact_delays swap_exact (t_index swap_plan) swap_truth df v) /\
  (forall m m' q q', In m (t_index swap_plan) -> In m' (t_index swap_plan) -> swap_inv m = swap_inv m' -> m <> m' ->
     position swap_plan m = Some q -> position swap_plan m' = Some q' ->
     exists p, earlier_later windows p /\ crosses_at 45 (snd (fst p)) (snd (snd p)) /\
       inner (sub2 q q') (snd (fst p)) <> 0 /\ inner (sub2 q q') (snd (snd p)) <> 0).
Proof. exact (@windows_example). Qed.

