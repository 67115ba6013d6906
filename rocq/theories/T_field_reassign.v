(** Property theorems. Final forms: reassignment of the combiners of one inverter in three rounds.
    Proofs are in the X_ file of the same name. *)
From Coq Require Import String Permutation Sorted Lia Lra.
From Verif Require Import Prelude PreludeFacts RealBase Fl M_spatial Spec_spatial M_cmv M_field_remap Spec_field P_field_remap P_field_assign P_field_lsa
  M_field_pos Spec_field_pos X_field_pos Spec_field_mislabel X_field_mislabel M_field_loop Spec_field_loop P_field_loop X_field_loop M_field_reassign Spec_field_reassign.
Local Open Scope nat_scope.
From Verif Require Import X_field_reassign.

(** C116. The combiners chosen are exactly those whose inverter is named, in plan order; other inverters are not mixed in, whatever their names. *)
Theorem C116_refs_chosen :
  forall (K : Type) (HK : Label K) inv_of (ids : list K) invs,
  picks (fun k => In (inv_of k) invs) ids (inverter_refs inv_of ids invs).
Proof. exact (@refs_chosen). Qed.
Print Assumptions C116_refs_chosen.

(** C116. The demo in full. If the predictions can be computed, it returns three remaps of the chosen combiners among themselves, each
    one-to-one; combiners of other inverters stay in place in every layout. The first remap is a best reassignment of the plan; each later one
    is a best reassignment of the layout of the round before, expressed in terms of the original plan: moving the plan by it is the same as moving the
    previous layout by the new reassignment. The second answer is Yes exactly when the third remap equals the second; a Yes to the
    first question is right, and a No is right if no prediction was missing in the first round. *)
Theorem C116_reassign_sound :
  forall (K : Type) (HK : Label K) lsa predict (plan : table K string R) refs,
  lsa_correct lsa -> wf_table plan -> all_located plan -> NoDup refs -> (forall k, In k refs -> In k (t_index plan)) ->
  (forall L k, wf_table L -> t_index L = t_index plan -> all_located L -> In k refs -> exists x, predict L k = Ok x) ->
  exists P0 P1 P2 a0 a1 a2 L1 L2 same1 same2,
    reassign_demo lsa predict plan refs = Ok (mkReassigned (P0, P1, P2) (a0, a1, a2) (L1, L2) (same1, same2)) /\
    predicted_by predict refs plan P0 /\ best_for refs plan P0 a0 /\ only_refs plan refs a0 L1 /\
    predicted_by predict refs L1 P1 /\ only_refs plan refs a1 L2 /\ predicted_by predict refs L2 P2 /\
    one_to_one refs a1 /\ one_to_one refs a2 /\
    (exists b1, best_for refs L1 P1 b1 /\ followed_by a0 b1 a1 /\ only_refs L1 refs b1 L2) /\
    (exists b2, best_for refs L2 P2 b2 /\ followed_by a1 b2 a2) /\
    (same2 = true <-> same_map a2 a1) /\ (same1 = true -> same_map a1 a0) /\ (no_nan P0 -> same_map a1 a0 -> same1 = true).
Proof. exact (@reassign_sound). Qed.
Print Assumptions C116_reassign_sound.

(** C116. "Now we've converged": when the second answer is Yes, the last layout is the one the final remap describes, and any number of further rounds
    changes neither the remap nor the layout nor the predictions. *)
Theorem C116_reassign_converged :
  forall (K : Type) (HK : Label K) lsa predict (plan : table K string R) refs P0 P1 P2 a0 a1 a2 L1 L2 same1,
  reassign_demo lsa predict plan refs = Ok (mkReassigned (P0, P1, P2) (a0, a1, a2) (L1, L2) (same1, true)) ->
  a2 = a1 /\ remap_positions plan a2 None = Ok L2 /\
  forall a L, more_rounds lsa predict plan refs (a2, L2) (a, L) -> a = a2 /\ L = L2 /\
    next_round lsa predict plan refs (a, L) (a2, L2) P2 /\ forall a' L' P, next_round lsa predict plan refs (a, L) (a', L') P -> P = P2 /\ a' = a2 /\ L' = L2.
Proof. exact (@reassign_converged). Qed.
Print Assumptions C116_reassign_converged.

(** C116. Recovery: if, for every layout the demo may try, each prediction is nearest to the combiner's true location among those of the inverter, or is
    missing while the layout has that combiner right, the demo finds the true reassignment in the first round, keeps it and answers Yes in the end. *)
Theorem C116_reassign_recovers :
  forall (K : Type) (HK : Label K) lsa predict (plan : table K string R) refs s,
  lsa_correct lsa -> wf_table plan -> all_located plan -> NoDup refs -> (forall k, In k refs -> In k (t_index plan)) -> one_to_one refs s ->
  (forall r L, one_to_one refs r -> wf_table L -> only_refs plan refs r L -> forall k m, In (k, m) s ->
     (exists p, predict L k = Ok (Some (fst p), Some (snd p)) /\ nearest_ref plan refs p m) \/
     (exists x, predict L k = Ok x /\ (fst x = None \/ snd x = None) /\ In (k, m) r)) ->
  exists P0 P1 P2 a0 a1 a2 L1 L2 same1,
    reassign_demo lsa predict plan refs = Ok (mkReassigned (P0, P1, P2) (a0, a1, a2) (L1, L2) (same1, true)) /\
    same_map a0 s /\ same_map a1 s /\ same_map a2 s /\ only_refs plan refs s L1 /\ only_refs plan refs s L2.
Proof. exact (@reassign_recovers). Qed.
Print Assumptions C116_reassign_recovers.

(** C116. The whole chain with one pair of data tables: when the delays are the true travel times, the two CMVs are not parallel, any two
    locations of the inverter differ along both, combiners elsewhere are listed where they are, and mode='all' is used, the
    demo finds the true reassignment of the inverter in its first round and confirms it. *)
Theorem C116_reassign_exact :
  forall (K : Type) (HK : Label K) lsa dtf sv cmv dfa va dfb vb n (plan : table K string R) refs s (X : K -> R * R),
  lsa_correct lsa -> sorts sv -> wf_table plan -> all_located plan -> NoDup refs -> (forall k, In k refs -> In k (t_index plan)) ->
  one_to_one refs s -> (forall k m, In (k, m) s -> position plan m = Some (X k)) ->
  (forall k, In k (t_index plan) -> ~ In k refs -> position plan k = Some (X k)) ->
  ~ parallel va vb -> exact_delays dtf (t_index plan) X dfa va -> exact_delays dtf (t_index plan) X dfb vb ->
  (forall m m' q q', In m refs -> In m' refs -> m <> m' -> position plan m = Some q -> position plan m' = Some q' ->
     inner (sub2 q q') va <> 0%R /\ inner (sub2 q q') vb <> 0%R) ->
  exists P0 P1 P2 a0 a1 a2 L1 L2 same1,
    reassign_demo lsa (pair_pred dtf sv cmv dfa va dfb vb "all"%string n) plan refs = Ok (mkReassigned (P0, P1, P2) (a0, a1, a2) (L1, L2) (same1, true)) /\
    same_map a0 s /\ same_map a1 s /\ same_map a2 s /\ only_refs plan refs s L1 /\ only_refs plan refs s L2.
Proof. exact (@reassign_exact). Qed.
Print Assumptions C116_reassign_exact.

(** C116. Failures. A prediction that raises ends the demo with that exception if the ones before it succeed; a combiner that is not in the plan
    raises KeyError once its prediction could be computed. *)
Theorem C116_reassign_refused :
  forall (K : Type) (HK : Label K) lsa predict (plan : table K string R) refs,
  (forall l k r e, refs = l ++ k :: r -> (forall j, In j l -> exists x, predict plan j = Ok x) -> predict plan k = Err e ->
     reassign_demo lsa predict plan refs = Err e) /\
  (forall k, (forall j, In j refs -> exists x, predict plan j = Ok x) -> In k refs -> ~ In k (t_index plan) ->
     reassign_demo lsa predict plan refs = Err KeyError).
Proof. exact (@reassign_refused). Qed.
Print Assumptions C116_reassign_refused.

(** C116. The first answer can be wrong: after a round with a missing prediction the remap is in plan order, the next one in order of names. Here
    nothing moves in any round, and the demo says the remap changed. *)
Theorem C116_reassign_answer_refuted :
  exists (plan : table string string R) predict refs,
  wf_table plan /\ all_located plan /\ NoDup refs /\ (forall k, In k refs -> In k (t_index plan)) /\ (forall L k, exists x, predict L k = Ok x) /\
  forall lsa, lsa_correct lsa -> exists P0 P1 P2 a0 a1 a2 L1 L2,
    reassign_demo lsa predict plan refs = Ok (mkReassigned (P0, P1, P2) (a0, a1, a2) (L1, L2) (false, true)) /\
    same_map a0 (identity_remap refs) /\ same_map a1 a0 /\ same_map a2 a0 /\ L1 = plan /\ L2 = plan.
Proof. exact (@reassign_answer_refuted). Qed.
Print Assumptions C116_reassign_answer_refuted.

Example C116_reassign_example :
  wf_table ex_plan /\ all_located ex_plan /\ NoDup [0; 1] /\ (forall k, In k [0; 1] -> In k (t_index ex_plan)) /\
  one_to_one [0; 1] [(0, 1); (1, 0)] /\ (forall k m, In (k, m) [(0, 1); (1, 0)] -> position ex_plan m = Some (ex_truth k)) /\
  (forall k, In k (t_index ex_plan) -> ~ In k [0; 1] -> position ex_plan k = Some (ex_truth k)) /\
  ~ parallel (1, 0)%R (0, 1)%R /\
  exact_delays ex_exact (t_index ex_plan) ex_truth [(0, [None]); (1, [None]); (2, [None])] (1, 0)%R /\
  exact_delays ex_exact (t_index ex_plan) ex_truth [(0, []); (1, []); (2, [])] (0, 1)%R /\
  (forall m m' q q', In m [0; 1] -> In m' [0; 1] -> m <> m' -> position ex_plan m = Some q -> position ex_plan m' = Some q' ->
     inner (sub2 q q') (1, 0)%R <> 0%R /\ inner (sub2 q q') (0, 1)%R <> 0%R) /\
  lsa_correct lsa_brute /\ sorts (sort_by (rank_leb (K := nat))).
Proof. exact (@reassign_example). Qed.

