(** Property theorems. Final forms: the pool of worker processes gives what the plain loop gives.
    Proofs are in the X_ file of the same name. *)
From Coq Require Import String Permutation Sorted Lia.
From Verif Require Import Prelude PreludeFacts RealBase Fl M_spatial Spec_spatial M_cmv M_field_remap Spec_field P_field_remap P_field_lsa
  M_field_pos Spec_field_pos X_field_pos Spec_field_mislabel X_field_mislabel M_field_loop Spec_field_loop X_field_loop M_field_pool Spec_field_pool P_field_pool.
Local Open Scope nat_scope.
From Verif Require Import X_field_pool.

(** C113. Whatever the number of workers and the schedule, kills included: if the main process gets through, it ends as the plain loop does, with the same values or the same exception. *)
Theorem C113_pool_sequential :
  forall (A B S : Type) (task : A -> result B) (use : S -> B -> result S) workers tasks s evs p out,
  pool_run task use workers (length tasks) evs (pool_start tasks s) = Some p -> outcome (p_main p) = Some out ->
  out = one_after_another task use tasks s.
Proof. exact (@pool_sequential). Qed.
Print Assumptions C113_pool_sequential.

(** C113. No schedule goes on for ever: each has at most three moves per task and one more. *)
Theorem C113_pool_bound :
  forall (A B S : Type) (task : A -> result B) (use : S -> B -> result S) workers tasks s evs p,
  pool_run task use workers (length tasks) evs (pool_start tasks s) = Some p -> length evs <= 3 * length tasks + 1.
Proof. exact (@pool_bound). Qed.
Print Assumptions C113_pool_bound.

(** C113. With at least one worker and nobody killed, a schedule can only come to rest when the main process has got through. *)
Theorem C113_pool_finishes :
  forall (A B S : Type) (task : A -> result B) (use : S -> B -> result S) workers tasks s evs p,
  1 <= workers -> nobody_killed evs ->
  pool_run task use workers (length tasks) evs (pool_start tasks s) = Some p -> at_rest task use workers (length tasks) p ->
  outcome (p_main p) = Some (one_after_another task use tasks s).
Proof. exact (@pool_finishes). Qed.
Print Assumptions C113_pool_finishes.

(** C113. If a worker is killed at work, the main process waits for its result for ever: with tasks that all succeed it never gets through. *)
Theorem C113_pool_killed :
  forall (A B S : Type) (task : A -> result B) (use : S -> B -> result S) workers tasks s evs p w s',
  pool_run task use workers (length tasks) evs (pool_start tasks s) = Some p -> In (Kill w) evs ->
  one_after_another task use tasks s = Ok s' -> outcome (p_main p) = None.
Proof. exact (@pool_killed). Qed.
Print Assumptions C113_pool_killed.

(** C113. The multi-process workflow reaches exactly one outcome, that of the one-process workflow, whatever the schedules of its rounds. *)
Theorem C113_pool_same_as_serial :
  forall (K : Type) (HK : Label K) inv_of lsa dtf sv cmv pairs mode n workers (plan : table K string R) out, 1 <= workers ->
  pool_process inv_of lsa dtf sv cmv pairs mode n workers plan (loop_start plan) out <->
  out = field_process inv_of lsa (pairs_mean dtf sv cmv pairs mode n) plan.
Proof. exact (@pool_same_as_serial). Qed.
Print Assumptions C113_pool_same_as_serial.

(** C113. Two workers, the first task delivered last; one task failing; one worker killed. The swapped plant of C108 in four processes. *)
Example C113_pool_example :
  (exists p, pool_run tenfold keep 2 3 [Fetch 0; Fetch 1; Deliver 1; Fetch 1; Deliver 1; Deliver 0; Next; Next; Next; Next] (pool_start [1; 2; 3] []) = Some p /\
     p_main p = Ended [10; 20; 30] /\ at_rest tenfold keep 2 3 p) /\
  (exists p, pool_run tenfold keep 2 3 [Fetch 1; Fetch 0; Deliver 0; Fetch 0; Deliver 1; Next; Next] (pool_start [1; 7; 3] []) = Some p /\ p_main p = Stopped KeyError) /\
  (exists p, pool_run tenfold keep 2 3 [Fetch 0; Fetch 1; Kill 0; Deliver 1; Fetch 0; Deliver 0] (pool_start [1; 2; 3] []) = Some p /\ outcome (p_main p) = None /\ at_rest tenfold keep 2 3 p) /\
  exists st, pool_process swap_inv lsa_brute swap_exact (sort_by (rank_leb (K := nat))) no_cmv swap_pairs "all" 8 4 swap_plan (loop_start swap_plan) (Ok (st, [])) /\
    Permutation (l_remap st) [(0, 1); (1, 0)].
Proof. exact (@pool_example). Qed.

