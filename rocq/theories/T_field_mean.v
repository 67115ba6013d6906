(** Property theorems. Final forms: how the field demos average the predictions of the CMV pairs.
    Proofs are in the X_ file of the same name. *)
From Coq Require Import String Lia Lra.
From Verif Require Import Prelude PreludeFacts RealBase Fl M_spatial Spec_spatial M_cmv M_field_remap Spec_field M_field_pos X_field_pos M_field_loop M_field_reassign.
Local Open Scope R_scope.
From Verif Require Import X_field_mean.

(** C108. What an entity's prediction is over several CMV pairs: in each coordinate the average of the pairs that give a number, nothing if none does.
    An infinite coordinate ends the process with ValueError, unless the pairs contradict each other with both infinities. *)
Theorem C108_pairs_averaged :
  forall (K : Type) (HK : Label K) dtf sv cmv pairs mode n (L : table K string R) k preds,
  predicts dtf sv cmv pairs mode n L k preds ->
  (forall es ns, map fst preds = map cell es -> map snd preds = map cell ns ->
     pairs_mean dtf sv cmv pairs mode n L k = Ok (average_of_present es, average_of_present ns)) /\
  (one_infinity (map fst preds) \/ one_infinity (map snd preds) -> pairs_mean dtf sv cmv pairs mode n L k = Err ValueError) /\
  (forall ns, In Pinf (map fst preds) -> In Ninf (map fst preds) -> map snd preds = map cell ns ->
     pairs_mean dtf sv cmv pairs mode n L k = Ok (None, average_of_present ns)).
Proof. exact (@pairs_averaged). Qed.
Print Assumptions C108_pairs_averaged.

(** C108. A pair that cannot be computed ends the average with its exception, if the pairs before it can. *)
Theorem C108_pairs_fail :
  forall (K : Type) (HK : Label K) dtf sv cmv before pr after mode n (L : table K string R) k preds dfa va dfb vb e,
  predicts dtf sv cmv before mode n L k preds -> pr = ((dfa, va), (dfb, vb)) ->
  compute_predicted_position dtf sv cmv dfa dfb (layout_sites L) k (Some (Some va, Some vb)) mode n = Err e ->
  pairs_mean dtf sv cmv (before ++ pr :: after) mode n L k = Err e.
Proof. exact (@pairs_fail). Qed.
Print Assumptions C108_pairs_fail.

(** C116. The prediction of the demo with one pair: a coordinate that is NaN is missing, an infinite one ends the demo with ValueError. *)
Theorem C116_one_pair :
  forall (K : Type) (HK : Label K) dtf sv cmv dfa va dfb vb mode n (L : table K string R) k p rest,
  compute_predicted_position dtf sv cmv dfa dfb (layout_sites L) k (Some (Some va, Some vb)) mode n = Ok (p, rest) ->
  (forall e n', p = (cell e, cell n') -> pair_pred dtf sv cmv dfa va dfb vb mode n L k = Ok (e, n')) /\
  (fst p = Pinf \/ fst p = Ninf \/ snd p = Pinf \/ snd p = Ninf -> pair_pred dtf sv cmv dfa va dfb vb mode n L k = Err ValueError).
Proof. exact (@one_pair). Qed.
Print Assumptions C116_one_pair.

(** C108. Three pairs: the averages are 4 and 3; with an infinite value added the process fails. *)
Example C108_average_example :
  map fst two_cells = map cell [Some 3; Some 5; None] /\ map snd two_cells = map cell [None; Some 2; Some 4] /\ average_of_present [Some 3; Some 5; None] = Some 4 /\ average_of_present [None; Some 2; Some 4] = Some 3 /\ average_of_present [None; None] = None /\ one_infinity (map fst (two_cells ++ [(Pinf, Fin 1)])).
Proof. exact (@average_example). Qed.

