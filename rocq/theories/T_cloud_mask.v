(** Property theorems. Clear mask and cloud edges.
    Proofs are in the X_ file of the same name. *)
From Coq Require Import Permutation.
From Verif Require Import Prelude PreludeFacts RealBase Fl RealStat Spec_stats M_stats P_stats P_quantile P_list X_stats_err Spec_copula M_cloudfield Spec_cloudfield
  X_copula_down X_field_pos X_cloud_random.
Local Open Scope R_scope.
From Verif Require Import X_cloud_mask.

(** C72. The mask marks a lower level set of the field. With all values distinct it covers the requested fraction up to one pixel; with
    ties it never covers less. *)
Theorem C72_mask_value :
  forall field q, 0 < q <= 1 -> concat field <> [] ->
  exists t, let clear := count (fun v => Rleb v t) field in
    (n_pixels field - 1) * q < INR clear /\
    (NoDup (concat field) -> INR clear <= (n_pixels field - 1) * q + 1) /\
    (Rabs (q - INR clear / n_pixels field) <= 1 / 100000000 + 1 / 1000 * (INR clear / n_pixels field) ->
       calc_clear_mask field q = Ok (map (map (below t)) field)) /\
    (1 / 100000000 + 1 / 1000 * (INR clear / n_pixels field) < Rabs (q - INR clear / n_pixels field) ->
       calc_clear_mask field q = Err AssertionError).
Proof. exact (@mask_value). Qed.
Print Assumptions C72_mask_value.

(** C72. Special requests: none clear, all clear, outside [0, 1], empty field. *)
Theorem C72_mask_edge :
  forall field q,
  ((q < 0 \/ 1 < q) -> calc_clear_mask field q = Err ValueError) /\
  (concat field <> [] -> calc_clear_mask field 0 = Ok (map (map (fun _ => 0)) field)) /\
  (concat field <> [] -> calc_clear_mask field 1 = Ok (map (map (fun _ => 1)) field)) /\
  (concat field = [] -> 0 < q <= 1 -> calc_clear_mask field q = Err IndexError) /\
  (concat field = [] -> calc_clear_mask field 0 = Err AssertionError).
Proof. exact (@mask_edge). Qed.
Print Assumptions C72_mask_edge.

(** C72. With distinct values and a request of at least 1001 pixels the function always succeeds. *)
Theorem C72_mask_succeeds :
  forall field q, 0 < q <= 1 -> NoDup (concat field) -> 1001 <= n_pixels field * q -> exists mask, calc_clear_mask field q = Ok mask.
Proof. exact (@mask_succeeds). Qed.
Print Assumptions C72_mask_succeeds.

(** C72. Refuted: the final self-check rejects legitimate requests. Every field of at most ten million distinct values has a fraction it refuses,
    and a constant field is refused for every fraction strictly between 0 and 99 percent. *)
Theorem C72_mask_selfcheck_refuted :
  forall field, concat field <> [] ->
  (NoDup (concat field) -> n_pixels field <= 10000000 -> exists q, 0 < q < 1 /\ calc_clear_mask field q = Err AssertionError) /\
  (forall c q, within c c field -> 0 < q < 99 / 100 -> calc_clear_mask field q = Err AssertionError).
Proof. exact (@mask_selfcheck_refuted). Qed.
Print Assumptions C72_mask_selfcheck_refuted.

Example C72_mask_example :
  exists t, calc_clear_mask [[1; 2]; [3; 4]] (1 / 2) = Ok (map (map (below t)) [[1; 2]; [3; 4]]) /\ count (fun v => Rleb v t) [[1; 2]; [3; 4]] = 2%nat.
Proof. exact (@mask_example). Qed.

