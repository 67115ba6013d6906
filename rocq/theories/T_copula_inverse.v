(** Property theorems. Inverse sampling from a discretised distribution (copula._inverse_sample).
    Proofs are in the X_ file of the same name. *)
From Coq Require Import Permutation Sorted.
From Verif Require Import Prelude PreludeFacts RealBase Fl RealStat M_spatial Spec_spatial Spec_stats M_copula Spec_copula P_stats.
Local Open Scope R_scope.
From Verif Require Import X_copula_inverse.

(** C64. Between two neighbouring table values the result is linear; below the table it starts at (0, -2), above it stops at (1, 2). *)
Theorem C64_inverse_linear :
  forall x cdf c c' v v' r, in_unit cdf -> lower_node x cdf c v -> upper_node x cdf c' v' ->
  0 <= c -> c <= r < c' -> c' <= 1 -> (forall d, In d cdf -> ~ c < d < c') ->
  inverse_sample x cdf r = v + (r - c) / (c' - c) * (v' - v).
Proof. exact (@inverse_linear). Qed.
Print Assumptions C64_inverse_linear.

(** C64. Outside: 2 from 1 upwards, -2 below 0 (and at 0 when the table starts above 0). *)
Theorem C64_inverse_ends :
  forall x cdf r, in_unit cdf ->
  (1 <= r -> inverse_sample x cdf r = 2) /\ (r < 0 -> inverse_sample x cdf r = -2) /\
  (~ In 0 cdf -> inverse_sample x cdf 0 = -2).
Proof. exact (@inverse_ends). Qed.
Print Assumptions C64_inverse_ends.

(** C64. At every table value below 1 the stored point is returned (the first one where the table repeats a value). *)
Theorem C64_inverse_node :
  forall x cdf i c v, in_unit cdf -> length x = length cdf -> c < 1 ->
  nth_error cdf i = Some c -> nth_error x i = Some v -> (forall j, (j < i)%nat -> nth_error cdf j <> Some c) ->
  inverse_sample x cdf c = v.
Proof. exact (@inverse_node). Qed.
Print Assumptions C64_inverse_node.

(** C64. The result stays within [-2, 2] whenever the points do. *)
Theorem C64_inverse_range :
  forall x cdf r, in_unit cdf -> length x = length cdf -> (forall y, In y x -> -2 <= y <= 2) ->
  -2 <= inverse_sample x cdf r <= 2.
Proof. exact (@inverse_range). Qed.
Print Assumptions C64_inverse_range.

(** C64. For a non-decreasing table the result is non-decreasing in r, for all real r. *)
Theorem C64_inverse_monotone :
  forall x cdf r r', in_unit cdf -> length x = length cdf -> (forall y, In y x -> -2 <= y <= 2) ->
  rising x -> rising cdf -> r <= r' -> inverse_sample x cdf r <= inverse_sample x cdf r'.
Proof. exact (@inverse_monotone). Qed.
Print Assumptions C64_inverse_monotone.

Example C64_inverse_example :
  in_unit [1/4; 1/4; 1] /\ inverse_sample [0; 1; 2] [1/4; 1/4; 1] (1/4) = 0 /\ inverse_sample [0; 1; 2] [1/4; 1/4; 1] (5/8) = 1.
Proof. exact (@inverse_example). Qed.

