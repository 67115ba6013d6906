(** Property theorems. Interpolated random fields.
    Proofs are in the X_ file of the same name. *)
From Coq Require Import Sorted.
From Verif Require Import Prelude PreludeFacts RealBase Fl RealStat Spec_stats M_stats P_stats P_quantile P_list Spec_copula M_cloudfield Spec_cloudfield.
Local Open Scope R_scope.
From Verif Require Import X_cloud_random.

(** C69. Shapes, and where the coarse values come from: a single row or column is used twice. *)
Theorem C69_random_shape :
  forall rnd k a b n m coarse fine, generator rnd -> random_at_scale rnd k (a, b) (n, m) = (coarse, fine) ->
  shaped n m fine /\ shaped (Nat.max (Z.to_nat a) 2) (Nat.max (Z.to_nat b) 2) coarse /\
  forall i j v, cell_at coarse i j v -> exists i' j', cell_at (rnd k (Nat.max (Z.to_nat a) 1) (Nat.max (Z.to_nat b) 1)) i' j' v /\
    (i' = i \/ (Z.to_nat a <= 1)%nat /\ i' = 0%nat) /\ (j' = j \/ (Z.to_nat b <= 1)%nat /\ j' = 0%nat).
Proof. exact (@random_shape). Qed.
Print Assumptions C69_random_shape.

(** C69. Every value of the field is the bilinear blend of the four coarse values around it. *)
Theorem C69_random_value :
  forall rnd k a b n m coarse fine p q i j s t v00 v01 v10 v11, generator rnd -> random_at_scale rnd k (a, b) (n, m) = (coarse, fine) ->
  (p < n)%nat -> (q < m)%nat -> 0 <= s <= 1 -> 0 <= t <= 1 ->
  INR p / INR (n - 1) * INR (length coarse - 1) = INR i + s ->
  INR q / INR (m - 1) * INR (length (hd [] coarse) - 1) = INR j + t ->
  cell_at coarse i j v00 -> cell_at coarse i (j + 1) v01 -> cell_at coarse (i + 1) j v10 -> cell_at coarse (i + 1) (j + 1) v11 ->
  cell_at fine p q (blend s (blend t v00 v01) (blend t v10 v11)).
Proof. exact (@random_value). Qed.
Print Assumptions C69_random_value.

(** C69. The field stays within the range of the coarse values, hence within [0, 1). *)
Theorem C69_random_range :
  forall rnd k a b n m coarse fine, generator rnd -> random_at_scale rnd k (a, b) (n, m) = (coarse, fine) ->
  (forall lo hi, within lo hi coarse -> within lo hi fine) /\ (forall v, In v (concat fine) -> 0 <= v < 1).
Proof. exact (@random_range). Qed.
Print Assumptions C69_random_range.

(** C69. Corners of the field are corners of the coarse values. *)
Theorem C69_random_corners :
  forall rnd k a b n m coarse fine p q i j v, generator rnd -> random_at_scale rnd k (a, b) (n, m) = (coarse, fine) ->
  (p < n)%nat -> (q < m)%nat ->
  (p = 0 /\ i = 0 \/ 0 < p /\ p = n - 1 /\ i = length coarse - 1)%nat -> (q = 0 /\ j = 0 \/ 0 < q /\ q = m - 1 /\ j = length (hd [] coarse) - 1)%nat ->
  cell_at coarse i j v -> cell_at fine p q v.
Proof. exact (@random_corners). Qed.
Print Assumptions C69_random_corners.

Example C69_random_example :
  exists rnd, generator rnd /\ forall coarse fine, random_at_scale rnd 0 (2, 1)%Z (3, 2)%nat = (coarse, fine) ->
  cell_at fine 1 1 (1 / 4) /\ shaped 2 2 coarse.
Proof. exact (@random_example). Qed.

