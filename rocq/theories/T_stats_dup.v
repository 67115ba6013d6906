(** Property theorems. Error metrics on Series with repeated labels.
    Proofs are in the X_ file of the same name. *)
From Coq Require Import Permutation.
From Verif Require Import Prelude PreludeFacts RealBase Fl RealStat M_stats Spec_stats X_stats_err X_stats_ser M_stats_dup Spec_stats_dup.
Local Open Scope R_scope.
From Verif Require Import X_stats_dup.

(** C128. On identical indexes, repeated labels or not, rows are paired by position: the metrics are the array metrics of the pairs that both hold a value. *)
Theorem C128_repeated_same_index :
  forall (K : Type) (HK : Label K) (b e : ser K), map fst b = map fst e ->
  let P := position_pairs b e in
  Ok (dup_mse b e) = mse (map fst P) (map snd P) /\ Ok (dup_rmse b e) = rmse (map fst P) (map snd P) /\
  Ok (dup_mae b e) = mae (map fst P) (map snd P) /\ Ok (dup_mbe b e) = mbe (map fst P) (map snd P).
Proof. exact (@repeated_same_index). Qed.
Print Assumptions C128_repeated_same_index.

(** C128. On any other indexes, every row is paired with every row of the other series under the same label. *)
Theorem C128_repeated_product :
  forall (K : Type) (HK : Label K) (b e : ser K), map fst b <> map fst e ->
  let P := label_pairs b e in
  Ok (dup_mse b e) = mse (map fst P) (map snd P) /\ Ok (dup_rmse b e) = rmse (map fst P) (map snd P) /\
  Ok (dup_mae b e) = mae (map fst P) (map snd P) /\ Ok (dup_mbe b e) = mbe (map fst P) (map snd P).
Proof. exact (@repeated_product). Qed.
Print Assumptions C128_repeated_product.

(** C128. With unique labels these are the metrics of C34. *)
Theorem C128_repeated_unique :
  forall (K : Type) (HK : Label K) (b e : ser K), NoDup (map fst b) -> NoDup (map fst e) ->
  dup_mse b e = ser_mse b e /\ dup_rmse b e = ser_rmse b e /\ dup_mae b e = ser_mae b e /\ dup_mbe b e = ser_mbe b e.
Proof. exact (@repeated_unique). Qed.
Print Assumptions C128_repeated_unique.

(** C128. Row order, which does not matter with unique labels (C34), does with repeated ones: a series compared with itself has no error, compared
    with its own rows in another order it has. *)
Theorem C128_repeated_order_refuted :
  exists b e : ser nat, Permutation b e /\ dup_mse b b = Fin 0 /\ dup_mse b e = Fin 40.
Proof. exact (@repeated_order_refuted). Qed.
Print Assumptions C128_repeated_order_refuted.

(** C128. Repeated labels and a gap, on the same index and on another one. *)
Example C128_repeated_example :
  ~ NoDup (map fst twice) /\ map fst twice <> map fst twice_turned /\
  position_pairs twice [(1%nat, Some 11); (1%nat, None); (2%nat, Some 33)] = [(10, 11); (30, 33)] /\
  dup_mbe twice [(1%nat, Some 11); (1%nat, None); (2%nat, Some 33)] = Fin 2 /\
  label_pairs twice [(1%nat, Some 11); (3%nat, Some 5)] = [(10, 11); (20, 11)] /\
  dup_mbe twice [(1%nat, Some 11); (3%nat, Some 5)] = Fin (-4).
Proof. exact (@repeated_example). Qed.

