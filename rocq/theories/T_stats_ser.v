(** Property theorems. Error metrics on pandas Series (stats.py).
    Proofs are in the X_ file of the same name. *)
From Coq Require Import Permutation Sorted.
From Verif Require Import Prelude PreludeFacts RealBase Fl RealStat M_stats Spec_stats X_stats_err.
Local Open Scope R_scope.
From Verif Require Import X_stats_ser.

(** C34. The Series metrics are the array metrics of the values paired by label. *)
Theorem C34_series_metrics :
  forall (K : Type) (HK : Label K) (b e : ser K) P,
  NoDup (map fst b) -> NoDup (map fst e) -> paired b e P ->
  Ok (ser_mse b e) = mse (map fst P) (map snd P) /\ Ok (ser_rmse b e) = rmse (map fst P) (map snd P) /\
  Ok (ser_mae b e) = mae (map fst P) (map snd P) /\ Ok (ser_mbe b e) = mbe (map fst P) (map snd P).
Proof. exact (@series_metrics). Qed.
Print Assumptions C34_series_metrics.

(** C34. Such a pairing always exists. *)
Theorem C34_series_pairing :
  forall (K : Type) (HK : Label K) (b e : ser K),
  NoDup (map fst b) -> NoDup (map fst e) -> exists P, paired b e P.
Proof. exact (@series_pairing). Qed.
Print Assumptions C34_series_pairing.

(** C34. The error series have one row per label of either input: the difference where both hold a value, else missing. *)
Theorem C34_series_rows :
  forall (K : Type) (HK : Label K) (b e : ser K),
  NoDup (map fst b) -> NoDup (map fst e) ->
  NoDup (map fst (ser_bias_error b e)) /\
  (forall k, In k (map fst (ser_bias_error b e)) <-> In k (map fst b) \/ In k (map fst e)) /\
  (forall k d, In (k, Some d) (ser_bias_error b e) <-> exists x y, holds b k x /\ holds e k y /\ d = y - x) /\
  (forall k v, In (k, v) (ser_squared_error b e) <-> exists w, In (k, w) (ser_bias_error b e) /\ v = option_map (fun d => d ^ 2) w) /\
  (forall k v, In (k, v) (ser_absolute_error b e) <-> exists w, In (k, w) (ser_bias_error b e) /\ v = option_map Rabs w).
Proof. exact (@series_rows). Qed.
Print Assumptions C34_series_rows.

(** C34. Row order does not matter. *)
Theorem C34_series_permutation :
  forall (K : Type) (HK : Label K) (b e b' e' : ser K),
  NoDup (map fst b) -> NoDup (map fst e) -> Permutation b b' -> Permutation e e' ->
  ser_mse b e = ser_mse b' e' /\ ser_rmse b e = ser_rmse b' e' /\ ser_mae b e = ser_mae b' e' /\ ser_mbe b e = ser_mbe b' e'.
Proof. exact (@series_permutation). Qed.
Print Assumptions C34_series_permutation.

(** C34. Rows whose label the other series lacks, and missing rows, are ignored. *)
Theorem C34_series_extra_rows :
  forall (K : Type) (HK : Label K) (b e xb xe : ser K),
  NoDup (map fst (b ++ xb)) -> NoDup (map fst (e ++ xe)) ->
  (forall k v, In (k, v) xb -> v = None \/ ~ In k (map fst (e ++ xe))) ->
  (forall k v, In (k, v) xe -> v = None \/ ~ In k (map fst (b ++ xb))) ->
  ser_mse (b ++ xb) (e ++ xe) = ser_mse b e /\ ser_rmse (b ++ xb) (e ++ xe) = ser_rmse b e /\
  ser_mae (b ++ xb) (e ++ xe) = ser_mae b e /\ ser_mbe (b ++ xb) (e ++ xe) = ser_mbe b e.
Proof. exact (@series_extra_rows). Qed.
Print Assumptions C34_series_extra_rows.

(** C34. On a common index with no missing values the Series metrics equal the array metrics. *)
Theorem C34_series_as_arrays :
  forall (K : Type) (HK : Label K) (ks : list K) (xs ys : list R),
  NoDup ks -> length xs = length ks -> length ys = length ks ->
  let b := combine ks (map Some xs) in let e := combine ks (map Some ys) in
  Ok (ser_mse b e) = mse xs ys /\ Ok (ser_rmse b e) = rmse xs ys /\ Ok (ser_mae b e) = mae xs ys /\ Ok (ser_mbe b e) = mbe xs ys.
Proof. exact (@series_as_arrays). Qed.
Print Assumptions C34_series_as_arrays.

Example C34_series_example :
  let b := [(1%nat, Some 10); (2%nat, Some 20); (3%nat, None)] in
  let e := [(3%nat, Some 5); (2%nat, Some 26); (4%nat, Some 1); (1%nat, Some 8)] in
  NoDup (map fst b) /\ NoDup (map fst e) /\ paired b e [(10, 8); (20, 26)] /\ ser_mbe b e = Fin 2.
Proof. exact (@series_example). Qed.

