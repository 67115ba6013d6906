(** Property theorems. Cloud edges.
    Proofs are in the X_ file of the same name. *)
From Verif Require Import Prelude PreludeFacts RealBase Fl RealStat Spec_stats M_stats P_stats P_list X_stats_err Spec_copula M_cloudfield Spec_cloudfield
  X_copula_down X_field_pos X_cloud_random X_cloud_weights.
Local Open Scope R_scope.
From Verif Require Import X_cloud_edges.

(** C73. Edge strength is the squared Sobel gradient with repeated borders: never negative, zero wherever the neighbourhood is constant. *)
Theorem C73_edges_value :
  forall r c m size th, shaped r c m -> (0 < r)%nat -> (0 < c)%nat ->
  exists edges marked, find_edges m size th = Ok (edges, marked) /\ shaped r c edges /\ shaped r c marked /\
    forall i j, (i < r)%nat -> (j < c)%nat -> exists g, around m r c i j g /\ cell_at edges i j (gradient2 g) /\ 0 <= gradient2 g /\
      ((forall di dj, (-1 <= di <= 1)%Z -> (-1 <= dj <= 1)%Z -> g di dj = g 0%Z 0%Z) -> gradient2 g = 0).
Proof. exact (@edges_value). Qed.
Print Assumptions C73_edges_value.

(** C73. Complementing the mask changes neither the edges nor the marked pixels. *)
Theorem C73_edges_complement :
  forall r c m size th, shaped r c m -> (0 < r)%nat -> (0 < c)%nat ->
  find_edges (map (map (fun v => 1 - v)) m) size th = find_edges m size th.
Proof. exact (@edges_complement). Qed.
Print Assumptions C73_edges_complement.

(** C73. Smoothed mask, default threshold: a pixel is marked exactly when the mean edge strength over its window reaches 1e-5. *)
Theorem C73_edges_marked :
  forall r c m size, shaped r c m -> (0 < r)%nat -> (0 < c)%nat -> (0 < size)%nat ->
  exists edges marked, find_edges m size 0 = Ok (edges, marked) /\ shaped r c marked /\
    forall i j, (i < r)%nat -> (j < c)%nat -> exists v, window_mean edges r c size i j v /\ cell_at marked i j (Rleb (1 / 100000) v).
Proof. exact (@edges_marked). Qed.
Print Assumptions C73_edges_marked.

(** C73. Higher thresholds mark the pixels whose window mean exceeds that share of the largest one. *)
Theorem C73_edges_threshold :
  forall r c m size th, shaped r c m -> (0 < r)%nat -> (0 < c)%nat -> (0 < size)%nat -> 0 <= th ->
  exists edges marked, find_edges m size th = Ok (edges, marked) /\
    ((exists i j v, (i < r)%nat /\ (j < c)%nat /\ window_mean edges r c size i j v /\ 1 / 100000 <= v) ->
     exists top, (exists i j, (i < r)%nat /\ (j < c)%nat /\ window_mean edges r c size i j top) /\
       (forall i j, (i < r)%nat -> (j < c)%nat -> exists v, window_mean edges r c size i j v /\ v <= top /\
          cell_at marked i j (Rleb (1 / 100000) v && Rltb (th * top) v))).
Proof. exact (@edges_threshold). Qed.
Print Assumptions C73_edges_threshold.

(** C73. An empty mask is refused. *)
Theorem C73_edges_empty :
  forall m size th, shaped (length m) 0 m -> find_edges m size th = Err ValueError.
Proof. exact (@edges_empty). Qed.
Print Assumptions C73_edges_empty.

(** C73. A constant mask has no edges and nothing marked. *)
Theorem C73_edges_constant :
  forall r c m size th k, shaped r c m -> (0 < r)%nat -> (0 < c)%nat -> within k k m ->
  find_edges m size th = Ok (map (map (fun _ => 0)) m, map (map (fun _ => false)) m).
Proof. exact (@edges_constant). Qed.
Print Assumptions C73_edges_constant.

Example C73_edges_example :
  exists marked, find_edges [[0; 0; 0; 0]; [0; 0; 0; 1]] 1 0 = Ok ([[0; 0; 2; 10]; [0; 0; 10; 18]], marked).
Proof. exact (@edges_example). Qed.

