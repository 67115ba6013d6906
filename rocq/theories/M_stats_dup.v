(** Model of the error metrics of src/solarspatialtools/stats.py on Series whose labels may repeat. M_stats.v has unique labels. No proofs here. *)
From Verif Require Import Prelude RealBase Fl RealStat M_stats.
Local Open Scope R_scope.

Section Repeats.
  Context {K : Type} `{Label K}.

  (** Every label once. *)
  Fixpoint distinct (l : list K) : list K :=
    match l with [] => [] | k :: ks => if lab_mem k ks then distinct ks else k :: distinct ks end.
  (** All rows of a Series under one label; a single missing row when there are none. *)
  Definition all_at (s : ser K) (k : K) : list (option R) :=
    match map snd (filter (fun r => lab_eqb (fst r) k) s) with [] => [None] | l => l end.
  (** stats.py:148 Series subtraction: row by row when the indexes are identical, otherwise after the outer join of the indexes, in
      which pandas pairs every row under a label with every row of the other operand under it. *)
  Definition sub_dup (a b : ser K) : ser K :=
    if labs_eqb (map fst a) (map fst b)
    then combine (map fst a) (map2 (opt2 Rminus) (map snd a) (map snd b))
    else flat_map (fun k => flat_map (fun x => map (fun y => (k, opt2 Rminus x y)) (all_at b k)) (all_at a k))
                  (sort_by lab_leb (distinct (map fst a ++ map fst b))).
  (** stats.py:131-149 bias_error *)
  Definition dup_bias_error (baseline estimation : ser K) : ser K := sub_dup estimation baseline.
  (** stats.py:27-45, 48-66 mse *)
  Definition dup_mse (baseline estimation : ser K) : fl := ser_mean (ser_map (fun e => e ^ 2) (dup_bias_error baseline estimation)).
  (** stats.py:5-24 rmse *)
  Definition dup_rmse (baseline estimation : ser K) : fl := fsqrt (dup_mse baseline estimation).
  (** stats.py:68-86, 89-108 mae *)
  Definition dup_mae (baseline estimation : ser K) : fl := ser_mean (ser_map Rabs (dup_bias_error baseline estimation)).
  (** stats.py:110-128 mbe *)
  Definition dup_mbe (baseline estimation : ser K) : fl := ser_mean (dup_bias_error baseline estimation).
End Repeats.
