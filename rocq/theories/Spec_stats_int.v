(** Vocabulary for machine integers. *)
From Verif Require Import Prelude RealBase M_stats_int.
Local Open Scope Z_scope.

(** The integers a type can hold. *)
Definition holds (t : itype) (z : Z) : Prop :=
  if signed t then - 2 ^ (bits t - 1) <= z < 2 ^ (bits t - 1) else 0 <= z < 2 ^ bits t.
(** [d] is the exact difference of an estimate and its baseline value, either array being stretched if it has one entry. *)
Definition exact_error (baseline estimation : list Z) (d : Z) : Prop :=
  exists x y, d = y - x /\
    ((exists i, nth_error baseline i = Some x /\ nth_error estimation i = Some y) \/
     (baseline = [x] /\ In y estimation) \/ (estimation = [y] /\ In x baseline)).
(** Number of estimates below their baseline value. *)
Definition below_baseline (baseline estimation : list Z) : nat := length (filter (fun p => snd p <? fst p) (combine baseline estimation)).
