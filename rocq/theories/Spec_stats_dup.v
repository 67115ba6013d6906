(** Vocabulary for pairing the rows of two series. *)
From Verif Require Import Prelude RealBase M_stats.
Local Open Scope R_scope.

(** The values of two rows, if both hold one: (first, second). *)
Definition both (x y : option R) : list (R * R) := match x, y with Some x, Some y => [(x, y)] | _, _ => [] end.
(** Rows paired by position: (baseline value, estimated value). *)
Definition position_pairs {K} (b e : ser K) : list (R * R) := flat_map (fun p => both (fst p) (snd p)) (combine (map snd b) (map snd e)).
(** Every row of one series paired with every row of the other that has the same label. *)
Definition label_pairs {K} `{Label K} (b e : ser K) : list (R * R) :=
  flat_map (fun q => flat_map (fun r => if lab_eqb (fst r) (fst q) then both (snd r) (snd q) else []) b) e.
