(** Independent vocabulary for the regression figures of compute_cmv: points are (delay, distance) pairs. *)
From Verif Require Import Prelude RealBase Fl RealStat Spec_spatial.
Local Open Scope R_scope.

(** Sum of squared vertical differences between the points and the line [a + b x]. *)
Definition misfit (pts : list (R * R)) (a b : R) : R := Rsum (map (fun p => (snd p - (a + b * fst p)) ^ 2) pts).
(** No line is closer. *)
Definition best_line (pts : list (R * R)) (a b : R) : Prop := forall a' b', misfit pts a b <= misfit pts a' b'.
(** Sum of squared differences from the mean. *)
Definition scatter (l : list R) : R := Rsum (map (fun x => (x - Rmean l) ^ 2) l).
Definition all_same (l : list R) : Prop := forall x y, In x l -> In y l -> x = y.
(** All points lie on the line. *)
Definition on_line (pts : list (R * R)) (a b : R) : Prop := forall p, In p pts -> snd p = a + b * fst p.
(** The usual figures of a linear regression: magnitude [r] of the correlation coefficient (the square is the fraction of the scatter of
    the distances that the best line explains) and standard error [se] of its slope, with the values the code uses in degenerate cases. *)
Definition regression_figures (pts : list (R * R)) (r se : R) : Prop :=
  (all_same (map fst pts) -> r = 0 /\ se = 0) /\
  (~ all_same (map fst pts) -> exists a b, best_line pts a b /\ 0 <= r /\ 0 <= se /\
     (all_same (map snd pts) -> r = 0) /\
     (~ all_same (map snd pts) -> r ^ 2 = 1 - misfit pts a b / scatter (map snd pts)) /\
     (length pts = 2%nat -> se = 0) /\
     (length pts <> 2%nat -> se ^ 2 = misfit pts a b / (INR (length pts) - 2) / scatter (map fst pts))).
(** Delays and distances along the direction [angle] of the pairs with the given separations and delays. *)
Definition delay_points (ps : list ((R * R) * R)) (angle : R) : list (R * R) :=
  map (fun p => (snd p, inner (fst p) (cos angle, sin angle))) ps.
(** Variation ratio of a signal: one minus mean over maximum of its present samples. *)
Definition variation (s : list (option R)) : fl :=
  match present s with [] => Nan | l => fsub (Fin 1) (fdiv (Fin (Rmean l)) (Fin (Rmax_of l))) end.
