(** Independent vocabulary for cloud speeds given per time. *)
From Verif Require Import Prelude RealBase Spec_spatial.
Local Open Scope R_scope.

(** The cloud speed used at time number [k]: one speed serves all times, otherwise each time has its own. *)
Definition speed_at (cs : list R) (k : nat) (c : R) : Prop := match cs with [v] => c = v | _ => nth_error cs k = Some c end.
(** Correlations exp(-K distance) between site i at time a and site j at time b, sites major; each site is moved
    back along the cloud motion with its own time's speed. *)
Definition site_time_cov_speeds (K : R) (e n times spds : list R) (dir : R) (cov : list (list R)) : Prop :=
  length cov = (length e * length times)%nat /\ (forall row, In row cov -> length row = length cov) /\
  forall i j a b ei ni ej nj ta tb ca cb t0, nth_error times 0 = Some t0 ->
    nth_error e i = Some ei -> nth_error n i = Some ni -> nth_error times a = Some ta -> speed_at spds a ca ->
    nth_error e j = Some ej -> nth_error n j = Some nj -> nth_error times b = Some tb -> speed_at spds b cb ->
    entry cov (i * length times + a) (j * length times + b) =
      Some (exp (- (K * dist2 (moved_back (ei, ni) ca dir (ta - t0)) (moved_back (ej, nj) cb dir (tb - t0))))).
