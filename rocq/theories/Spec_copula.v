(** Independent vocabulary for the copula module. *)
From Verif Require Import Prelude RealBase Fl RealStat M_spatial Spec_spatial Spec_stats M_copula.
Local Open Scope R_scope.

(** Logistic curve with slope [a] centred at [c]. *)
Definition logistic (a c x : R) : R := / (1 + exp (- (a * (x - c)))).
(** Normal density with mean [mu] and variance [v]. *)
Definition gauss (mu v x : R) : R := exp (- ((x - mu) ^ 2 / (2 * v))) / sqrt (2 * PI * v).
(** Total of the first [n] entries. *)
Definition total (n : nat) (l : list R) : R := Rsum (firstn n l).

(** [v] stands in [x] where [c] first occurs in [cdf]. *)
Definition first_at (x cdf : list R) (c v : R) : Prop :=
  exists i, nth_error cdf i = Some c /\ nth_error x i = Some v /\ forall j, (j < i)%nat -> nth_error cdf j <> Some c.
(** Lower and upper end of a segment of the padded table: the curve starts at (0, -2) and stops at (1, 2). *)
Definition lower_node (x cdf : list R) (c v : R) : Prop :=
  first_at x cdf c v \/ (c = 0 /\ v = -2 /\ ~ In 0 cdf).
Definition upper_node (x cdf : list R) (c v : R) : Prop :=
  first_at x cdf c v \/ (c = 1 /\ v = 2 /\ ~ In 1 cdf).

(** A table with [r] rows of [c] entries. *)
Definition shaped {A} (r c : nat) (m : list (list A)) : Prop := length m = r /\ forall row, In row m -> length row = c.
Definition cell_at {A} (m : list (list A)) (i j : nat) (v : A) : Prop :=
  exists row, nth_error m i = Some row /\ nth_error row j = Some v.
(** What the sampler promises: one variate per covariance row. *)
Definition sampler (mvn : Z -> list (list R) -> list R) : Prop := forall seed cov, length (mvn seed cov) = length cov.
(** The value used for hour [i]. *)
Definition at_hour {A} (a : hourly A) (i : nat) (v : A) : Prop :=
  match a with Single x => v = x | Many l => nth_error l i = Some v end.
Definition number_at_hour (a : hourly R) (i : nat) (v : R) : Prop :=
  match a with Single x => v = x | Many [x] => v = x | Many l => nth_error l i = Some v end.
(** Probabilities. *)
Definition in_unit (l : list R) : Prop := forall c, In c l -> 0 <= c <= 1.
(** Correlations between site i at time a and site j at time b, sites major: exp(-k distance), distances taken
    after moving each site back along the cloud motion. *)
Definition site_time_cov (k : R) (e n times : list R) (spd dir : R) (cov : list (list R)) : Prop :=
  length cov = (length e * length times)%nat /\ (forall row, In row cov -> length row = length cov) /\
  forall i j a b ei ni ej nj ta tb t0, nth_error times 0 = Some t0 ->
    nth_error e i = Some ei -> nth_error n i = Some ni -> nth_error times a = Some ta ->
    nth_error e j = Some ej -> nth_error n j = Some nj -> nth_error times b = Some tb ->
    entry cov (i * length times + a) (j * length times + b) =
      Some (exp (- (k * dist2 (moved_back (ei, ni) spd dir (ta - t0)) (moved_back (ej, nj) spd dir (tb - t0))))).
(** Parameter sets with proper weights and deviations. *)
Definition proper (q : copula_params) : Prop := 0 < comp0 q <= 1 /\ 0 < clear0 q /\ 0 < cloud0 q.
(** Sequence arguments match the number of hours. *)
Definition fits {A} (n : nat) (a : hourly A) : Prop := match a with Single _ => True | Many l => length l = n end.
Definition number_fits (n : nat) (a : hourly R) : Prop :=
  match a with Single _ => True | Many l => length l = 1%nat \/ length l = n end.
(** Speed and direction are given in the same way: both as numbers or both as sequences. *)
Definition same_kind (a b : hourly R) : Prop :=
  match a, b with Single _, Single _ => True | Many _, Many _ => True | _, _ => False end.
