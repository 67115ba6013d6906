(** Independent vocabulary for the delayed copies seen by aligned sites. *)
From Verif Require Import Prelude RealBase M_spatial Spec_spatial M_copula Spec_copula.
Local Open Scope R_scope.

(** Scalar product of two vectors. *)
Definition vdot (a b : list R) : R := Rsum (map (fun p => fst p * snd p) (combine a b)).
(** One draw of a centred Gaussian vector with covariance [cov]: a matrix A with A A^T = cov applied to some vector of
    independent variates, which is how numpy's multivariate_normal computes it (A from the singular value decomposition). *)
Definition gaussian_draw (cov : list (list R)) (draw : list R) : Prop :=
  exists (A : list (list R)) (w : list R), length A = length cov /\ draw = map (fun row => vdot row w) A /\
    (forall row, In row A -> length row = length w) /\
    forall a b ra rb, nth_error A a = Some ra -> nth_error A b = Some rb -> entry cov a b = Some (vdot ra rb).
(** Site [j] is reached from site [i] by moving [d] metres along the direction [dir]. *)
Definition downwind (e n : list R) (dir : R) (i j : nat) (d : R) : Prop :=
  exists ei ni ej nj, nth_error e i = Some ei /\ nth_error n i = Some ni /\ nth_error e j = Some ej /\ nth_error n j = Some nj /\
    ej = ei + d * cos dir /\ nj = ni + d * sin dir.
(** Position of site [j] seen from site [i]: [along] the direction and [across] it (to the left). *)
Definition offset (e n : list R) (dir : R) (i j : nat) (along across : R) : Prop :=
  exists ei ni ej nj, nth_error e i = Some ei /\ nth_error n i = Some ni /\ nth_error e j = Some ej /\ nth_error n j = Some nj /\
    ej = ei + along * cos dir - across * sin dir /\ nj = ni + along * sin dir + across * cos dir.
(** [elapsed times a b dt]: the b-th time comes [dt] seconds after the a-th. *)
Definition elapsed (times : list R) (a b : nat) (dt : R) : Prop :=
  exists ta tb, nth_error times a = Some ta /\ nth_error times b = Some tb /\ tb = ta + dt.
