(** Property theorems. spatial.py spacetime_distances: a pseudometric encoding frozen advection.
    Proofs are in the X_ file of the same name. *)
From Verif Require Import Prelude PreludeFacts RealBase Fl M_spatial Spec_spatial P_plane.
Local Open Scope R_scope.
From Verif Require Import X_spatial_time.

(** C13. Every entry: Euclidean distance between the two sites, each moved back along the cloud
    motion by speed times elapsed time; site-major, time-minor layout. *)
Theorem C13_spacetime_entry :
  forall (x y times : list R) (cs cd : R) (i j k l : nat) xi yi xj yj tk tl t0,
  length x = length y -> nth_error times 0 = Some t0 ->
  nth_error x i = Some xi -> nth_error y i = Some yi -> nth_error times k = Some tk ->
  nth_error x j = Some xj -> nth_error y j = Some yj -> nth_error times l = Some tl ->
  exists D, spacetime_distances x y times cs cd = Ok D /\
    entry D (i * length times + k) (j * length times + l) =
      Some (dist2 (moved_back (xi, yi) cs cd (tk - t0)) (moved_back (xj, yj) cs cd (tl - t0))).
Proof. exact (@spacetime_entry). Qed.
Print Assumptions C13_spacetime_entry.

(** C12. Square, symmetric, zero diagonal, non-negative, triangle inequality. *)
Theorem C12_spacetime_pseudometric :
  forall (x y times : list R) (cs cd : R) (D : list (list R)),
  spacetime_distances x y times cs cd = Ok D ->
  length D = (length x * length times)%nat /\ (forall row, In row D -> length row = length D) /\
  (forall a, (a < length D)%nat -> entry D a a = Some 0) /\
  (forall a b, (a < length D)%nat -> (b < length D)%nat -> exists d, entry D a b = Some d /\ 0 <= d /\ entry D b a = Some d) /\
  (forall a b c dab dbc dac, entry D a b = Some dab -> entry D b c = Some dbc -> entry D a c = Some dac -> dac <= dab + dbc).
Proof. exact (@spacetime_pseudometric). Qed.
Print Assumptions C12_spacetime_pseudometric.

(** C12. It is only rejected for an empty time axis or unequal coordinate lists. *)
Theorem C12_spacetime_defined :
  forall (x y times : list R) (cs cd : R),
  (exists D, spacetime_distances x y times cs cd = Ok D) <-> times <> [] /\ length x = length y.
Proof. exact (@spacetime_defined). Qed.
Print Assumptions C12_spacetime_defined.

Example C12_spacetime_example :
  exists D, spacetime_distances [0; 10] [0; 5] [0; 1; 2] 4 (PI / 3) = Ok D.
Proof. exact (@spacetime_example). Qed.

(** C13. Zero exactly when the second site is where the cloud over the first has drifted to; plain
    site distance at equal times; speed times elapsed time for one site. *)
Theorem C13_spacetime_advection :
  forall (x y times : list R) (cs cd : R) (D : list (list R)) (i j k l : nat) xi yi xj yj tk tl d,
  spacetime_distances x y times cs cd = Ok D ->
  nth_error x i = Some xi -> nth_error y i = Some yi -> nth_error times k = Some tk ->
  nth_error x j = Some xj -> nth_error y j = Some yj -> nth_error times l = Some tl ->
  entry D (i * length times + k) (j * length times + l) = Some d ->
  (d = 0 <-> xj = xi + cs * (tl - tk) * cos cd /\ yj = yi + cs * (tl - tk) * sin cd) /\
  (tk = tl -> d = dist2 (xi, yi) (xj, yj)) /\
  ((xi, yi) = (xj, yj) -> d = Rabs cs * Rabs (tl - tk)).
Proof. exact (@spacetime_advection). Qed.
Print Assumptions C13_spacetime_advection.

(** C13. Unchanged by shifting all times or all sites. *)
Theorem C13_spacetime_shift :
  forall (x y times : list R) (cs cd a b c : R),
  spacetime_distances (map (fun v => v + a) x) (map (fun v => v + b) y) (map (fun t => t + c) times) cs cd
  = spacetime_distances x y times cs cd.
Proof. exact (@spacetime_shift). Qed.
Print Assumptions C13_spacetime_shift.

Example C13_spacetime_advection_example :
  exists D, spacetime_distances [0; 10] [0; 0] [0; 2] 5 0 = Ok D /\
  entry D (0 * 2 + 0) (1 * 2 + 1) = Some 0.
Proof. exact (@spacetime_advection_example). Qed.

