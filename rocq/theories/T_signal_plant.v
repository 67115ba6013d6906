(** Property theorems. Placing sites on a one-dimensional grid (C55).
    Proofs are in the X_ file of the same name. *)
From Coq Require Import String.
From Verif Require Import Prelude PreludeFacts RealBase Fl RealStat Dft Phase M_spatial M_cmv M_signal_corr M_signal_tf M_signal_plant Spec_plant P_list P_welch P_plant.
From Coq Require Import Lra Psatz Permutation.
Local Open Scope R_scope.
From Verif Require Import X_signal_plant.

(** C55. When the call succeeds: never depending on the sites. Failures are a zero step and an unknown shape. *)
Theorem C55_plant_outcome :
  forall centers ref width shape dx xmax,
  (get_1d_plant centers ref width shape dx xmax = Err ZeroDivisionError <-> dx = 0) /\
  (get_1d_plant centers ref width shape dx xmax = Err ValueError <->
     dx <> 0 /\ ~ In (lower shape) ["square"; "triangle"; "gaussian"]%string) /\
  (forall e, get_1d_plant centers ref width shape dx xmax = Err e -> e = ZeroDivisionError \/ e = ValueError).
Proof. exact (@plant_outcome). Qed.
Print Assumptions C55_plant_outcome.

(** C55. 'square': the grid, and a point is 1 exactly when some site covers it, else 0. *)
Theorem C55_square_value :
  forall centers ref width shape dx xmax, dx <> 0 -> lower shape = "square"%string ->
  exists plant xs, get_1d_plant centers ref width shape dx xmax = Ok (plant, xs) /\
    site_grid dx xmax xs /\ length plant = length xs /\
    forall i x, nth_error xs i = Some x ->
      (covered (width_or dx width) ref centers x /\ nth_error plant i = Some (Some 1)) \/
      (~ covered (width_or dx width) ref centers x /\ nth_error plant i = Some (Some 0)).
Proof. exact (@square_value). Qed.
Print Assumptions C55_square_value.

(** C55. Order, repetition and missing sites are irrelevant to 'square'. *)
Theorem C55_square_sites :
  forall c1 c2 ref width shape dx xmax, lower shape = "square"%string ->
  (forall c, In (Some c) c1 <-> In (Some c) c2) ->
  get_1d_plant c1 ref width shape dx xmax = get_1d_plant c2 ref width shape dx xmax.
Proof. exact (@square_sites). Qed.
Print Assumptions C55_square_sites.

(** C55. With the default width (one step) every site from the first grid point to the last marks exactly one point:
   with a single site the plant is 1 there and 0 elsewhere. *)
Theorem C55_square_single :
  forall c ref shape dx xmax plant xs first last, 0 < dx -> lower shape = "square"%string ->
  get_1d_plant [Some c] ref None shape dx xmax = Ok (plant, xs) ->
  nth_error xs 0 = Some first -> nth_error xs (length xs - 1) = Some last ->
  first - dx / 2 < c - ref <= last + dx / 2 ->
  exists j, (j < length xs)%nat /\ forall i, (i < length xs)%nat -> nth_error plant i = Some (Some (if Nat.eqb i j then 1 else 0)).
Proof. exact (@square_single). Qed.
Print Assumptions C55_square_single.

(** C55. 'triangle': the last site in the list that covers a point decides it: a ramp from the left edge of that site;
   uncovered points are 0. *)
Theorem C55_triangle_value :
  forall centers ref width shape dx xmax, dx <> 0 -> lower shape = "triangle"%string ->
  exists plant xs, get_1d_plant centers ref width shape dx xmax = Ok (plant, xs) /\
    site_grid dx xmax xs /\ length plant = length xs /\
    forall i x, nth_error xs i = Some x ->
      (exists before c after, centers = before ++ Some c :: after /\ reaches (width_or dx width) (c - ref) x /\
         ~ covered (width_or dx width) ref after x /\
         nth_error plant i = Some (Some (x - (c - ref - width_or dx width / 2)))) \/
      (~ covered (width_or dx width) ref centers x /\ nth_error plant i = Some (Some 0)).
Proof. exact (@triangle_value). Qed.
Print Assumptions C55_triangle_value.

(** C55. 'gaussian': the sum of the sites' unit-height bumps. *)
Theorem C55_gaussian_value :
  forall cs ref width shape dx xmax, dx <> 0 -> width_or dx width <> 0 -> lower shape = "gaussian"%string ->
  exists plant xs, get_1d_plant (map Some cs) ref width shape dx xmax = Ok (plant, xs) /\
    site_grid dx xmax xs /\
    plant = map (fun x => Some (Rsum (map (fun c => gauss (width_or dx width) (x - (c - ref))) cs))) xs.
Proof. exact (@gaussian_value). Qed.
Print Assumptions C55_gaussian_value.

(** C55. 'gaussian' ignores the order of the sites; a bump has height 1 at its site and positive height everywhere. *)
Theorem C55_gaussian_perm :
  forall c1 c2 ref width shape dx xmax, lower shape = "gaussian"%string -> width_or dx width <> 0 ->
  Permutation c1 c2 ->
  get_1d_plant (map Some c1) ref width shape dx xmax = get_1d_plant (map Some c2) ref width shape dx xmax.
Proof. exact (@gaussian_perm). Qed.
Print Assumptions C55_gaussian_perm.

(** C55. The bump. *)
Theorem C55_bump_shape :
  forall w, w <> 0 ->
  gauss w 0 = 1 /\ (forall d, 0 < gauss w d <= 1 /\ gauss w (- d) = gauss w d) /\
  (forall d d', Rabs d < Rabs d' -> gauss w d' < gauss w d).
Proof. exact (@bump_shape). Qed.
Print Assumptions C55_bump_shape.

(** C55. One missing site makes every value of a 'gaussian' plant missing. *)
Theorem C55_gaussian_missing :
  forall centers ref width shape dx xmax, dx <> 0 -> lower shape = "gaussian"%string -> In None centers ->
  exists plant xs, get_1d_plant centers ref width shape dx xmax = Ok (plant, xs) /\ site_grid dx xmax xs /\ plant = map (fun _ => None) xs.
Proof. exact (@gaussian_missing). Qed.
Print Assumptions C55_gaussian_missing.

(** C55. A zero width: a 'gaussian' site leaves the grid at 0 except that the point under it becomes missing. *)
Theorem C55_gaussian_zero_width :
  forall cs ref shape dx xmax, dx <> 0 -> lower shape = "gaussian"%string ->
  exists plant xs, get_1d_plant (map Some cs) ref (Some 0) shape dx xmax = Ok (plant, xs) /\ site_grid dx xmax xs /\
    length plant = length xs /\
    forall i x, nth_error xs i = Some x ->
      (In (x + ref) cs /\ nth_error plant i = Some None) \/ (~ In (x + ref) cs /\ nth_error plant i = Some (Some 0)).
Proof. exact (@gaussian_zero_width). Qed.
Print Assumptions C55_gaussian_zero_width.

(** C55. 'triangle' depends on the order of overlapping sites. *)
Theorem C55_triangle_order_refuted :
  ~ (forall c1 c2 ref width shape dx xmax, lower shape = "triangle"%string -> Permutation c1 c2 ->
       get_1d_plant c1 ref width shape dx xmax = get_1d_plant c2 ref width shape dx xmax).
Proof. exact (@triangle_order_refuted). Qed.
Print Assumptions C55_triangle_order_refuted.

(** C55. Two sites on the grid -2, -1, 0, 1 with the default width, one between two points, one beyond the grid. *)
Example C55_square_example :
  get_1d_plant [Some (3 / 10); None; Some 11; Some (- 6 / 10)] 0 None "Square" 1 4 =
  Ok ([Some 0; Some 1; Some 1; Some 0], [-2; -1; 0; 1]).
Proof. exact (@square_example). Qed.

