(** binary64 model of the axis and of the square and triangular sites of get_1d_plant. No proofs here.
    Every operation is rounded to nearest even (M_spatial_float.v); no overflow at these magnitudes. *)
From Coq Require Import String.
From Flocq Require Import Core.
From Verif Require Import Prelude RealBase M_spatial M_spatial_float M_signal_plant M_trunc_float.
Local Open Scope R_scope.

(** signalproc.py:933: np.arange(-xmax//2, xmax//2, dx) for a whole xmax. *)
Definition plant_axis_b64 (xmax : Z) (dx : R) : list R :=
  arange_b64 (IZR (- xmax / 2)) (IZR (xmax / 2)) dx.
(** signalproc.py:944-945, 949-950: (x >= center - w/2) & (x < center + w/2) with both bounds rounded. *)
Definition in_window_b64 (w c x : R) : bool :=
  (Rleb (b64 (c - b64 (w / 2))) x && Rltb x (b64 (c + b64 (w / 2))))%bool.
(** signalproc.py:946: 1; signalproc.py:951: x_vec - center + w/2, two roundings. *)
Definition square_b64 (w c x : R) : R := 1.
Definition triangle_b64 (w c x : R) : R := b64 (b64 (x - c) + b64 (w / 2)).
(** signalproc.py:943-951: the sites are written one after the other. *)
Definition place_b64 (value : R -> R -> R -> R) (w : R) (xs : list R) (plant : list (option R)) (c : R) : list (option R) :=
  map2 (fun x p => if in_window_b64 w c x then Some (value w c x) else p) xs plant.
(** signalproc.py:883-959 get_1d_plant for a positive dx, numeric centers and the two shapes without an exponential. *)
Definition get_1d_plant_b64 (centers : list R) (ref_center : R) (width : option R) (triangle : bool) (dx : R) (xmax : Z)
  : list (option R) * list R :=
  let w := match width with None => dx | Some w => w end in
  let centers := map (fun c => b64 (c - ref_center)) centers in
  let x_vec := plant_axis_b64 xmax dx in
  let plant := map (fun _ => Some 0) x_vec in
  (fold_left (place_b64 (if triangle then triangle_b64 else square_b64) w x_vec) centers plant, x_vec).
