(** Property theorems. interp_tf (C50).
    Proofs are in the X_ file of the same name. *)
From Coq Require Import String.
From Verif Require Import Prelude PreludeFacts RealBase Fl RealStat Dft Phase Spec_welch M_cmv M_signal_corr M_signal_tf P_signal P_dft P_phase P_welch P_list.
From Coq Require Import Lra Psatz Permutation Sorted.
From Coquelicot Require Import Complex.
Local Open Scope R_scope.
From Verif Require Import X_signal_interp.

(** C50. at a frequency of the table interp_tf returns the table's complex value *)
Theorem C50_interp_node :
  forall rows f z, NoDup (map fst rows) -> (2 <= length rows)%nat -> In (f, z) rows -> interp_tf_at rows f = Ok z.
Proof. exact (@interp_node). Qed.
Print Assumptions C50_interp_node.

(** C50. between neighbouring frequencies the magnitude is interpolated linearly, and so is the phase, along an arc of at most half a turn joining the two values *)
Theorem C50_interp_between :
  forall rows f0 z0 f1 z1 f, NoDup (map fst rows) -> In (f0, z0) rows -> In (f1, z1) rows -> f0 < f1 ->
  (forall g z, In (g, z) rows -> g <= f0 \/ f1 <= g) -> f0 <= f <= f1 ->
  exists p0 p1, z0 = Cmult (RtoC (Cmod z0)) (cis p0) /\ z1 = Cmult (RtoC (Cmod z1)) (cis p1) /\ Rabs (p1 - p0) <= PI /\
    let t := (f - f0) / (f1 - f0) in
    interp_tf_at rows f = Ok (Cmult (RtoC ((1 - t) * Cmod z0 + t * Cmod z1)) (cis ((1 - t) * p0 + t * p1))).
Proof. exact (@interp_between). Qed.
Print Assumptions C50_interp_between.

(** C50. so the interpolated magnitude stays between the two neighbouring magnitudes *)
Theorem C50_interp_magnitude :
  forall rows f0 z0 f1 z1 f z, NoDup (map fst rows) -> In (f0, z0) rows -> In (f1, z1) rows -> f0 < f1 ->
  (forall g z, In (g, z) rows -> g <= f0 \/ f1 <= g) -> f0 <= f <= f1 -> interp_tf_at rows f = Ok z ->
  Rmin (Cmod z0) (Cmod z1) <= Cmod z <= Rmax (Cmod z0) (Cmod z1).
Proof. exact (@interp_magnitude). Qed.
Print Assumptions C50_interp_magnitude.

(** C50. a frequency outside the table's range is a ValueError; inside it there is a value *)
Theorem C50_interp_range :
  forall rows f, NoDup (map fst rows) -> (2 <= length rows)%nat ->
  ((forall g z, In (g, z) rows -> f < g) \/ (forall g z, In (g, z) rows -> g < f) -> interp_tf_at rows f = Err ValueError) /\
  ((exists g z, In (g, z) rows /\ g <= f) -> (exists g z, In (g, z) rows /\ f <= g) -> exists z, interp_tf_at rows f = Ok z).
Proof. exact (@interp_range). Qed.
Print Assumptions C50_interp_range.

(** C50. the order of the table's rows does not matter *)
Theorem C50_interp_order :
  forall rows rows' f, NoDup (map fst rows) -> Permutation rows rows' -> interp_tf_at rows f = interp_tf_at rows' f.
Proof. exact (@interp_order). Qed.
Print Assumptions C50_interp_order.

(** C50. unwrapping moves every phase by whole turns, keeps the first, leaves jumps of at most half a turn, and changes nothing when the jumps were already smaller *)
Theorem C50_unwrap_laws :
  forall l,
  length (unwrap l) = length l /\ nth 0 (unwrap l) 0 = nth 0 l 0 /\
  (forall i, (i < length l)%nat -> exists k, nth i (unwrap l) 0 = nth i l 0 + 2 * PI * IZR k) /\
  (forall i, (S i < length l)%nat -> Rabs (nth (S i) (unwrap l) 0 - nth i (unwrap l) 0) <= PI) /\
  ((forall i, (S i < length l)%nat -> Rabs (nth (S i) l 0 - nth i l 0) < PI) -> unwrap l = l).
Proof. exact (@unwrap_laws). Qed.
Print Assumptions C50_unwrap_laws.

(** C50. a list of frequencies: each is interpolated on its own and the whole call fails as soon as one lies outside *)
Theorem C50_interp_list :
  forall new rows,
  (forall out, interp_tf new rows = Ok out <-> map fst out = new /\ Forall (fun p => interp_tf_at rows (fst p) = Ok (snd p)) out) /\
  ((exists f e, In f new /\ interp_tf_at rows f = Err e) -> exists e, interp_tf new rows = Err e).
Proof. exact (@interp_list). Qed.
Print Assumptions C50_interp_list.

(** C50. a DataFrame is interpolated column by column, keeping names and order *)
Theorem C50_interp_frame_cols :
  forall new freqs cols out,
  interp_tf_frame new freqs cols = Ok out <->
  map fst out = map fst cols /\
  forall i nm zs r, nth_error cols i = Some (nm, zs) -> nth_error out i = Some (nm, r) -> interp_tf new (combine freqs zs) = Ok r.
Proof. exact (@interp_frame_cols). Qed.
Print Assumptions C50_interp_frame_cols.

(** C50. a table given in falling frequency order, read at a node and half-way (where the phase turns by a quarter) *)
Example C50_interp_example :
  interp_tf_at [(2, (0, 3)); (0, RtoC 1)] 2 = Ok (0, 3) /\ exists z, interp_tf_at [(2, (0, 3)); (0, RtoC 1)] 1 = Ok z /\ Cmod z = 2.
Proof. exact (@interp_example). Qed.

