(** Model of src/solarspatialtools/signalproc.py get_1d_plant on centers given as whole numbers (np.array keeps them as machine integers,
    and the subtraction in line 930 is done in place). No proofs here. *)
From Coq Require Import String.
From Verif Require Import Prelude RealBase M_cmv M_signal_plant M_stats_int.
Local Open Scope R_scope.

(** The reference as the caller writes it: 5 or 5.0. *)
Inductive number : Type := PyInt (z : Z) | PyFloat (r : R).
(** Whether a Python integer fits into a type. *)
Definition fits (t : itype) (z : Z) : bool :=
  if signed t then ((- 2 ^ (bits t - 1) <=? z) && (z <? 2 ^ (bits t - 1)))%Z%bool else ((0 <=? z) && (z <? 2 ^ bits t))%Z%bool.
(** signalproc.py:929-930 centers -= ref_center on an array of integers: a float cannot be subtracted in place (numpy's casting error is a
    TypeError), an integer that does not fit is refused (OverflowError, here OtherError; older numpy: TypeError), others wrap around. *)
Definition shift_centers (t : itype) (centers : list Z) (ref_center : number) : result (list Z) :=
  match ref_center with
  | PyFloat _ => Err TypeError
  | PyInt z => if fits t z then Ok (map (fun c => wrap t (c - z)) centers) else Err OtherError
  end.
(** signalproc.py:883-959 get_1d_plant. Everything after the shift is done in floating point, exact here. *)
Definition get_1d_plant_int (t : itype) (centers : list Z) (ref_center : number) (width : option R) (shape : string) (dx xmax : R)
  : result (list (option R) * list R) :=
  let! cs := shift_centers t centers ref_center in
  get_1d_plant (map (fun c => Some (IZR c)) cs) 0 width shape dx xmax.
