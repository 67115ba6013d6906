(** Property theorems. Whole numbers as site positions in get_1d_plant (C133).
    Proofs are in the X_ file of the same name. *)
From Coq Require Import String ZArith Lia Lra.
From Verif Require Import Prelude PreludeFacts RealBase M_cmv M_signal_plant M_stats_int Spec_stats_int M_plant_int.
Local Open Scope R_scope.
From Verif Require Import X_plant_int.

(** C133. Whole numbers give the same plant as the same positions written as floats, in every integer type, provided the reference is a whole
    number too and every distance to it can be stored in the type. *)
Theorem C133_int_plant_exact :
  forall t centers z width shape dx xmax,
  (1 <= bits t)%Z -> holds t z -> (forall c, In c centers -> holds t (c - z)) ->
  get_1d_plant_int t centers (PyInt z) width shape dx xmax = get_1d_plant (map (fun c => Some (IZR c)) centers) (IZR z) width shape dx xmax.
Proof. exact (@int_plant_exact). Qed.
Print Assumptions C133_int_plant_exact.

(** C133. With the default reference 0 every array of whole numbers gives the plant of the same floats. *)
Theorem C133_int_plant_default :
  forall t centers width shape dx xmax,
  (2 <= bits t)%Z -> (forall c, In c centers -> holds t c) ->
  get_1d_plant_int t centers (PyInt 0) width shape dx xmax = get_1d_plant (map (fun c => Some (IZR c)) centers) 0 width shape dx xmax.
Proof. exact (@int_plant_default). Qed.
Print Assumptions C133_int_plant_default.

(** C133. A reference written as a float (5.0, and even 0.0) makes the call raise TypeError, whatever the positions, shape, width and grid. *)
Theorem C133_int_plant_float_reference :
  forall t centers r width shape dx xmax,
  get_1d_plant_int t centers (PyFloat r) width shape dx xmax = Err TypeError.
Proof. exact (@int_plant_float_reference). Qed.
Print Assumptions C133_int_plant_float_reference.

(** C133. In an unsigned type every site left of the reference appears 2^bits further right; the other sites are where they belong. *)
Theorem C133_int_plant_unsigned :
  forall t centers z width shape dx xmax,
  signed t = false -> (1 <= bits t)%Z -> holds t z -> (forall c, In c centers -> holds t c) ->
  get_1d_plant_int t centers (PyInt z) width shape dx xmax
  = get_1d_plant (map (fun c => Some (if (c <? z)%Z then IZR c + 2 ^ Z.to_nat (bits t) else IZR c)) centers) (IZR z) width shape dx xmax.
Proof. exact (@int_plant_unsigned). Qed.
Print Assumptions C133_int_plant_unsigned.

(** C133. So the plant depends on how the numbers are written: one site 1 left of the reference, on the grid -2, -1, 0, 1. As floats it marks
    the point -1; as uint8 with the reference 1 it marks nothing; with the reference 1.0 the call raises TypeError. *)
Theorem C133_int_plant_refuted :
  get_1d_plant [Some 0] 1 None "square" 1 4 = Ok ([Some 0; Some 1; Some 0; Some 0], [-2; -1; 0; 1]) /\
  get_1d_plant_int uint8 [0%Z] (PyInt 1) None "square" 1 4 = Ok ([Some 0; Some 0; Some 0; Some 0], [-2; -1; 0; 1]) /\
  get_1d_plant_int uint8 [0%Z] (PyFloat 1) None "square" 1 4 = Err TypeError.
Proof. exact (@int_plant_refuted). Qed.
Print Assumptions C133_int_plant_refuted.

(** C133. Sites at 10, 20 and 35 in int16 with the reference 20 are placed as the floats are. *)
Example C133_int_plant_example :
  (1 <= bits (Int true 16))%Z /\ holds (Int true 16) 20 /\ (forall c, In c [10; 20; 35]%Z -> holds (Int true 16) (c - 20)).
Proof. exact (@int_plant_example). Qed.

