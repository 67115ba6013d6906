(** Independent vocabulary for cleaning on arbitrary time stamps. *)
From Coq Require Import Reals.
From Verif Require Import Prelude Spec_dataio.

(** Never going down, never going up. *)
Definition rising (times : list Z) : Prop := forall i j, i <= j < length times -> (nth i times 0 <= nth j times 0)%Z.
Definition falling (times : list Z) : Prop := forall i j, i <= j < length times -> (nth j times 0 <= nth i times 0)%Z.
(** j is sample i or an earlier one whose stamp is less than [limit] seconds away; stamps are in nanoseconds. *)
Definition within (limit : nat) (times : list Z) (i j : nat) : Prop :=
  j <= i /\ (Z.abs (nth i times 0 - nth j times 0) < Z.of_nat limit * 1000000000)%Z.
(** Less than one in [limit] of the samples in that window is known after the filling. *)
Definition mostly_open (limit : nat) (times : list Z) (l : list (option R)) (i : nat) : Prop :=
  exists window known : list nat, NoDup window /\ NoDup known /\
    (forall j, In j window <-> within limit times i j) /\
    (forall j, In j known <-> within limit times i j /\ ~ left_open limit l j) /\
    limit * length known < length window.
(** The position is blanked: it lies [limit] samples after or before such a sample, and not within [limit] samples of either end. *)
Definition erased_t (limit : nat) (times : list Z) (l : list (option R)) (j : nat) : Prop :=
  limit <= j /\ j + limit < length l /\ (mostly_open limit times l (j - limit) \/ mostly_open limit times l (j + limit)).
(** One sample per second from t0 on. *)
Definition every_second (t0 : Z) (n : nat) : list Z := map (fun i => (t0 + Z.of_nat i * 1000000000)%Z) (seq 0 n).
