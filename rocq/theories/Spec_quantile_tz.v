(** Vocabulary for clocks of time zones. *)
From Verif Require Import Prelude Spec_stats.
Local Open Scope Z_scope.

(** [locate] finds the instant of a clock reading that occurs exactly once. *)
Definition locates (local : Z -> Z * Z) (locate : Z * Z -> option Z) : Prop :=
  forall st i, locate st = Some i <-> (forall j, local j = st <-> j = i).
(** A clock: times of day are not negative, days follow each other, and a midnight that occurs once is the first instant of its day. *)
Definition clock (local : Z -> Z * Z) : Prop :=
  (forall i, 0 <= snd (local i)) /\
  (forall i j, i <= j -> fst (local i) <= fst (local j)) /\
  (forall d m, (forall j, local j = (d, 0) <-> j = m) -> forall i, i < m -> fst (local i) < d).
(** The clock of a zone that is [a] ahead before instant [T] and [b] ahead from then on. *)
Definition switching (a b T i : Z) : Z * Z :=
  let x := i + (if i <? T then a else b) in (x / one_day, x mod one_day).
Definition find_reading (a b T : Z) (st : Z * Z) : option Z :=
  if (0 <=? snd st) && (snd st <? one_day) then
    let x := fst st * one_day + snd st in
    match x - a <? T, T <=? x - b with
    | true, false => Some (x - a)
    | false, true => Some (x - b)
    | _, _ => None
    end
  else None.
