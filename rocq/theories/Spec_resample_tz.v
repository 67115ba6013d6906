(** Vocabulary for averaging in absolute time from a given instant. *)
From Verif Require Import Prelude RealBase RealStat M_stats Spec_stats.
Local Open Scope Z_scope.

(** [first] is the earliest timestamp of [s]. *)
Definition starts (s : tser) (first : Z) : Prop := In first (stamps s) /\ forall t, In t (stamps s) -> first <= t.
(** [rs] is [s] averaged over consecutive bins of [w] seconds counted from instant [o]: from the bin of the earliest sample to that of
    the latest. *)
Definition binned_from (o w : Z) (s rs : tser) : Prop :=
  0 < w /\
  exists k0 first last, starts s first /\ In last (stamps s) /\ (forall t, In t (stamps s) -> t <= last) /\
    let left i := o + (k0 + Z.of_nat i) * (w * 1000000000) in
    left 0%nat <= first < left 1%nat /\
    left (length rs - 1)%nat <= last < left (length rs) /\
    forall i, (i < length rs)%nat -> exists v, nth_error rs i = Some (left i, v) /\
      average_of (map snd (filter (fun r => (left i <=? fst r) && (fst r <? left (S i))) s)) v.
(** All timestamps moved by [a]. *)
Definition moved (a : Z) (s : tser) : tser := map (fun r => (fst r + a, snd r)) s.
(** In a zone [a] ahead before instant [T] and [b] ahead from then on: [c] is the offset that counts for a series that begins at [first], which is
    the old one if it begins before the change and the new one if the change is over by midnight of its first day. *)
Definition offset_for (a b T c first : Z) : Prop :=
  c = a /\ first < T \/ c = b /\ T + b <= (first + b) / one_day * one_day.
(** No midnight is shown twice; none is shown twice or skipped. *)
Definition no_second_midnight (a b T : Z) : Prop := forall d, T + b <= d * one_day -> T + a <= d * one_day.
Definition single_midnights (a b T : Z) : Prop := forall d, T + b <= d * one_day <-> T + a <= d * one_day.
(** Midnight of every day is shown exactly once, at a whole multiple of [W]. *)
Definition midnights_on (W : Z) (local : Z -> Z * Z) : Prop :=
  forall i, exists o, (forall j, local j = (fst (local i), 0) <-> j = o) /\ (W | o).
