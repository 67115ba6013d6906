(** Independent vocabulary for predicted positions. *)
From Coq Require Import Permutation Sorted.
From Verif Require Import Prelude RealBase Fl M_spatial Spec_spatial.
Local Open Scope R_scope.

(** Ascending order with NaN last (pandas' na_position). *)
Definition ranked (a b : fl) : Prop := is_nan b = true \/ fleb a b = true.
(** What any correct sort_values does; nothing is said about ties. *)
Definition sorts {K} (sv : list (K * fl) -> list (K * fl)) : Prop :=
  forall l, Permutation l (sv l) /\ StronglySorted (fun p q => ranked (snd p) (snd q)) (sv l).

(** [used] are the labels of the entries ranked just below the single highest one: [n] - 1 of them, or as
    many as there are (for [n] = 0: all but the highest). *)
Definition takes_below_top {K} (scores : list (K * fl)) (n : nat) (used : list K) : Prop :=
  exists low mid top, Permutation scores (low ++ mid ++ top) /\ used = map fst mid /\
    length top = Nat.min 1 (length scores) /\
    length mid = ((if Nat.eqb n 0 then length scores else Nat.min n (length scores)) - 1)%nat /\
    (forall a b, In a low -> In b (mid ++ top) -> ranked (snd a) (snd b)) /\
    (forall a b, In a mid -> In b top -> ranked (snd a) (snd b)).
(** [used] are the labels of the [n] lowest entries. *)
Definition takes_lowest {K} (scores : list (K * fl)) (n : nat) (used : list K) : Prop :=
  exists taken rest, Permutation scores (taken ++ rest) /\ used = map fst taken /\
    length taken = Nat.min n (length scores) /\
    forall a b, In a taken -> In b rest -> ranked (snd a) (snd b).

(** Time by which a pattern moving with velocity [v] reaches [p] after [x]. *)
Definition travel_time (v x p : R * R) : R := inner (sub2 p x) v / inner v v.
(** Signed distance from [p] to [x] along [v]. *)
Definition along (v p x : R * R) : R := inner (sub2 x p) v / len v.
