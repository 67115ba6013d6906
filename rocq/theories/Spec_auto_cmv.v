(** Independent vocabulary for the automatic selection of cloud-motion vectors. *)
From Coq Require Import String Permutation Sorted.
From Verif Require Import Prelude RealBase Fl RealStat M_cmv Spec_spatial.
Local Open Scope R_scope.

(** [b] does not come before [a] in descending order; NaN comes last. *)
Definition ranked_desc (a b : fl) : Prop := is_nan b = true \/ fleb b a = true.
(** [sv] sorts in descending order; ties in any order. *)
Definition sorts_desc {H} (sv : list (H * fl) -> list (H * fl)) : Prop :=
  forall l, Permutation l (sv l) /\ StronglySorted (fun p q => ranked_desc (snd p) (snd q)) (sv l).
(** [chosen] are [n] of the [scored] hours (all, if there are fewer), and no other one has a larger score. *)
Definition top_scores {H} (scored : list (H * fl)) (n : nat) (chosen : list H) : Prop :=
  exists best rest, chosen = map fst best /\ Permutation scored (best ++ rest) /\ length best = Nat.min n (length scored) /\
    forall b r, In b best -> In r rest -> ranked_desc (snd b) (snd r).
(** The median of the entries that are there; NaN if there is none. *)
Definition median_of (l : list (option R)) (m : fl) : Prop :=
  exists nums, nums = concat (map (fun x => match x with Some r => [r] | None => [] end) l) /\
    m = match nums with [] => Nan | _ => Fin (median nums) end.

(** At least [sep] degrees apart, also from the opposite direction: the lines through [a] and [b] meet at more than [sep] degrees. *)
Definition crosses_at (sep : R) (a b : R * R) : Prop :=
  a <> (0, 0) /\ b <> (0, 0) /\ Rabs (inner a b) < cos (sep * PI / 180) * (len a * len b).
(** [p] comes from two different places of the list, the earlier first. *)
Definition earlier_later {A} (l : list A) (p : A * A) : Prop := exists i j, (i < j)%nat /\ nth_error l i = Some (fst p) /\ nth_error l j = Some (snd p).

(** The run for the hour [h] had at least two passing pairs; its row and flag. *)
Definition hour_report {H K} (run : H -> result (fl * fl * windspeed K)) (h : H) (x : H * (fl * fl * nat * fl) * Flag) : Prop :=
  exists s t w f j, run h = Ok (s, t, w) /\ w_fit w = Some f /\ w_method_data f = Some j /\
    x = (h, (s, t, j_ngood j, j_rcorr j), w_flag w).

(** A row is (hour, (speed, direction, number of passing pairs, r_corr)). Enough passing pairs, and r_corr not below the limit. *)
Definition sound_row {H} (ngood_min : nat) (rval_min : R) (r : H * (fl * fl * nat * fl)) : Prop :=
  (ngood_min <= snd (fst (snd r)))%nat /\ ~ fltb (snd (snd r)) (Fin rval_min) = true.
(** The CMV of a row points in the direction [snd] with the speed [fst]. *)
Definition row_vector {H} (r : H * (fl * fl * nat * fl)) (v : R * R) : Prop :=
  exists s t, fst (fst (fst (snd r))) = Fin s /\ snd (fst (fst (snd r))) = Fin t /\ v = (s * cos t, s * sin t).
