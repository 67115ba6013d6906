(** Property theorems. field.py assign_positions: plans and predictions that cannot be used.
    Proofs are in the X_ file of the same name. *)
From Coq Require Import Permutation String.
From Verif Require Import Prelude PreludeFacts RealBase M_field_remap Spec_field P_field_remap P_field_assign P_field_lsa.
Local Open Scope string_scope.
From Verif Require Import X_field_narrow.

(** C27. A plan or predictions with fewer than two columns are refused with IndexError. *)
Theorem C27_assign_one_column :
  forall (K C : Type) (HK : Label K) (HC : Label C) lsa (orig pred : table K C R),
  NoDup (t_index pred) -> no_nan pred -> (exists r, In r (t_rows orig ++ t_rows pred) /\ length (snd r) < 2) ->
  assign_positions lsa orig pred = Err IndexError.
Proof. exact (@assign_one_column). Qed.
Print Assumptions C27_assign_one_column.

(** C27. A missing easting or northing in the plan is refused with ValueError (only the predictions may have gaps). *)
Theorem C27_assign_plan_gap :
  forall (K C : Type) (HK : Label K) (HC : Label C) lsa (orig pred : table K C R) k row,
  NoDup (t_index pred) -> no_nan pred -> length (t_rows orig) <= length (t_rows pred) ->
  (forall r, In r (t_rows orig ++ t_rows pred) -> 2 <= length (snd r)) ->
  In (k, row) (t_rows orig) -> nth 0 row None = None \/ nth 1 row None = None ->
  assign_positions lsa orig pred = Err ValueError.
Proof. exact (@assign_plan_gap). Qed.
Print Assumptions C27_assign_plan_gap.

Example C27_assign_gap_example :
  forall lsa,
  assign_positions lsa (mkTable ["E"] [("a", [Some 0%R])]) (mkTable ["E"; "N"] [("a", [Some 0%R; Some 1%R])]) = Err IndexError /\
  assign_positions lsa (mkTable ["E"; "N"] [("a", [Some 0%R; None])]) (mkTable ["E"; "N"] [("a", [Some 0%R; Some 1%R])]) = Err ValueError.
Proof. exact (@assign_gap_example). Qed.

