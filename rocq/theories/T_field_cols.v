(** Property theorems. field.py compute_predicted_position: the columns of the layout table.
    Proofs are in the X_ file of the same name. *)
From Coq Require Import String.
From Verif Require Import Prelude PreludeFacts RealBase Fl RealStat M_spatial Spec_spatial P_plane M_cmv M_field_pos X_field_pos M_field_cols Spec_field_cols.
Local Open Scope R_scope.
From Verif Require Import X_field_cols.

(** C135. A table with exactly the columns E and N, in this order, is what the model of the method assumes: every theorem on
    the predicted position holds for it. *)
Theorem C135_columns_en :
  forall (K : Type) (HK : Label K) dtf sv cmv (df1 df2 : list (K * list (option R))) sites ref vecs mode n,
  predicted_cols dtf sv cmv df1 df2 (east_north sites) ref vecs mode n =
  compute_predicted_position dtf sv (fun df s => cmv df (east_north s)) df1 df2 sites ref vecs mode n.
Proof. exact (@columns_en). Qed.
Print Assumptions C135_columns_en.

(** C135. A table with a further column after E and N: wherever the table without it gives an answer, this one raises
    ValueError, in every mode and for every column and cell. *)
Theorem C135_columns_more :
  forall (K : Type) (HK : Label K) dtf sv cmv (df1 df2 : list (K * list (option R))) sites ref vecs mode n more extra r,
  more <> [] -> (forall k, length (extra k) = length more) ->
  compute_predicted_position dtf sv cmv df1 df2 sites ref (Some vecs) mode n = Ok r ->
  forall cmv', predicted_cols dtf sv cmv' df1 df2 (with_columns more extra sites) ref (Some vecs) mode n = Err ValueError.
Proof. exact (@columns_more). Qed.
Print Assumptions C135_columns_more.

(** C135. Without a column E or without a column N the call never succeeds. *)
Theorem C135_columns_missing :
  forall (K : Type) (HK : Label K) dtf sv cmv (df1 df2 : list (K * list (option R))) p ref vecs mode n,
  ~ In "E"%string (l_cols p) \/ ~ In "N"%string (l_cols p) ->
  exists e, predicted_cols dtf sv cmv df1 df2 p ref vecs mode n = Err e.
Proof. exact (@columns_missing). Qed.
Print Assumptions C135_columns_missing.

(** C135. The same two columns in the other order: the method runs as before, selects the same points and reports the same
    delays, but its answer is off by (N - E, E - N) of the reference. *)
Theorem C135_columns_swapped :
  forall (K : Type) (HK : Label K) dtf sv cmv (df1 df2 : list (K * list (option R))) sites ref vecs mode n p s rp,
  compute_predicted_position dtf sv cmv df1 df2 sites ref (Some vecs) mode n = Ok (p, s) -> dget sites ref = Some rp ->
  forall cmv', predicted_cols dtf sv cmv' df1 df2 (north_east sites) ref (Some vecs) mode n =
    Ok (moved p (snd rp - fst rp, fst rp - snd rp), s).
Proof. exact (@columns_swapped). Qed.
Print Assumptions C135_columns_swapped.

(** C135. Refuted: "the order of the columns of the layout does not matter". *)
Theorem C135_column_order_refuted :
  exists dtf sv cmv (df : list (nat * list (option R))) sites vecs p q s,
  predicted_cols dtf sv cmv df df (east_north sites) 0%nat (Some vecs) "all" 8 = Ok (p, s) /\
  predicted_cols dtf sv cmv df df (north_east sites) 0%nat (Some vecs) "all" 8 = Ok (q, s) /\
  p = (Fin 90, Fin (-5)) /\ q = (Fin (-10), Fin 95).
Proof. exact (@column_order_refuted). Qed.
Print Assumptions C135_column_order_refuted.

(** C135. One combiner at (100, 0): the table with columns E and N gives (90, -5); with a third column the call raises. *)
Example C135_columns_example :
  exists s,
  predicted_cols one_dtf (fun l => l) one_cmv one_df one_df (east_north one_site) 0%nat (Some (Some (10, 0), Some (0, 5))) "all" 8
    = Ok ((Fin 90, Fin (-5)), s) /\
  predicted_cols one_dtf (fun l => l) one_cmv one_df one_df (with_columns ["zone"%string] (fun _ => [13]) one_site) 0%nat
    (Some (Some (10, 0), Some (0, 5))) "all" 8 = Err ValueError.
Proof. exact (@columns_example). Qed.

