(** field.py assign_positions: plans and predictions that cannot be used. *)
From Coq Require Import Permutation String.
From Verif Require Import Prelude PreludeFacts RealBase M_field_remap Spec_field P_field_remap P_field_assign P_field_lsa.
Local Open Scope string_scope.

(*@ C27 A plan or predictions with fewer than two columns are refused with IndexError. *)
Lemma assign_one_column : forall (K C : Type) (HK : Label K) (HC : Label C) lsa (orig pred : table K C R),
  NoDup (t_index pred) -> no_nan pred -> (exists r, In r (t_rows orig ++ t_rows pred) /\ length (snd r) < 2) ->
  assign_positions lsa orig pred = Err IndexError.
Proof.
  intros K C HK HC lsa orig pred ND NN (r & Hr & L). unfold assign_positions. rewrite (no_nan_rows pred ND NN). unfold assign_good.
  assert (X : forall t : table K C R, In r (t_rows t) -> narrow t = true).
  { intros t Ht. unfold narrow. apply existsb_exists. exists r. split; [exact Ht|]. now apply Nat.ltb_lt. }
  apply in_app_or in Hr. destruct Hr as [Hr|Hr]; rewrite (X _ Hr), ?Bool.orb_true_r; reflexivity.
Qed.

Lemma all_some_none {A} (l : list (option A)) : In None l -> all_some l = None.
Proof.
  induction l as [|[a|] l IH]; intro H; [destruct H| |reflexivity]. destruct H as [H|H]; [discriminate|].
  cbn [all_some]. now rewrite IH.
Qed.
Lemma wide_table {K C} (t : table K C R) : (forall r, In r (t_rows t) -> 2 <= length (snd r)) -> narrow t = false.
Proof.
  intro W. unfold narrow. destruct (existsb _ _) eqn:E; [|reflexivity]. apply existsb_exists in E. destruct E as (r & Hr & L).
  apply Nat.ltb_lt in L. specialize (W r Hr). lia.
Qed.

(*@ C27 A missing easting or northing in the plan is refused with ValueError (only the predictions may have gaps). *)
Lemma assign_plan_gap : forall (K C : Type) (HK : Label K) (HC : Label C) lsa (orig pred : table K C R) k row,
  NoDup (t_index pred) -> no_nan pred -> length (t_rows orig) <= length (t_rows pred) ->
  (forall r, In r (t_rows orig ++ t_rows pred) -> 2 <= length (snd r)) ->
  In (k, row) (t_rows orig) -> nth 0 row None = None \/ nth 1 row None = None ->
  assign_positions lsa orig pred = Err ValueError.
Proof.
  intros K C HK HC lsa orig pred k row ND NN Le W Hk G. unfold assign_positions. rewrite (no_nan_rows pred ND NN). unfold assign_good.
  rewrite (wide_table orig), (wide_table pred) by (intros r Hr; apply W, in_or_app; auto). cbn [orb].
  unfold cost_matrix. rewrite !map_length. destruct (Nat.ltb_spec (length (t_rows pred)) (length (t_rows orig))) as [X|_]; [lia|]. cbn [rbind].
  rewrite all_some_none; [reflexivity|]. apply in_map_iff. eexists. split; [|apply in_map; apply in_map with (f := fun r => row_xy (snd r)); exact Hk].
  apply all_some_none. apply in_or_app. left. destruct (t_rows orig) as [|o os]; [destruct Hk|]. destruct (t_rows pred) as [|p ps]; [cbn in Le; lia|].
  cbn [length firstn map]. left. cbn [snd]. unfold row_xy, cost. destruct G as [->| ->]; [reflexivity|]. destruct (nth 0 row None); reflexivity.
Qed.

(*@ex C27 *)
Lemma assign_gap_example : forall lsa,
  assign_positions lsa (mkTable ["E"] [("a", [Some 0%R])]) (mkTable ["E"; "N"] [("a", [Some 0%R; Some 1%R])]) = Err IndexError /\
  assign_positions lsa (mkTable ["E"; "N"] [("a", [Some 0%R; None])]) (mkTable ["E"; "N"] [("a", [Some 0%R; Some 1%R])]) = Err ValueError.
Proof. intro lsa. split; reflexivity. Qed.
