(** Final forms: the whole-plant workflow with the demo's choice of CMV pairs. *)
From Coq Require Import String Permutation Sorted Lia Lra.
From Verif Require Import Prelude PreludeFacts RealBase Fl M_spatial Spec_spatial M_cmv M_field_remap Spec_field P_field_lsa M_field_pos Spec_field_pos X_field_pos Spec_field_mislabel X_field_mislabel
  M_field_loop Spec_field_loop X_field_loop M_auto_cmv Spec_auto_cmv X_auto_cmv.
Local Open Scope R_scope.

(*@ C108 With the demo's own pairs: if in every time window the delays are the true travel times of clouds moving with the window's CMV, and any two
    locations of an inverter differ along both CMVs of some pair of windows crossing at more than 45 degrees, the true map is found in at most two
    rounds, however the labels are permuted within the inverters. *)
Lemma process_windows : forall (K : Type) (HK : Label K) inv_of lsa dtf sv cmv (windows : list (list (K * list (option R)) * (R * R))) n (plan : table K string R) s (X : K -> R * R),
  lsa_correct lsa -> sorts sv -> wf_table plan -> all_located plan -> clear_names inv_of (t_index plan) ->
  one_to_one (t_index plan) s -> keeps_inverter inv_of s -> (forall k m, In (k, m) s -> position plan m = Some (X k)) ->
  (forall df v, In (df, v) windows -> exact_delays dtf (t_index plan) X df v) ->
  (forall m m' q q', In m (t_index plan) -> In m' (t_index plan) -> inv_of m = inv_of m' -> m <> m' ->
     position plan m = Some q -> position plan m' = Some q' ->
     exists p, earlier_later windows p /\ crosses_at 45 (snd (fst p)) (snd (snd p)) /\
       inner (sub2 q q') (snd (fst p)) <> 0 /\ inner (sub2 q q') (snd (snd p)) <> 0) ->
  exists st, field_process inv_of lsa (pairs_mean dtf sv cmv (cmv_pairs 45 windows) "all"%string n) plan = Ok (st, []) /\ (length (l_predictions st) <= 2)%nat /\
    Permutation (l_remap st) s /\ rearranged plan s (l_pos_map st).
Proof.
  intros K HK inv_of lsa dtf sv cmv windows n plan s X Hl Hs Hw Ha Hc Ho Hk Hx Hd Hg.
  assert (S45 : 0 <= 45 <= 90) by lra. destruct (pairs_crossing _ 45 windows S45) as [PC _].
  apply (process_exact K HK inv_of lsa dtf sv cmv (cmv_pairs 45 windows) n plan s X); auto.
  - intros dfa va dfb vb I. pose proof (pairs_not_parallel _ 45 windows _ S45 I) as NP. split; [exact NP|].
    apply PC in I. destruct I as ((i & j & _ & Ei & Ej) & _). apply nth_error_In in Ei. apply nth_error_In in Ej. split; now apply Hd.
  - intros m m' q q' Im Im' Ei Ne Eq Eq'. destruct (Hg m m' q q' Im Im' Ei Ne Eq Eq') as ([[dfa va] [dfb vb]] & EL & CR & I1 & I2).
    exists dfa, va, dfb, vb. split; [|split; assumption]. apply PC. split; assumption.
Qed.

(*@ex C108 Two combiners with exchanged labels, an eastward and a northward window. *)
Lemma windows_example : let windows := [(swap_df 1, (10, 0)); (swap_df 2, (0, 5))] in
  (forall df v, In (df, v) windows -> exact_delays swap_exact (t_index swap_plan) swap_truth df v) /\
  (forall m m' q q', In m (t_index swap_plan) -> In m' (t_index swap_plan) -> swap_inv m = swap_inv m' -> m <> m' ->
     position swap_plan m = Some q -> position swap_plan m' = Some q' ->
     exists p, earlier_later windows p /\ crosses_at 45 (snd (fst p)) (snd (snd p)) /\
       inner (sub2 q q') (snd (fst p)) <> 0 /\ inner (sub2 q q') (snd (snd p)) <> 0).
Proof.
  destruct process_example as (_ & _ & _ & _ & _ & _ & _ & _ & HE & HD). intro windows. split.
  - destruct (HE (swap_df 1) (10, 0) (swap_df 2) (0, 5) (or_introl eq_refl)) as (_ & E1 & E2). intros df v [F|[F|[]]]; injection F as <- <-; assumption.
  - intros m m' q q' Im Im' Ei Ne Eq Eq'. destruct (HD m m' q q' Im Im' Ei Ne Eq Eq') as (dfa & va & dfb & vb & [F|[]] & I1 & I2). injection F as <- <- <- <-.
    exists ((swap_df 1, (10, 0)), (swap_df 2, (0, 5))). split; [exists 0%nat, 1%nat; repeat split; lia|]. cbn [fst snd]. split; [|split; assumption].
    split; [intro F; injection F; lra|]. split; [intro F; injection F; lra|]. unfold inner. cbn [fst snd]. replace (10 * 0 + 0 * 5) with 0 by ring. rewrite Rabs_R0. apply Rmult_lt_0_compat.
    + apply cos_gt_0; pose proof PI_RGT_0; lra.
    + apply Rmult_lt_0_compat; unfold len, inner; cbn [fst snd]; apply sqrt_lt_R0; lra.
Qed.
