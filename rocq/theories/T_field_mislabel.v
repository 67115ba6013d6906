(** Property theorems. field.py compute_predicted_position when the other sensors may be mislabelled too.
    Proofs are in the X_ file of the same name. *)
From Coq Require Import String Permutation Lia Lra.
From Verif Require Import Prelude PreludeFacts RealBase Fl RealStat M_spatial Spec_spatial P_plane M_cmv M_field_pos Spec_field_pos Spec_field_mislabel X_field_pos.
Local Open Scope R_scope.
From Verif Require Import X_field_mislabel.

(** C107. With every used delay the true travel time of the pattern between the sensors' true positions X, the
    prediction is displaced from the sensor's true position by minus the mean displacement of the used points: exactly
    that along each of the two CMVs. It is not a number exactly when the sensor's own displacement along a CMV
    equals that mean. *)
Theorem C107_predicted_mislabelled :
  forall (K : Type) (HK : Label K) dtf sv cmv (df1 df2 : list (K * list (option R))) pos ref va vb mode n p s1 s2 rp (X : K -> R * R),
  NoDup (map fst pos) -> ~ parallel va vb -> dget pos ref = Some rp ->
  compute_predicted_position dtf sv cmv df1 df2 pos ref (Some (Some va, Some vb)) mode n = Ok (p, (s1, s2)) ->
  s1 <> [] -> s2 <> [] ->
  (forall k r, In (k, r) s1 -> pp_delay r = Fin (travel_time va (X ref) (X k))) ->
  (forall k r, In (k, r) s2 -> pp_delay r = Fin (travel_time vb (X ref) (X k))) ->
  let ma := mean_shift pos X va (map fst s1) in let mb := mean_shift pos X vb (map fst s2) in
  (inner (sub2 (X ref) rp) va <> ma -> inner (sub2 (X ref) rp) vb <> mb ->
     exists q, p = (Fin (fst q), Fin (snd q)) /\ inner (sub2 q (X ref)) va = - ma /\ inner (sub2 q (X ref)) vb = - mb) /\
  (inner (sub2 (X ref) rp) va = ma \/ inner (sub2 (X ref) rp) vb = mb -> p = (Nan, Nan)).
Proof. exact (@predicted_mislabelled). Qed.
Print Assumptions C107_predicted_mislabelled.

(** C107. However many labels are wrong: if the true positions are the listed positions in another order, mode 'all'
    returns exactly the true position of the sensor, or NaN when the sensor stands right along one of the CMVs. *)
Theorem C107_predicted_all_permuted :
  forall (K : Type) (HK : Label K) dtf sv cmv (df1 df2 : list (K * list (option R))) pos ref va vb n p s1 s2 rp (X : K -> R * R),
  NoDup (map fst pos) -> ~ parallel va vb -> dget pos ref = Some rp ->
  compute_predicted_position dtf sv cmv df1 df2 pos ref (Some (Some va, Some vb)) "all" n = Ok (p, (s1, s2)) ->
  Permutation (map X (map fst pos)) (map snd pos) ->
  (forall k r, In (k, r) s1 -> pp_delay r = Fin (travel_time va (X ref) (X k))) ->
  (forall k r, In (k, r) s2 -> pp_delay r = Fin (travel_time vb (X ref) (X k))) ->
  (inner (sub2 (X ref) rp) va <> 0 /\ inner (sub2 (X ref) rp) vb <> 0 -> p = (Fin (fst (X ref)), Fin (snd (X ref)))) /\
  (inner (sub2 (X ref) rp) va = 0 \/ inner (sub2 (X ref) rp) vb = 0 -> p = (Nan, Nan)).
Proof. exact (@predicted_all_permuted). Qed.
Print Assumptions C107_predicted_all_permuted.

(** C107. Two sensors with exchanged labels, eastward clouds at 10 m/s and northward clouds at 5 m/s. *)
Example C107_predicted_all_example :
  exists p s1 s2,
  NoDup (map fst swap_sites) /\ ~ parallel (10, 0) (0, 5) /\ dget swap_sites 0%nat = Some (0, 0) /\
  compute_predicted_position swap_dtf (sort_by rank_leb) no_cmv (swap_df 1) (swap_df 2) swap_sites 0%nat (Some (Some (10, 0), Some (0, 5))) "all" 8
    = Ok (p, (s1, s2)) /\
  Permutation (map swap_truth (map fst swap_sites)) (map snd swap_sites) /\
  (forall k r, In (k, r) s1 -> pp_delay r = Fin (travel_time (10, 0) (swap_truth 0) (swap_truth k))) /\
  (forall k r, In (k, r) s2 -> pp_delay r = Fin (travel_time (0, 5) (swap_truth 0) (swap_truth k))) /\
  inner (sub2 (swap_truth 0) (0, 0)) (10, 0) <> 0 /\ inner (sub2 (swap_truth 0) (0, 0)) (0, 5) <> 0.
Proof. exact (@predicted_all_example). Qed.

