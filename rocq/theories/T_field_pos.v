(** Property theorems. field.py compute_predicted_position.
    Proofs are in the X_ file of the same name. *)
From Coq Require Import String Permutation Sorted.
From Verif Require Import Prelude PreludeFacts RealBase Fl RealStat M_spatial Spec_spatial P_plane M_cmv M_field_pos Spec_field_pos.
Local Open Scope R_scope.
From Verif Require Import X_field_pos.

(** C30. The report: every used point carries its signed planned distance to the reference along the CMV, the
    distance implied by its delay, their difference, and the delay and coherence found at the same position
    among the data columns as the point has among the listed positions. *)
Theorem C30_predicted_report :
  forall (K : Type) (HK : Label K) dtf sv cmv (df1 df2 : list (K * list (option R))) pos ref va vb mode n p s1 s2,
  va <> (0, 0) -> vb <> (0, 0) ->
  compute_predicted_position dtf sv cmv df1 df2 pos ref (Some (Some va, Some vb)) mode n = Ok (p, (s1, s2)) ->
  forall df v s, (df, v, s) = (df1, va, s1) \/ (df, v, s) = (df2, vb, s2) ->
  exists sig delay coh rp, dget df ref = Some sig /\ dtf (ref, sig) df = Ok (delay, coh) /\ dget pos ref = Some rp /\
   forall k r, In (k, r) s -> exists i P, nth_error pos i = Some (k, P) /\
     nth_error delay i = Some (pp_delay r) /\ nth_error coh i = Some (pp_coh r) /\
     pp_plan r = Fin (along v P rp) /\ pp_delay_dist r = fmul (fopp (pp_delay r)) (Fin (len v)) /\
     pp_error r = fsub (pp_delay_dist r) (pp_plan r).
Proof. exact (@predicted_report). Qed.
Print Assumptions C30_predicted_report.

(** C30. Exactness: if every used point's delay is the travel time of the pattern from the sensor's true position
    [x], the true position is returned, whichever points were used, provided the position error has a component
    along both CMVs. *)
Theorem C30_predicted_exact :
  forall (K : Type) (HK : Label K) dtf sv cmv (df1 df2 : list (K * list (option R))) pos ref va vb mode n p s1 s2 x rp,
  NoDup (map fst pos) -> ~ parallel va vb -> dget pos ref = Some rp ->
  compute_predicted_position dtf sv cmv df1 df2 pos ref (Some (Some va, Some vb)) mode n = Ok (p, (s1, s2)) ->
  s1 <> [] -> s2 <> [] ->
  (forall k r P, In (k, r) s1 -> dget pos k = Some P -> pp_delay r = Fin (travel_time va x P)) ->
  (forall k r P, In (k, r) s2 -> dget pos k = Some P -> pp_delay r = Fin (travel_time vb x P)) ->
  inner (sub2 x rp) va <> 0 -> inner (sub2 x rp) vb <> 0 ->
  p = (Fin (fst x), Fin (snd x)).
Proof. exact (@predicted_exact). Qed.
Print Assumptions C30_predicted_exact.

(** C30. Self-inclusion bias: the reference point's own delay to itself is zero wherever the sensor is, so when it is
    among the used points (mode 'all', 'distance') the estimate is pulled towards the labelled position by the
    factor (m - 1)/m for m used points. *)
Theorem C30_predicted_self_bias :
  forall (K : Type) (HK : Label K) dtf sv cmv (df1 df2 : list (K * list (option R))) pos ref va vb mode n p s1 s2 x rp m,
  NoDup (map fst pos) -> ~ parallel va vb -> dget pos ref = Some rp ->
  compute_predicted_position dtf sv cmv df1 df2 pos ref (Some (Some va, Some vb)) mode n = Ok (p, (s1, s2)) ->
  NoDup (map fst s1) -> NoDup (map fst s2) -> In ref (map fst s1) -> In ref (map fst s2) ->
  length s1 = m -> length s2 = m -> (2 <= m)%nat ->
  (forall k r P, In (k, r) s1 -> dget pos k = Some P -> pp_delay r = Fin (if lab_eqb k ref then 0 else travel_time va x P)) ->
  (forall k r P, In (k, r) s2 -> dget pos k = Some P -> pp_delay r = Fin (if lab_eqb k ref then 0 else travel_time vb x P)) ->
  inner (sub2 x rp) va <> 0 -> inner (sub2 x rp) vb <> 0 ->
  p = (Fin (fst rp + (INR m - 1) / INR m * (fst x - fst rp)), Fin (snd rp + (INR m - 1) / INR m * (snd x - snd rp))).
Proof. exact (@predicted_self_bias). Qed.
Print Assumptions C30_predicted_self_bias.

(** C30. A zero mean error along either CMV - in particular a correctly labelled sensor - gives NaN, not the label. *)
Theorem C30_predicted_zero_error :
  forall (K : Type) (HK : Label K) dtf sv cmv (df1 df2 : list (K * list (option R))) pos ref va vb mode n p s1 s2 x rp,
  NoDup (map fst pos) -> va <> (0, 0) -> vb <> (0, 0) -> dget pos ref = Some rp ->
  compute_predicted_position dtf sv cmv df1 df2 pos ref (Some (Some va, Some vb)) mode n = Ok (p, (s1, s2)) ->
  (forall k r P, In (k, r) s1 -> dget pos k = Some P -> pp_delay r = Fin (travel_time va x P)) ->
  (forall k r P, In (k, r) s2 -> dget pos k = Some P -> pp_delay r = Fin (travel_time vb x P)) ->
  inner (sub2 x rp) va = 0 \/ inner (sub2 x rp) vb = 0 ->
  p = (Nan, Nan).
Proof. exact (@predicted_zero_error). Qed.
Print Assumptions C30_predicted_zero_error.

(** C30. A NaN CMV gives a NaN position, and the reported planned distance, delay distance and error of every used point of its
    data frame are NaN. *)
Theorem C30_predicted_nan_cmv :
  forall (K : Type) (HK : Label K) dtf sv cmv (df1 df2 : list (K * list (option R))) pos ref va vb mode n p s1 s2,
  compute_predicted_position dtf sv cmv df1 df2 pos ref (Some (va, vb)) mode n = Ok (p, (s1, s2)) ->
  (va = None \/ vb = None -> p = (Nan, Nan)) /\
  (forall v s, (v, s) = (va, s1) \/ (v, s) = (vb, s2) -> v = None ->
     forall k r, In (k, r) s -> pp_plan r = Nan /\ pp_delay_dist r = Nan /\ pp_error r = Nan).
Proof. exact (@predicted_nan_cmv). Qed.
Print Assumptions C30_predicted_nan_cmv.

(** C30. Parallel CMVs (a zero CMV included) never give a finite position. *)
Theorem C30_predicted_parallel :
  forall (K : Type) (HK : Label K) dtf sv cmv (df1 df2 : list (K * list (option R))) pos ref va vb mode n p s,
  parallel va vb ->
  compute_predicted_position dtf sv cmv df1 df2 pos ref (Some (Some va, Some vb)) mode n = Ok (p, s) ->
  is_finite (fst p) = false /\ is_finite (snd p) = false.
Proof. exact (@predicted_parallel). Qed.
Print Assumptions C30_predicted_parallel.

(** C31. The used points, mode by mode. 'coherence' (or 'preavg'): for each CMV, among the points with finite
    coherence, those ranked just below the single most coherent one, ndownsel - 1 of them.
    'global_coherence': the same for the sum of squared coherences, NaN ranking highest, one choice for both CMVs.
    'distance': the ndownsel points nearest to the labelled reference position. 'all': every point in order. *)
Theorem C31_predicted_selection :
  forall (K : Type) (HK : Label K) dtf sv cmv (df1 df2 : list (K * list (option R))) pos ref va vb mode n p s1 s2,
  sorts sv ->
  compute_predicted_position dtf sv cmv df1 df2 pos ref (Some (va, vb)) mode n = Ok (p, (s1, s2)) ->
  exists sig1 sig2 del1 del2 coh1 coh2 rp,
    dget df1 ref = Some sig1 /\ dget df2 ref = Some sig2 /\ dget pos ref = Some rp /\
    dtf (ref, sig1) df1 = Ok (del1, coh1) /\ dtf (ref, sig2) df2 = Ok (del2, coh2) /\
    (mode = "coherence" \/ mode = "preavg" ->
       takes_below_top (filter (fun s => is_finite (snd s)) (combine (map fst pos) coh1)) n (map fst s1) /\
       takes_below_top (filter (fun s => is_finite (snd s)) (combine (map fst pos) coh2)) n (map fst s2))%string /\
    (mode = "global_coherence"%string ->
       map fst s1 = map fst s2 /\
       takes_below_top (combine (map fst pos) (map2 (fun a b => fadd (fmul a a) (fmul b b)) coh1 coh2)) n (map fst s1)) /\
    (mode = "distance"%string ->
       map fst s1 = map fst s2 /\ takes_lowest (map (fun q => (fst q, Fin (dist2 (snd q) rp))) pos) n (map fst s1)) /\
    (mode = "all"%string -> map fst s1 = map fst pos /\ map fst s2 = map fst pos) /\
    In mode ["coherence"; "preavg"; "global_coherence"; "distance"; "all"]%string.
Proof. exact (@predicted_selection). Qed.
Print Assumptions C31_predicted_selection.

(** C31. Any other mode is rejected once the delays have been computed. *)
Theorem C31_predicted_bad_mode :
  forall (K : Type) (HK : Label K) dtf sv cmv (df1 df2 : list (K * list (option R))) pos ref va vb mode mode' n n' res,
  compute_predicted_position dtf sv cmv df1 df2 pos ref (Some (va, vb)) mode' n' = Ok res ->
  ~ In mode ["coherence"; "preavg"; "global_coherence"; "distance"; "all"]%string ->
  compute_predicted_position dtf sv cmv df1 df2 pos ref (Some (va, vb)) mode n = Err ValueError.
Proof. exact (@predicted_bad_mode). Qed.
Print Assumptions C31_predicted_bad_mode.

(** C30. Without CMVs the polar CMV estimate of each data frame is used, as a Cartesian vector. *)
Theorem C30_predicted_default_cmv :
  forall (K : Type) (HK : Label K) dtf sv cmv (df1 df2 : list (K * list (option R))) pos ref mode n s1 t1 s2 t2,
  cmv df1 pos = Ok (Fin s1, Fin t1) -> cmv df2 pos = Ok (Fin s2, Fin t2) ->
  compute_predicted_position dtf sv cmv df1 df2 pos ref None mode n =
  compute_predicted_position dtf sv cmv df1 df2 pos ref
    (Some (Some (s1 * cos t1, s1 * sin t1), Some (s2 * cos t2, s2 * sin t2))) mode n.
Proof. exact (@predicted_default_cmv). Qed.
Print Assumptions C30_predicted_default_cmv.

(** C30. Without CMVs, an estimate that is not a number in speed or direction counts as a NaN CMV: the position is NaN. *)
Theorem C30_predicted_default_nan :
  forall (K : Type) (HK : Label K) dtf sv cmv (df1 df2 : list (K * list (option R))) pos ref mode n a b p s,
  cmv df1 pos = Ok a -> cmv df2 pos = Ok b ->
  (exists c, (c = a \/ c = b) /\ (fst c = Nan \/ snd c = Nan)) ->
  compute_predicted_position dtf sv cmv df1 df2 pos ref None mode n = Ok (p, s) -> p = (Nan, Nan).
Proof. exact (@predicted_default_nan). Qed.
Print Assumptions C30_predicted_default_nan.

(** C31. It succeeds whenever the reference is a data column and a listed point, there are as many data columns as
    listed points, and the mode is one of the five. *)
Theorem C31_predicted_success :
  forall (K : Type) (HK : Label K) dtf sv cmv (df1 df2 : list (K * list (option R))) pos ref va vb mode n sig1 sig2 del1 del2 coh1 coh2 rp,
  sorts sv -> dget df1 ref = Some sig1 -> dget df2 ref = Some sig2 -> dget pos ref = Some rp ->
  dtf (ref, sig1) df1 = Ok (del1, coh1) -> dtf (ref, sig2) df2 = Ok (del2, coh2) ->
  length del1 = length pos -> length coh1 = length pos -> length del2 = length pos -> length coh2 = length pos ->
  In mode ["coherence"; "preavg"; "global_coherence"; "distance"; "all"]%string ->
  exists res, compute_predicted_position dtf sv cmv df1 df2 pos ref (Some (va, vb)) mode n = Ok res.
Proof. exact (@predicted_success). Qed.
Print Assumptions C31_predicted_success.

(** C30. The hypotheses are met by a run: mode 'coherence' with ndownsel = 8 uses the three other sites. *)
Example C30_predicted_example :
  exists p s1 s2,
  NoDup (map fst demo_sites) /\ ~ parallel (10, 0) (0, 5) /\ sorts (K := nat) (sort_by rank_leb) /\
  compute_predicted_position demo_dtf (sort_by rank_leb) no_cmv (demo_df 1) (demo_df 2) demo_sites 0%nat (Some (Some (10, 0), Some (0, 5))) "coherence" 8
    = Ok (p, (s1, s2)) /\ s1 <> [] /\ s2 <> [] /\
  (forall k r P, In (k, r) s1 -> dget demo_sites k = Some P -> pp_delay r = Fin (travel_time (10, 0) (10, 20) P)) /\
  (forall k r P, In (k, r) s2 -> dget demo_sites k = Some P -> pp_delay r = Fin (travel_time (0, 5) (10, 20) P)) /\
  inner (sub2 (10, 20) (0, 0)) (10, 0) <> 0 /\ inner (sub2 (10, 20) (0, 0)) (0, 5) <> 0.
Proof. exact (@predicted_example). Qed.

Example C31_selection_example :
  exists p s1 s2,
  sorts (K := nat) (sort_by rank_leb) /\
  compute_predicted_position demo_dtf (sort_by rank_leb) no_cmv (demo_df 1) (demo_df 2) demo_sites 0%nat (Some (Some (10, 0), Some (0, 5))) "all" 8
    = Ok (p, (s1, s2)) /\ map fst s1 = [0; 1; 2; 3]%nat /\ map fst s2 = [0; 1; 2; 3]%nat /\
  (forall k r P, In (k, r) s1 -> dget demo_sites k = Some P -> pp_delay r = Fin (if lab_eqb k 0%nat then 0 else travel_time (10, 0) (10, 20) P)) /\
  (forall k r P, In (k, r) s2 -> dget demo_sites k = Some P -> pp_delay r = Fin (if lab_eqb k 0%nat then 0 else travel_time (0, 5) (10, 20) P)).
Proof. exact (@selection_example). Qed.

