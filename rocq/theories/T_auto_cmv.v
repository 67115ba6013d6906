(** Property theorems. Final forms: the automatic selection of cloud-motion vectors in the demos.
    Proofs are in the X_ file of the same name. *)
From Coq Require Import String Permutation Sorted Lia Lra Ratan.
From Verif Require Import Prelude PreludeFacts RealBase Fl RealStat M_spatial Spec_spatial P_plane M_cmv Spec_field P_field_lsa Spec_cmv P_cmv X_cmv_fit X_cmv_subset M_cmv_dict X_cmv_dict Spec_field_loop
  M_auto_cmv Spec_auto_cmv.
Local Open Scope R_scope.
From Verif Require Import X_auto_cmv.

(** C109. The hours looked at are the ones with the largest median score, at most [n] of them; hours without any score only if the others do
    not suffice. *)
Theorem C109_auto_hours :
  forall (H : Type) sv (vs : list (H * list (option R))) n, sorts_desc sv ->
  exists scored, Forall2 (fun v s => fst s = fst v /\ median_of (snd v) (snd s)) vs scored /\ top_scores scored n (variable_hours sv vs n).
Proof. exact (@auto_hours). Qed.
Print Assumptions C109_auto_hours.

(** C109. Of an hour's run of compute_cmv: with at least two passing pairs the row holds the returned speed and direction, the number of
    passing pairs and the run's r_corr; with fewer the demo stops with a TypeError. *)
Theorem C109_auto_hour :
  forall (H K : Type) (HK : Label K) dx dt ms lsq (ts : H -> list (K * list (option R))) pos o h s t w o',
  one_answer_per_pair dx -> one_answer_per_pair dt ->
  compute_cmv dx dt ms lsq (ts h) pos RefNone "jamaly" o "xcorr" = Ok ((s, t, w), o') ->
  let run h := rmap fst (compute_cmv dx dt ms lsq (ts h) pos RefNone "jamaly" o "xcorr") in
  (two_good (w_pair_flag w) -> exists f j, w_fit w = Some f /\ w_method_data f = Some j /\
     hour_cmv run h = Ok (h, (s, t, length (filter (fun g => flag_eqb g GOOD) (w_pair_flag w)), j_rcorr j), w_flag w)) /\
  (~ two_good (w_pair_flag w) -> hour_cmv run h = Err TypeError).
Proof. exact (@auto_hour). Qed.
Print Assumptions C109_auto_hour.

(** C109. The quality filter looks at the number of passing pairs, at r_corr, and at the flag of the first hour only: if that is GOOD, an hour is
    kept exactly when it has enough passing pairs and its r_corr is not too small, whatever its own flag; otherwise no hour is kept. *)
Theorem C109_auto_kept :
  forall (H K : Type) sv (run : H -> result (fl * fl * windspeed K)) lsa shgo nv ngm rmin n vs kept chosen,
  auto_select sv run lsa shgo nv ngm rmin n vs = Ok (kept, chosen) ->
  exists reports, Forall2 (hour_report run) (variable_hours sv vs nv) reports /\
    (forall x rest, reports = x :: rest -> snd x = GOOD -> picks (sound_row ngm rmin) (map fst reports) kept) /\
    (forall x rest, reports = x :: rest -> snd x <> GOOD -> kept = []) /\ (reports = [] -> kept = []).
Proof. exact (@auto_kept). Qed.
Print Assumptions C109_auto_kept.

(** C109. The chosen hours: [n] different kept ones, all kept ones having a direction; for the rotation the optimiser settled on no other
    [n] kept hours are better aligned with [n] evenly spaced axes. *)
Theorem C109_auto_chosen :
  forall (H K : Type) sv (run : H -> result (fl * fl * windspeed K)) lsa shgo nv ngm rmin n vs kept chosen,
  lsa_correct lsa -> auto_select sv run lsa shgo nv ngm rmin n vs = Ok (kept, chosen) -> (n <= length kept)%nat ->
  length chosen = n /\ (exists rest, Permutation kept (chosen ++ rest)) /\
  exists vecs idx y, Forall2 row_vector kept vecs /\ Forall (fun v => v <> (0, 0)) vecs /\
    assignment n (length kept) idx /\ Forall2 (fun i r => nth_error kept i = Some r) idx chosen /\
    forall cols, assignment n (length kept) cols -> total_alignment vecs n y cols <= total_alignment vecs n y idx.
Proof. exact (@auto_chosen). Qed.
Print Assumptions C109_auto_chosen.

(** C109. The first hour that cannot be reported ends the selection: with its own exception, or with a TypeError when it has fewer than two
    passing pairs. *)
Theorem C109_auto_fails :
  forall (H K : Type) sv (run : H -> result (fl * fl * windspeed K)) lsa shgo nv ngm rmin n vs a h b,
  variable_hours sv vs nv = a ++ h :: b -> (forall x, In x a -> exists r, hour_report run x r) ->
  (forall e, run h = Err e -> auto_select sv run lsa shgo nv ngm rmin n vs = Err e) /\
  (forall s t w, run h = Ok (s, t, w) -> w_fit w = None -> auto_select sv run lsa shgo nv ngm rmin n vs = Err TypeError).
Proof. exact (@auto_fails). Qed.
Print Assumptions C109_auto_fails.

(** C109. When every hour is reported and at least [n] >= 1 hours are kept, the selection succeeds exactly if each kept one has a finite direction and a
    finite speed other than zero; otherwise it is a ValueError. *)
Theorem C109_auto_success :
  forall (H K : Type) sv (run : H -> result (fl * fl * windspeed K)) lsa shgo nv ngm rmin n vs x reports kept,
  lsa_correct lsa -> Forall2 (hour_report run) (variable_hours sv vs nv) (x :: reports) -> snd x = GOOD ->
  picks (sound_row ngm rmin) (map fst (x :: reports)) kept -> n <> 0%nat -> (n <= length kept)%nat ->
  ((forall r, In r kept -> exists s t, fst (fst (fst (snd r))) = Fin s /\ s <> 0 /\ snd (fst (fst (snd r))) = Fin t) ->
     exists chosen, auto_select sv run lsa shgo nv ngm rmin n vs = Ok (kept, chosen)) /\
  (~ (forall r, In r kept -> exists s t, fst (fst (fst (snd r))) = Fin s /\ s <> 0 /\ snd (fst (fst (snd r))) = Fin t) ->
     auto_select sv run lsa shgo nv ngm rmin n vs = Err ValueError).
Proof. exact (@auto_success). Qed.
Print Assumptions C109_auto_success.

(** C109. The pairs of CMVs used by the field demo: exactly the pairs of different CMVs, the earlier one first, whose lines of motion cross at more than
    [sep] degrees; a CMV of zero is in no pair; no pair comes twice. *)
Theorem C109_pairs_crossing :
  forall (A : Type) sep (cmvs : list (A * (R * R))), 0 <= sep <= 90 ->
  (forall p, In p (cmv_pairs sep cmvs) <-> earlier_later cmvs p /\ crosses_at sep (snd (fst p)) (snd (snd p))) /\
  (NoDup cmvs -> NoDup (cmv_pairs sep cmvs)).
Proof. exact (@pairs_crossing). Qed.
Print Assumptions C109_pairs_crossing.

(** C109. No pair that is used is parallel or opposite. *)
Theorem C109_pairs_not_parallel :
  forall (A : Type) sep (cmvs : list (A * (R * R))) p, 0 <= sep <= 90 -> In p (cmv_pairs sep cmvs) ->
  ~ parallel (snd (fst p)) (snd (snd p)).
Proof. exact (@pairs_not_parallel). Qed.
Print Assumptions C109_pairs_not_parallel.

(** C109. With the demo's settings an hour flagged TREND can pass the filter and be chosen: five hours, of which only the first is GOOD, are all kept
    and all chosen. *)
Theorem C109_auto_flag_refuted :
  exists (run : nat -> result (fl * fl * windspeed nat)) sv vs h, sorts_desc sv /\ 
  (exists s t w, run h = Ok (s, t, w) /\ w_flag w <> GOOD) /\
  forall lsa shgo, lsa_correct lsa -> exists kept chosen, auto_select sv run lsa shgo 20 200 0.85 5 vs = Ok (kept, chosen) /\ In h (map fst kept) /\ In h (map fst chosen).
Proof. exact (@auto_flag_refuted). Qed.
Print Assumptions C109_auto_flag_refuted.

(** C109. The five hours meet the conditions above. *)
Example C109_auto_example :
  sorts_desc (sort_by (desc_leb (H := nat))) /\ lsa_correct lsa_brute /\
  Forall2 (hour_report five_run) (variable_hours (sort_by desc_leb) five_hours 20) five_reports /\
  (exists x rest, five_reports = x :: rest /\ snd x = GOOD) /\ picks (sound_row 200 0.85) (map fst five_reports) (map fst five_reports) /\
  (forall r, In r (map fst five_reports) -> exists s t, fst (fst (fst (snd r))) = Fin s /\ s <> 0 /\ snd (fst (fst (snd r))) = Fin t) /\
  In ((0%nat, (10, 0)), (1%nat, (0, 5))) (cmv_pairs 45 [(0%nat, (10, 0)); (1%nat, (0, 5)); (2%nat, (0, 0)); (3%nat, (1, 0))]).
Proof. exact (@auto_example). Qed.

