(** Property theorems C24-C29 (field.py: remap_positions, cascade_remap, assign_positions). *)
From Coq Require Import Permutation String.
From Verif Require Import Prelude PreludeFacts RealBase M_field_remap Spec_field
  P_field_remap P_field_assign P_field_lsa X_field_remap.
Local Open Scope string_scope.

(** C24. Complete behaviour: each listed entity shows its source's ORIGINAL values in the
    selected columns, all other cells are untouched; new labels are appended. *)
Theorem C24_remap_simultaneous :
  forall (K C A : Type) (HK : Label K) (HC : Label C) (data : table K C A) (r : list (K * K)) (columns : option (list C)),
  wf_table data ->
  let cols := match columns with None => t_cols data | Some cs => cs end in
  (forall p c, In p r -> In c cols -> In (snd p) (t_index data) /\ In c (t_cols data)) ->
  exists out, remap_positions data r columns = Ok out /\ wf_table out /\ t_cols out = t_cols data /\
    (cols <> [] -> t_index out = enlarged (t_index data) (map fst r)) /\
    (forall k c, In c cols -> In k (map fst r) ->
        exists s, listed_source r k = Some s /\ cell out k c = cell data s c) /\
    (forall k c, ~ In k (map fst r) -> cell out k c = cell data k c) /\
    (forall k c, ~ In c cols -> In k (t_index data) -> cell out k c = cell data k c).
Proof. exact remap_simultaneous. Qed.
Print Assumptions C24_remap_simultaneous.

(** C24. When every entity is already a row, the row order is unchanged. *)
Theorem C24_remap_keeps_rows :
  forall (K C A : Type) (HK : Label K) (HC : Label C) (data : table K C A) (r : list (K * K)) (columns : option (list C)) out,
  wf_table data -> (forall p, In p r -> In (fst p) (t_index data)) ->
  remap_positions data r columns = Ok out -> t_index out = t_index data.
Proof. exact remap_keeps_rows. Qed.
Print Assumptions C24_remap_keeps_rows.

(** C24. The only failure is KeyError, exactly when a source or a column is unknown. *)
Theorem C24_remap_keyerror :
  forall (K C A : Type) (HK : Label K) (HC : Label C) (data : table K C A) (r : list (K * K)) (columns : option (list C)) e,
  wf_table data ->
  let cols := match columns with None => t_cols data | Some cs => cs end in
  remap_positions data r columns = Err e <->
  e = KeyError /\ exists p c, In p r /\ In c cols /\ (~ In (snd p) (t_index data) \/ ~ In c (t_cols data)).
Proof. exact remap_keyerror. Qed.
Print Assumptions C24_remap_keyerror.

(** A three-entity layout and a cyclic remap meet the hypotheses. *)
Example C24_example :
  wf_table demo_plan /\
  (forall p c, In p demo_cycle -> In c (t_cols demo_plan) -> In (snd p) (t_index demo_plan) /\ In c (t_cols demo_plan)) /\
  (exists out, remap_positions demo_plan demo_cycle None = Ok out /\
     cell out "A" "E" = cell demo_plan "B" "E" /\ cell demo_plan "B" "E" = Some (Some 3%R)) /\
  remap_positions demo_plan [("A", "Q")] None = Err KeyError.
Proof. exact demo_remap. Qed.

(** C25. Two remaps on the same entities, the second closed on them, compose. *)
Theorem C25_cascade_composes :
  forall (K C A : Type) (HK : Label K) (HC : Label C) (data : table K C A) (r1 r2 : list (K * K)),
  wf_table data ->
  (forall p, In p r1 -> In (fst p) (t_index data) /\ In (snd p) (t_index data)) ->
  (forall k, In k (map fst r1) <-> In k (map fst r2)) ->
  (forall p, In p r2 -> In (snd p) (map fst r1)) ->
  exists r t1 t2, cascade_remap r1 r2 = Ok r /\ remap_positions data r1 None = Ok t1 /\
    remap_positions t1 r2 None = Ok t2 /\ remap_positions data r None = Ok t2.
Proof. exact @cascade_composes. Qed.
Print Assumptions C25_cascade_composes.

(** C25. Exact result: sorted by entity, one entry per entity of the FIRST remap. *)
Theorem C25_cascade_result :
  forall (K : Type) (HK : Label K) (r1 r2 r : list (K * K)),
  cascade_remap r1 r2 = Ok r ->
  by_entity r /\ NoDup (map fst r) /\ (forall k, In k (map fst r) <-> In k (map fst r1)) /\
  (forall k s, In (k, s) r <-> In k (map fst r1) /\ exists m, listed_source r2 k = Some m /\ listed_source r1 m = Some s).
Proof. exact cascade_result. Qed.
Print Assumptions C25_cascade_result.

(** C25. KeyError exactly when the second remap misses an entity of the first or sends it outside. *)
Theorem C25_cascade_keyerror :
  forall (K : Type) (HK : Label K) (r1 r2 : list (K * K)) e,
  cascade_remap r1 r2 = Err e <->
  e = KeyError /\ exists k, In k (map fst r1) /\
    (~ In k (map fst r2) \/ exists m, listed_source r2 k = Some m /\ ~ In m (map fst r1)).
Proof. exact cascade_keyerror. Qed.
Print Assumptions C25_cascade_keyerror.

(** C25. The composition law fails for partial remaps: entities only in the second are dropped. *)
Theorem C25_cascade_partial_refuted :
  exists (data : table string string R) (r1 r2 r : list (string * string)) t1 t2 t3,
  wf_table data /\ cascade_remap r1 r2 = Ok r /\ remap_positions data r1 None = Ok t1 /\
  remap_positions t1 r2 None = Ok t2 /\ remap_positions data r None = Ok t3 /\ t2 <> t3.
Proof. exact cascade_partial_fails. Qed.
Print Assumptions C25_cascade_partial_refuted.

Example C25_example :
  (forall p, In p demo_cycle -> In (fst p) (t_index demo_plan) /\ In (snd p) (t_index demo_plan)) /\
  cascade_remap demo_cycle demo_cycle = Ok [("A", "C"); ("B", "A"); ("C", "B")].
Proof. exact demo_cascade. Qed.

(** C26. Group laws on a fixed entity set. *)
Theorem C26_cascade_associative :
  forall (K : Type) (HK : Label K) (S : list K) (a b c : list (K * K)),
  NoDup S -> one_to_one S a -> one_to_one S b -> one_to_one S c ->
  exists ab bc r, cascade_remap a b = Ok ab /\ cascade_remap b c = Ok bc /\
    cascade_remap ab c = Ok r /\ cascade_remap a bc = Ok r /\ one_to_one S r.
Proof. exact @cascade_assoc. Qed.
Print Assumptions C26_cascade_associative.

Theorem C26_cascade_identity :
  forall (K : Type) (HK : Label K) (S : list K) (a : list (K * K)),
  NoDup S -> one_to_one S a -> by_entity a ->
  cascade_remap (identity_remap S) a = Ok a /\ cascade_remap a (identity_remap S) = Ok a.
Proof. exact cascade_identity. Qed.
Print Assumptions C26_cascade_identity.

Theorem C26_cascade_inverse :
  forall (K : Type) (HK : Label K) (S : list K) (a : list (K * K)),
  NoDup S -> one_to_one S a ->
  exists i, cascade_remap a (inverse_remap a) = Ok i /\ cascade_remap (inverse_remap a) a = Ok i /\
    Permutation i (identity_remap S) /\ by_entity i.
Proof. exact cascade_inverse_id. Qed.
Print Assumptions C26_cascade_inverse.

Example C26_example :
  NoDup ["A"; "B"; "C"] /\ one_to_one ["A"; "B"; "C"] demo_cycle /\ by_entity demo_cycle.
Proof. exact demo_group. Qed.

(** C27. With no missing prediction the answer is a one-to-one assignment, sorted by entity,
    of minimal total distance; predictions are matched to entities by row position. *)
Theorem C27_assign_optimal :
  forall (K C : Type) (HK : Label K) (HC : Label C) lsa (Hlsa : lsa_correct lsa) (orig pred : table K C R),
  wf_table orig -> NoDup (t_index pred) -> all_located orig -> all_located pred -> no_nan pred ->
  length (t_rows orig) = length (t_rows pred) ->
  exists r out, assign_positions lsa orig pred = Ok (r, out) /\
    one_to_one (t_index orig) r /\ by_entity r /\
    (forall r', one_to_one (t_index orig) r' ->
       (total_dist orig (with_labels (t_index orig) pred) r <= total_dist orig (with_labels (t_index orig) pred) r')%R) /\
    t_cols out = t_cols orig /\ t_index out = t_index orig /\
    (forall p c, In p r -> cell out (fst p) c = cell orig (snd p) c).
Proof. exact @assign_positions_good. Qed.
Print Assumptions C27_assign_optimal.

(** C27. Same labels in the same order: the plain statement. *)
Theorem C27_assign_optimal_same_labels :
  forall (K C : Type) (HK : Label K) (HC : Label C) lsa (Hlsa : lsa_correct lsa) (orig pred : table K C R),
  wf_table orig -> t_index pred = t_index orig -> all_located orig -> all_located pred -> no_nan pred ->
  exists r out, assign_positions lsa orig pred = Ok (r, out) /\
    one_to_one (t_index orig) r /\ by_entity r /\
    (forall r', one_to_one (t_index orig) r' -> (total_dist orig pred r <= total_dist orig pred r')%R).
Proof. exact assign_same_labels. Qed.
Print Assumptions C27_assign_optimal_same_labels.

(** C27. Wrong number of predictions. *)
Theorem C27_assign_too_few :
  forall (K C : Type) (HK : Label K) (HC : Label C) lsa (orig pred : table K C R),
  NoDup (t_index pred) -> no_nan pred -> length (t_rows pred) < length (t_rows orig) ->
  assign_positions lsa orig pred = Err IndexError.
Proof. exact @assign_short. Qed.
Print Assumptions C27_assign_too_few.

Theorem C27_assign_too_many :
  forall (K C : Type) (HK : Label K) (HC : Label C) lsa (Hlsa : lsa_correct lsa) (orig pred : table K C R),
  NoDup (t_index orig) -> NoDup (t_index pred) -> all_located orig -> all_located pred ->
  no_nan pred -> t_rows orig <> [] -> length (t_rows orig) < length (t_rows pred) ->
  (forall k l, In k (t_index orig) -> In l (t_index pred) -> position orig k <> position pred l) ->
  assign_positions lsa orig pred = Err IndexError.
Proof. exact @assign_long. Qed.
Print Assumptions C27_assign_too_many.

Example C27_example :
  lsa_correct lsa_brute /\ wf_table demo_plan /\ t_index demo_pred = t_index demo_plan /\
  all_located demo_plan /\ all_located demo_pred /\ no_nan demo_pred.
Proof. exact demo_assign. Qed.

(** C28. Missing predictions stay in place, the rest is optimal among itself. *)
Theorem C28_assign_nan :
  forall (K C : Type) (HK : Label K) (HC : Label C) lsa (Hlsa : lsa_correct lsa) (orig pred : table K C R),
  wf_table orig -> wf_table pred -> 2 <= length (t_cols pred) ->
  Permutation (t_index pred) (t_index orig) -> all_located orig -> (exists k, nan_entity pred k = true) ->
  exists r out, assign_positions lsa orig pred = Ok (r, out) /\
    map fst r = t_index orig /\
    (forall k, nan_entity pred k = true -> In (k, k) r) /\
    one_to_one (finite_entities pred) (restrict r (finite_entities pred)) /\
    (forall r', one_to_one (finite_entities pred) r' ->
       (total_dist orig pred (restrict r (finite_entities pred)) <= total_dist orig pred r')%R) /\
    t_cols out = t_cols orig /\ t_index out = t_index orig /\
    (forall p c, In p r -> cell out (fst p) c = cell orig (snd p) c).
Proof. exact @assign_positions_nan. Qed.
Print Assumptions C28_assign_nan.

(** C28. "Additional columns are ignored" is false: a NaN in a third column changes the answer. *)
Theorem C28_extra_columns_refuted :
  exists (orig pred : table string string R),
  wf_table orig /\ wf_table pred /\ t_index pred = t_index orig /\ all_located orig /\ all_located pred /\
  forall lsa, lsa_correct lsa ->
    exists r r' out out',
      assign_positions lsa orig pred = Ok (r, out) /\
      assign_positions lsa orig (mkTable (firstn 2 (t_cols pred)) (map (fun kr => (fst kr, firstn 2 (snd kr))) (t_rows pred))) = Ok (r', out') /\
      r <> r'.
Proof. exact extra_columns_matter. Qed.
Print Assumptions C28_extra_columns_refuted.

Example C28_example :
  wf_table demo_pred_nan /\ Permutation (t_index demo_pred_nan) (t_index demo_plan) /\
  nan_entity demo_pred_nan "B" = true /\ finite_entities demo_pred_nan = ["A"; "C"].
Proof. exact demo_nan. Qed.

(** C29. Exact recovery of a relabelled layout. *)
Theorem C29_assign_recovers_permutation :
  forall (K C : Type) (HK : Label K) (HC : Label C) lsa (Hlsa : lsa_correct lsa) (orig pred : table K C R) (s : list (K * K)),
  wf_table orig -> NoDup (t_index pred) -> t_index pred = t_index orig -> all_located orig -> no_nan pred ->
  (forall k l p, In k (t_index orig) -> In l (t_index orig) -> position orig k = Some p -> position orig l = Some p -> k = l) ->
  one_to_one (t_index orig) s -> (forall p, In p s -> position pred (fst p) = position orig (snd p)) ->
  exists r out, assign_positions lsa orig pred = Ok (r, out) /\ Permutation r s /\ by_entity r.
Proof. exact @assign_recovers. Qed.
Print Assumptions C29_assign_recovers_permutation.

(** C29. Row labels of complete predictions are not consulted. *)
Theorem C29_prediction_labels_ignored :
  forall (K C : Type) (HK : Label K) (HC : Label C) lsa (orig pred : table K C R) (idx : list K),
  NoDup (t_index pred) -> no_nan pred -> length idx = length (t_rows pred) ->
  assign_positions lsa orig (with_labels idx pred) = assign_positions lsa orig pred.
Proof. exact @assign_labels_ignored. Qed.
Print Assumptions C29_prediction_labels_ignored.

Example C29_example :
  one_to_one (t_index demo_plan) demo_cycle /\
  (forall p, In p demo_cycle -> position demo_pred (fst p) = position demo_plan (snd p)) /\
  (forall k l p, In k (t_index demo_plan) -> In l (t_index demo_plan) ->
     position demo_plan k = Some p -> position demo_plan l = Some p -> k = l).
Proof. exact demo_recover. Qed.
