(** Property theorems. Final forms: combiner names such as CMB-020-1.
    Proofs are in the X_ file of the same name. *)
From Coq Require Import String Ascii Permutation Lia Lra.
From Verif Require Import Prelude PreludeFacts RealBase Fl M_spatial Spec_spatial M_cmv M_field_remap Spec_field M_field_pos Spec_field_pos M_field_loop Spec_field_loop P_field_loop
  X_field_loop M_field_reassign Spec_field_names M_field_names.
Local Open Scope string_scope.
From Verif Require Import X_field_names.

(** C108. The inverter's name is the part of the combiner's name between the first two hyphens (CMB-020-1 belongs to 020), and reading it fails with
    IndexError exactly when there is no hyphen. *)
Theorem C108_inverter_read :
  forall nm,
  (forall inv, inverter_of nm = Ok inv <-> names_inverter nm inv) /\ (inverter_of nm = Err IndexError <-> no_hyphen nm) /\
  (forall e, inverter_of nm = Err e -> e = IndexError).
Proof. exact (@inverter_read). Qed.
Print Assumptions C108_inverter_read.

(** C108. The plant workflow on named combiners: the names are read first. If every name has a hyphen it is the workflow of the theorems above with
    the inverters so read; one name without a hyphen stops it with IndexError before anything is predicted. *)
Theorem C108_named_workflow :
  forall lsa mean_pred (plan : table string string R),
  ((forall k, In k (t_index plan) -> ~ no_hyphen k) ->
     named_process lsa mean_pred plan = field_process inverter_name lsa mean_pred plan /\ forall k, In k (t_index plan) -> names_inverter k (inverter_name k)) /\
  ((exists k, In k (t_index plan) /\ no_hyphen k) -> named_process lsa mean_pred plan = Err IndexError).
Proof. exact (@named_workflow). Qed.
Print Assumptions C108_named_workflow.

(** C108. Names of one width keep the inverters apart: if the inverters' names are all equally long (020, 021, ...), none occurs inside another. *)
Theorem C108_same_width :
  forall (ids : list string) w,
  (forall k inv, In k ids -> names_inverter k inv -> String.length inv = w) -> (forall k, In k ids -> ~ no_hyphen k) ->
  clear_names inverter_name ids.
Proof. exact (@same_width). Qed.
Print Assumptions C108_same_width.

(** C116. The choice of combiners in the one-inverter demo: those whose name has one of the given inverters between its first two hyphens, in plan order. *)
Theorem C116_named_choice :
  forall ids invs,
  ((forall k, In k ids -> ~ no_hyphen k) ->
     exists refs, named_refs ids invs = Ok refs /\ picks (fun k => exists inv, names_inverter k inv /\ In inv invs) ids refs) /\
  ((exists k, In k ids /\ no_hyphen k) -> named_refs ids invs = Err IndexError).
Proof. exact (@named_choice). Qed.
Print Assumptions C116_named_choice.

(** C116. The demo with that choice, and IndexError for a name without a hyphen anywhere in the plan. *)
Theorem C116_named_one_inverter :
  forall lsa predict (plan : table string string R) invs,
  (forall refs, named_refs (t_index plan) invs = Ok refs -> named_demo lsa predict plan invs = reassign_demo lsa predict plan refs) /\
  ((exists k, In k (t_index plan) /\ no_hyphen k) -> named_demo lsa predict plan invs = Err IndexError).
Proof. exact (@named_one_inverter). Qed.
Print Assumptions C116_named_one_inverter.

(** C108. So with names of one width the whole chain of process_exact applies to the workflow as it reads the names. *)
Theorem C108_named_exact :
  forall lsa dtf sv cmv pairs n (plan : table string string R) s (X : string -> R * R) w,
  lsa_correct lsa -> sorts sv -> wf_table plan -> all_located plan ->
  (forall k, In k (t_index plan) -> exists inv, names_inverter k inv /\ String.length inv = w) ->
  one_to_one (t_index plan) s -> (forall k m, In (k, m) s -> exists inv, names_inverter k inv /\ names_inverter m inv) ->
  (forall k m, In (k, m) s -> position plan m = Some (X k)) ->
  (forall dfa va dfb vb, In ((dfa, va), (dfb, vb)) pairs ->
     ~ parallel va vb /\ exact_delays dtf (t_index plan) X dfa va /\ exact_delays dtf (t_index plan) X dfb vb) ->
  (forall m m' inv q q', In m (t_index plan) -> In m' (t_index plan) -> names_inverter m inv -> names_inverter m' inv -> m <> m' ->
     position plan m = Some q -> position plan m' = Some q' ->
     exists dfa va dfb vb, In ((dfa, va), (dfb, vb)) pairs /\ inner (sub2 q q') va <> 0%R /\ inner (sub2 q q') vb <> 0%R) ->
  exists st, named_process lsa (pairs_mean dtf sv cmv pairs "all" n) plan = Ok (st, []) /\ length (l_predictions st) <= 2 /\
    Permutation (l_remap st) s /\ rearranged plan s (l_pos_map st).
Proof. exact (@named_exact). Qed.
Print Assumptions C108_named_exact.

Example C108_names_read_example :
  names_inverter "CMB-020-1" "020" /\ inverter_of "CMB-020-1" = Ok "020" /\ inverter_of "CMB20" = Err IndexError /\
  (forall k, In k ["CMB-020-1"; "CMB-020-2"; "CMB-021-1"] -> exists inv, names_inverter k inv /\ String.length inv = 3).
Proof. exact (@names_read_example). Qed.

Example C116_names_choice_example :
  named_refs ["CMB-20-1"; "CMB-21-1"; "CMB-20-2"; "CMB-120-1"] ["20"] = Ok ["CMB-20-1"; "CMB-20-2"] /\
  named_refs ["CMB-20-1"; "spare"] ["20"] = Err IndexError.
Proof. exact (@names_choice_example). Qed.

