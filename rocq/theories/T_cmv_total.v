(** Property theorems. cmv.py compute_cmv: exactly when it succeeds and which exception it raises otherwise.
    Proofs are in the X_ file of the same name. *)
From Coq Require Import String Permutation.
From Verif Require Import Prelude PreludeFacts RealBase Fl RealStat M_spatial M_cmv Spec_spatial Spec_cmv P_cmv X_cmv_options X_cmv_pairs X_cmv_qc X_cmv_cascade X_cmv_rows.
Local Open Scope R_scope.
From Verif Require Import X_cmv_total.

(** C95. compute_cmv succeeds if the method and the delay backend are known, some site is a reference site, every site has a
    column, the delay routine succeeds on the signals of the pairs and the options are admissible. *)
Theorem C95_cmv_succeeds :
  forall (K : Type) (HK : Label K) dx dt ms lsq ts (pos : list (K * (R * R))) ref m o bk,
  known_method (lower m) -> known_backend (lower bk) -> some_reference (map fst pos) ref ->
  (forall k, In k (map fst pos) -> dget ts k <> None) ->
  (forall A B, length A = length B -> A <> [] -> (forall s, In s (A ++ B) -> exists k, dget ts k = Some s) -> exists d, routine bk dx dt A B = Ok d) ->
  admissible (lower m) (options_of o) ->
  exists v t w o', compute_cmv dx dt ms lsq ts pos ref m o bk = Ok ((v, t, w), o').
Proof. exact (@cmv_succeeds). Qed.
Print Assumptions C95_cmv_succeeds.

(** C95. The exceptions, in the order in which they take precedence: an unknown method or backend is a ValueError; no
    reference site an IndexError; a site without a column a KeyError; an exception of the delay routine is passed on; and
    only then inadmissible options are a ValueError. *)
Theorem C95_cmv_exceptions :
  forall (K : Type) (HK : Label K) dx dt ms lsq ts (pos : list (K * (R * R))) ref m o bk,
  (~ known_method (lower m) \/ ~ known_backend (lower bk) -> compute_cmv dx dt ms lsq ts pos ref m o bk = Err ValueError) /\
  (known_method (lower m) -> known_backend (lower bk) ->
    (~ some_reference (map fst pos) ref -> compute_cmv dx dt ms lsq ts pos ref m o bk = Err IndexError) /\
    (some_reference (map fst pos) ref -> (exists k, In k (map fst pos) /\ dget ts k = None) -> compute_cmv dx dt ms lsq ts pos ref m o bk = Err KeyError) /\
    (forall A B, some_reference (map fst pos) ref ->
       pair_signals ts (get_pairs (map fst pos) (Some (reference_sites (map fst pos) ref)) true) A B ->
       (forall e, routine bk dx dt A B = Err e -> compute_cmv dx dt ms lsq ts pos ref m o bk = Err e) /\
       (forall d, routine bk dx dt A B = Ok d -> ~ admissible (lower m) (options_of o) -> compute_cmv dx dt ms lsq ts pos ref m o bk = Err ValueError))).
Proof. exact (@cmv_exceptions). Qed.
Print Assumptions C95_cmv_exceptions.

