(** Property theorems. cmv.py _get_pairs and the pair list of compute_cmv.
    Proofs are in the X_ file of the same name. *)
From Coq Require Import String Permutation Sorted.
From Verif Require Import Prelude PreludeFacts RealBase Fl RealStat M_spatial M_cmv Spec_spatial Spec_cmv P_cmv.
Local Open Scope nat_scope.
From Verif Require Import X_cmv_pairs.

(** C14. Members: with replacement the positions satisfy i <= j, without i < j; with references, only pairs having one. *)
Theorem C14_pairs_members :
  forall (K : Type) (HK : Label K) (sites : list K) (refs : option (list K)) (rep : bool) (p : K * K),
  In p (get_pairs sites refs rep) <->
  has_reference refs p /\ exists i j, joins sites p i j /\ (if rep then i <= j else i < j).
Proof. exact (@pairs_members). Qed.
Print Assumptions C14_pairs_members.

(** C14. Listed once each and in list order. *)
Theorem C14_pairs_ordered :
  forall (K : Type) (HK : Label K) (sites : list K) (refs : option (list K)) (rep : bool),
  NoDup sites ->
  NoDup (get_pairs sites refs rep) /\ StronglySorted (listed_before sites) (get_pairs sites refs rep).
Proof. exact (@pairs_ordered). Qed.
Print Assumptions C14_pairs_ordered.

(** C14. Counts: n(n+1)/2 pairs with replacement, n(n-1)/2 without. *)
Theorem C14_pairs_count :
  forall (K : Type) (HK : Label K) (sites : list K),
  2 * length (get_pairs sites None true) = length sites * (length sites + 1) /\
  2 * length (get_pairs sites None false) = length sites * (length sites - 1).
Proof. exact (@pairs_count). Qed.
Print Assumptions C14_pairs_count.

(** C14. compute_cmv reports exactly the unordered pairs (identity pairs included) of its sites that contain a reference site, once each and in list order. *)
Theorem C14_cmv_pairs :
  forall (K : Type) (HK : Label K) dx dt ms lsq ts (pos : list (K * (R * R))) ref m o bk v t w o',
  NoDup (map fst pos) ->
  compute_cmv dx dt ms lsq ts pos ref m o bk = Ok ((v, t, w), o') ->
  (forall p, In p (w_allpairs w) <->
     (exists i j, i <= j /\ joins (map fst pos) p i j) /\
     (In (fst p) (reference_sites (map fst pos) ref) \/ In (snd p) (reference_sites (map fst pos) ref))) /\
  NoDup (w_allpairs w) /\ StronglySorted (listed_before (map fst pos)) (w_allpairs w).
Proof. exact (@cmv_pairs). Qed.
Print Assumptions C14_cmv_pairs.

(** C14. With no reference argument all n(n+1)/2 pairs are analysed. *)
Theorem C14_cmv_pair_count :
  forall (K : Type) (HK : Label K) dx dt ms lsq ts (pos : list (K * (R * R))) m o bk v t w o',
  compute_cmv dx dt ms lsq ts pos RefNone m o bk = Ok ((v, t, w), o') ->
  2 * length (w_allpairs w) = length pos * (length pos + 1).
Proof. exact (@cmv_pair_count). Qed.
Print Assumptions C14_cmv_pair_count.

Example C14_pairs_example :
  NoDup ["a"; "b"; "c"]%string /\
  get_pairs ["a"; "b"; "c"]%string (Some ["b"]%string) true = [("a", "b"); ("b", "b"); ("b", "c")]%string /\
  get_pairs ["a"; "b"; "c"]%string None false = [("a", "b"); ("a", "c"); ("b", "c")]%string.
Proof. exact (@pairs_example). Qed.

