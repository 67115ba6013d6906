(** Property theorems. cmv.py compute_cmv: references given as a one-shot iterator.
    Proofs are in the X_ file of the same name. *)
From Coq Require Import String.
From Verif Require Import Prelude PreludeFacts RealBase Fl RealStat M_spatial Spec_spatial M_cmv Spec_cmv P_cmv P_plane X_cmv_options X_cmv_pairs X_cmv_qc X_cmv_cascade M_cmv_iter.
Local Open Scope R_scope.
From Verif Require Import X_cmv_iter.

(** C136. A one-shot iterator of distinct references leaves at most one pair: the first site with itself, if it is one of
    them. *)
Theorem C136_iterator_pairs :
  forall (K : Type) (HK : Label K) (a : K) (sites refs : list K), NoDup refs ->
  (In a refs -> get_pairs_iter (a :: sites) refs true = [(a, a)]) /\
  (~ In a refs -> get_pairs_iter (a :: sites) refs true = []).
Proof. exact (@iterator_pairs). Qed.
Print Assumptions C136_iterator_pairs.

(** C136. With or without repetitions: every pair kept is one the same references as a list would keep, and there are at most
    as many as references. *)
Theorem C136_iterator_sound :
  forall (K : Type) (HK : Label K) (sites refs : list K) (rep : bool),
  incl (get_pairs_iter sites refs rep) (get_pairs sites (Some refs) rep) /\
  (length (get_pairs_iter sites refs rep) <= length refs)%nat.
Proof. exact (@iterator_sound). Qed.
Print Assumptions C136_iterator_sound.

(** C136. The pairs kept are an initial stretch of all pairs, and each has a reference as its first site: a reference in
    second place is never noticed. *)
Theorem C136_iterator_prefix :
  forall (K : Type) (HK : Label K) (sites refs : list K) (rep : bool),
  exists rest, get_pairs sites None rep = get_pairs_iter sites refs rep ++ rest /\
    forall p, In p (get_pairs_iter sites refs rep) -> In (fst p) refs.
Proof. exact (@iterator_prefix). Qed.
Print Assumptions C136_iterator_prefix.

(** C136. With such an iterator compute_cmv does exactly what it does on a layout of the first site alone, and whenever it
    returns, it returns speed 0, direction 0, the flag ALLBAD and that one pair. *)
Theorem C136_iterator_motion :
  forall (K : Type) (HK : Label K) dx dt ms lsq ts (a : K) pa (pos : list (K * (R * R))) refs m o bk,
  one_answer_per_pair dx -> one_answer_per_pair dt -> NoDup refs -> In a refs ->
  compute_cmv_iter dx dt ms lsq ts ((a, pa) :: pos) refs m o bk = compute_cmv dx dt ms lsq ts [(a, pa)] RefNone m o bk /\
  forall v t w o', compute_cmv_iter dx dt ms lsq ts ((a, pa) :: pos) refs m o bk = Ok ((v, t, w), o') ->
    v = Fin 0 /\ t = Fin 0 /\ w_flag w = ALLBAD /\ w_allpairs w = [(a, a)] /\ w_fit w = None.
Proof. exact (@iterator_motion). Qed.
Print Assumptions C136_iterator_motion.

(** C136. If the first site is not among the references the call raises IndexError, whatever pairs the others would make. *)
Theorem C136_iterator_no_first :
  forall (K : Type) (HK : Label K) dx dt ms lsq ts (a : K) pa (pos : list (K * (R * R))) refs m o bk,
  NoDup refs -> ~ In a refs -> known_method (lower m) -> (lower bk = "xcorr"%string \/ lower bk = "tf"%string) ->
  compute_cmv_iter dx dt ms lsq ts ((a, pa) :: pos) refs m o bk = Err IndexError.
Proof. exact (@iterator_no_first). Qed.
Print Assumptions C136_iterator_no_first.

(** C136. Refuted: "an iterator of references is as good as the list of them". *)
Theorem C136_iterator_refuted :
  exists (sites refs : list nat), NoDup refs /\
  get_pairs sites (Some refs) true = [(0, 0); (0, 1); (0, 2); (1, 1); (1, 2)]%nat /\ get_pairs_iter sites refs true = [(0, 0)]%nat.
Proof. exact (@iterator_refuted). Qed.
Print Assumptions C136_iterator_refuted.

(** C136. Three sites; the iterator repeats the first one: two pairs are kept, one for each time it is met. *)
Example C136_iterator_example :
  get_pairs_iter [0; 1; 2]%nat [0; 0; 2]%nat true = [(0, 0); (0, 1)]%nat /\
  NoDup [2; 0]%nat /\ In 0%nat [2; 0]%nat /\ ~ In 1%nat [2; 0]%nat.
Proof. exact (@iterator_example). Qed.

