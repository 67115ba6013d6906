(** Property theorems. cmv.py optimum_subset.
    Proofs are in the X_ file of the same name. *)
From Coq Require Import FunctionalExtensionality ClassicalEpsilon.
From Verif Require Import Prelude PreludeFacts RealBase Fl RealStat M_spatial Spec_spatial P_plane M_cmv Spec_field P_field_lsa Spec_cmv.
Local Open Scope R_scope.
From Verif Require Import X_cmv_subset.

(** C23. The call succeeds exactly for n >= 1 and equally many non-zero x and y components. Unequal lengths are a
    ValueError whatever n is, n = 0 is then a division by zero, and everything else is a ValueError. *)
Theorem C23_subset_success :
  forall lsa shgo cmvx cmvy n,
  (optimum_subset lsa shgo cmvx cmvy n = Err ZeroDivisionError <-> n = 0%nat /\ length cmvx = length cmvy) /\
  ((exists idx, optimum_subset lsa shgo cmvx cmvy n = Ok idx) <->
     n <> 0%nat /\ length cmvx = length cmvy /\ Forall (fun v => v <> (0, 0)) (combine cmvx cmvy)) /\
  (forall e, optimum_subset lsa shgo cmvx cmvy n = Err e -> e = ValueError \/ e = ZeroDivisionError).
Proof. exact (@subset_success). Qed.
Print Assumptions C23_subset_success.

(** C23. n distinct valid positions, and for the rotation angle [y] the optimiser settled on, no other choice of n
    distinct CMVs for the n axes is better aligned. The optimiser was asked to minimise minus the best total
    alignment, over rotations of one axis spacing. *)
Theorem C23_subset_optimal :
  forall lsa shgo cmvx cmvy n idx,
  lsa_correct lsa -> (n <= length cmvx)%nat -> optimum_subset lsa shgo cmvx cmvy n = Ok idx ->
  assignment n (length cmvx) idx /\
  exists f y, y = shgo f (PI / INR n) /\
    (forall cols, assignment n (length cmvx) cols ->
       total_alignment (combine cmvx cmvy) n y cols <= total_alignment (combine cmvx cmvy) n y idx) /\
    (forall a, (exists cols, assignment n (length cmvx) cols /\ f a = - total_alignment (combine cmvx cmvy) n a cols) /\
               forall cols, assignment n (length cmvx) cols -> f a <= - total_alignment (combine cmvx cmvy) n a cols).
Proof. exact (@subset_optimal). Qed.
Print Assumptions C23_subset_optimal.

(** C23. If the optimiser finds a minimum over its search interval whenever there is one, the returned set is the best aligned
    with n evenly spaced axes over every rotation of the axes and every choice of n distinct CMVs. *)
Theorem C23_subset_global :
  forall lsa shgo cmvx cmvy n idx,
  lsa_correct lsa -> (n <= length cmvx)%nat ->
  (forall f b, (exists y, 0 <= y <= b /\ forall x, 0 <= x <= b -> f y <= f x) ->
     0 <= shgo f b <= b /\ forall x, 0 <= x <= b -> f (shgo f b) <= f x) ->
  optimum_subset lsa shgo cmvx cmvy n = Ok idx ->
  exists y, forall a cols, assignment n (length cmvx) cols ->
    total_alignment (combine cmvx cmvy) n a cols <= total_alignment (combine cmvx cmvy) n y idx.
Proof. exact (@subset_global). Qed.
Print Assumptions C23_subset_global.

(** C23. Reversing or rescaling any of the CMVs changes nothing. *)
Theorem C23_subset_scale_invariant :
  forall lsa shgo cmvx cmvy ks n,
  length ks = length cmvx -> length ks = length cmvy -> Forall (fun k => k <> 0) ks ->
  optimum_subset lsa shgo (map2 Rmult ks cmvx) (map2 Rmult ks cmvy) n = optimum_subset lsa shgo cmvx cmvy n.
Proof. exact (@subset_scale_invariant). Qed.
Print Assumptions C23_subset_scale_invariant.

Example C23_subset_example :
  exists lsa shgo, lsa_correct lsa /\
  (forall f b, (exists y, 0 <= y <= b /\ forall x, 0 <= x <= b -> f y <= f x) ->
     0 <= shgo f b <= b /\ forall x, 0 <= x <= b -> f (shgo f b) <= f x) /\
  exists idx, (2 <= length [1; 0; -3]%R)%nat /\ optimum_subset lsa shgo [1; 0; -3] [1; 2; -3.5] 2 = Ok idx.
Proof. exact (@subset_example). Qed.

