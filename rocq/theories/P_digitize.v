(** Lemmas on rings of corners (M_digitize). *)
From Coq Require Import String Lra Psatz Permutation.
From Verif Require Import Prelude PreludeFacts RealBase P_list Spec_spatial Spec_digitize M_digitize.
Local Open Scope R_scope.

Lemma next_length {A} (l : list A) : length (next l) = length l.
Proof. destruct l; cbn; [reflexivity|]. rewrite app_length. cbn. lia. Qed.
Lemma next_perm {A} (l : list A) : Permutation (next l) l.
Proof. destruct l; cbn; [constructor|]. symmetry. apply Permutation_cons_append. Qed.
Lemma sides_length {A} (l : list A) : length (sides l) = length l.
Proof. unfold sides. rewrite combine_length, next_length. lia. Qed.
Lemma map_fst_combine {A B} (l : list A) (l' : list B) : length l = length l' -> map fst (combine l l') = l.
Proof. revert l'. induction l as [|a l IH]; intros [|b l'] E; cbn in *; try discriminate; [reflexivity|]. f_equal. apply IH. lia. Qed.
Lemma map_snd_combine {A B} (l : list A) (l' : list B) : length l = length l' -> map snd (combine l l') = l'.
Proof. revert l'. induction l as [|a l IH]; intros [|b l'] E; cbn in *; try discriminate; [reflexivity|]. f_equal. apply IH. lia. Qed.
Lemma round_trip {A} (ring : list A) (g : A -> R) : Rsum (map (fun s => g (snd s) - g (fst s)) (sides ring)) = 0.
Proof.
  rewrite Rsum_map_minus. rewrite <- (map_map snd g), <- (map_map fst g). unfold sides.
  rewrite map_fst_combine, map_snd_combine by now rewrite next_length. rewrite (Rsum_map_perm g _ _ (next_perm ring)). ring.
Qed.
Lemma telescope {A} (ring : list A) (f h : A * A -> R) (g : A -> R) : (forall p q, f (p, q) = h (p, q) + (g q - g p)) ->
  Rsum (map f (sides ring)) = Rsum (map h (sides ring)).
Proof.
  intro E. rewrite (map_ext f (fun s => h s + (g (snd s) - g (fst s)))) by (intros [p q]; apply E).
  rewrite Rsum_map_plus, round_trip. ring.
Qed.
Lemma sides_nth ring i p q : side_of ring i p q <-> nth_error (sides ring) i = Some (p, q).
Proof.
  unfold side_of, sides. destruct ring as [|a r]; [split; [intros [F _]; destruct i; discriminate|destruct i; discriminate]|].
  assert (N : forall j, nth_error (next (a :: r)) j = (if Nat.ltb j (length (a :: r)) then nth_error (a :: r) (if Nat.eqb (S j) (length (a :: r)) then 0 else S j)%nat else None)).
  { intro j. cbn [next length]. destruct (Nat.ltb_spec j (S (length r))) as [L|L].
    - destruct (Nat.eqb_spec (S j) (S (length r))) as [E|E].
      + injection E as ->. rewrite nth_error_app2 by lia. now rewrite Nat.sub_diag.
      + rewrite nth_error_app1 by lia. reflexivity.
    - apply nth_error_None. rewrite app_length. cbn. lia. }
  split.
  - intros [H1 H2]. assert (L : (i < length (a :: r))%nat) by (apply nth_error_Some; congruence).
    assert (H3 : nth_error (next (a :: r)) i = Some q) by (rewrite N; apply Nat.ltb_lt in L; now rewrite L).
    clear N H2. revert i H1 H3 L. generalize (next (a :: r)). generalize (a :: r). intros l. induction l as [|x l IH]; intros [|y l'] [|i] H1 H3 L; try discriminate; cbn in *.
    + injection H1 as ->. injection H3 as ->. reflexivity.
    + apply IH; auto. lia.
  - intro H. assert (H1 : nth_error (map fst (combine (a :: r) (next (a :: r)))) i = Some p) by (rewrite nth_error_map, H; reflexivity).
    assert (H2 : nth_error (map snd (combine (a :: r) (next (a :: r)))) i = Some q) by (rewrite nth_error_map, H; reflexivity).
    rewrite map_fst_combine in H1 by now rewrite next_length. rewrite map_snd_combine in H2 by now rewrite next_length.
    split; [exact H1|]. rewrite N in H2. destruct (Nat.ltb _ _); [exact H2|discriminate].
Qed.
Lemma over_sides_eq ring f total : over_sides ring f total <-> total = Rsum (map (fun s => f (fst s) (snd s)) (sides ring)).
Proof.
  split.
  - intros (vals & L & H & ->). f_equal. apply nth_error_ext. intro i. rewrite nth_error_map.
    destruct (nth_error (sides ring) i) as [[p q]|] eqn:E; cbn.
    + apply sides_nth in E. apply H in E. exact E.
    + apply nth_error_None in E. apply nth_error_None. rewrite sides_length in E. lia.
  - intros ->. exists (map (fun s => f (fst s) (snd s)) (sides ring)). split; [now rewrite map_length, sides_length|]. split; [|reflexivity].
    intros i p q E. apply sides_nth in E. now rewrite nth_error_map, E.
Qed.

Lemma cross_from o ring : Rsum (map (fun s => tri_area o (fst s) (snd s)) (sides ring)) = fst (fst (raw_sums ring)) / 2.
Proof.
  unfold raw_sums. cbn [fst]. rewrite (telescope ring _ (fun s => / 2 * side_cross s) (fun p => / 2 * (snd o * fst p - fst o * snd p))).
  - rewrite Rsum_map_scal. field.
  - intros p q. unfold tri_area, cross, sub2, side_cross. cbn [fst snd]. field.
Qed.
Lemma moment_x o ring : Rsum (map (fun s => tri_area o (fst s) (snd s) * fst (tri_mid o (fst s) (snd s))) (sides ring)) = snd (fst (raw_sums ring)) / 6.
Proof.
  unfold raw_sums. cbn [fst snd]. rewrite (telescope ring _ (fun s => / 6 * ((fst (fst s) + fst (snd s)) * side_cross s))
     (fun p => / 6 * (- fst o * fst o * snd p + fst o * snd o * fst p - fst o * (fst p * snd p) + snd o * (fst p * fst p)))).
  - rewrite Rsum_map_scal. field.
  - intros p q. unfold tri_area, tri_mid, cross, sub2, add2, scale2, side_cross. cbn [fst snd]. field.
Qed.
Lemma moment_y o ring : Rsum (map (fun s => tri_area o (fst s) (snd s) * snd (tri_mid o (fst s) (snd s))) (sides ring)) = snd (raw_sums ring) / 6.
Proof.
  unfold raw_sums. cbn [fst snd]. rewrite (telescope ring _ (fun s => / 6 * ((snd (fst s) + snd (snd s)) * side_cross s))
     (fun p => / 6 * (snd o * snd o * fst p - fst o * snd o * snd p + snd o * (fst p * snd p) - fst o * (snd p * snd p)))).
  - rewrite Rsum_map_scal. field.
  - intros p q. unfold tri_area, tri_mid, cross, sub2, add2, scale2, side_cross. cbn [fst snd]. field.
Qed.

(** The triangle decomposition determines the sums. *)
Lemma triangles_sums o ring area c : made_of_triangles o ring area c <->
  area = fst (fst (raw_sums ring)) / 2 /\ area * fst c = snd (fst (raw_sums ring)) / 6 /\ area * snd c = snd (raw_sums ring) / 6.
Proof. unfold made_of_triangles. rewrite !over_sides_eq, cross_from, moment_x, moment_y. reflexivity. Qed.

(** Affine images *)
Lemma sides_map {A B} (f : A -> B) ring : sides (map f ring) = map (fun s => (f (fst s), f (snd s))) (sides ring).
Proof.
  unfold sides. assert (E : next (map f ring) = map f (next ring)) by (destruct ring; cbn; [reflexivity|]; now rewrite map_app).
  rewrite E. clear E. generalize (next ring). induction ring as [|x l IH]; intros [|y l']; cbn; try reflexivity. now rewrite IH.
Qed.
Lemma raw_affine a b c d t ring : let '(A, mx, my) := raw_sums ring in let D := a * d - b * c in
  raw_sums (map (affine a b c d t) ring) = (D * A, D * (a * mx + b * my + 3 * fst t * A), D * (c * mx + d * my + 3 * snd t * A)).
Proof.
  unfold raw_sums. rewrite sides_map, !map_map. cbv zeta. set (D := a * d - b * c).
  set (ux := fun p : R * R => a * fst p + b * snd p). set (uy := fun p : R * R => c * fst p + d * snd p).
  apply injective_projections; [apply injective_projections|]; cbn [fst snd].
  - rewrite (telescope ring _ (fun s => D * side_cross s) (fun p => fst t * uy p - snd t * ux p)); [now rewrite Rsum_map_scal|].
    intros p q. unfold affine, side_cross, D, ux, uy. cbn [fst snd]. ring.
  - rewrite (telescope ring _ (fun s => D * a * ((fst (fst s) + fst (snd s)) * side_cross s) + D * b * ((snd (fst s) + snd (snd s)) * side_cross s) + 3 * D * fst t * side_cross s)
      (fun p => fst t * (ux p * uy p) - snd t * (ux p * ux p) + 2 * fst t * fst t * uy p - 2 * fst t * snd t * ux p)).
    + rewrite !Rsum_map_plus, !Rsum_map_scal. ring.
    + intros p q. unfold affine, side_cross, D, ux, uy. cbn [fst snd]. ring.
  - rewrite (telescope ring _ (fun s => D * c * ((fst (fst s) + fst (snd s)) * side_cross s) + D * d * ((snd (fst s) + snd (snd s)) * side_cross s) + 3 * D * snd t * side_cross s)
      (fun p => - snd t * (ux p * uy p) + fst t * (uy p * uy p) - 2 * snd t * snd t * ux p + 2 * fst t * snd t * uy p)).
    + rewrite !Rsum_map_plus, !Rsum_map_scal. ring.
    + intros p q. unfold affine, side_cross, D, ux, uy. cbn [fst snd]. ring.
Qed.

(** Another first corner *)
Lemma sides_cons {A} (a : A) l : sides (a :: l) = combine (a :: l) (l ++ [a]).
Proof. reflexivity. Qed.
Lemma combine_app {A B} (l1 l2 : list A) (m1 m2 : list B) : length l1 = length m1 -> combine (l1 ++ l2) (m1 ++ m2) = combine l1 m1 ++ combine l2 m2.
Proof. revert m1. induction l1 as [|a l1 IH]; intros [|b m1] E; cbn in *; try discriminate; [reflexivity|]. f_equal. apply IH. lia. Qed.
Lemma sides_turn1 {A} (a : A) l : Permutation (sides (l ++ [a])) (sides (a :: l)).
Proof.
  destruct l as [|b l]; [reflexivity|]. rewrite <- app_comm_cons. rewrite !sides_cons.
  change (combine (a :: b :: l) ((b :: l) ++ [a])) with ((a, b) :: combine (b :: l) (l ++ [a])).
  rewrite app_comm_cons, combine_app by (rewrite app_length; cbn; lia). cbn [combine]. symmetry. apply Permutation_cons_append.
Qed.
Lemma sides_turn {A} k (ring : list A) : (k <= length ring)%nat -> Permutation (sides (skipn k ring ++ firstn k ring)) (sides ring).
Proof.
  induction k as [|k IH]; intro L; [cbn; now rewrite app_nil_r|]. rewrite <- IH by lia.
  destruct (skipn k ring) as [|a r] eqn:E.
  - apply (f_equal (@length _)) in E. rewrite skipn_length in E. cbn in E. lia.
  - assert (E1 : skipn (S k) ring = r).
    { replace (skipn (S k) ring) with (tl (skipn k ring)); [now rewrite E|]. clear. revert ring. induction k as [|k IH]; intros [|x l]; try reflexivity. cbn [skipn]. apply IH. }
    assert (E2 : firstn (S k) ring = firstn k ring ++ [a]).
    { rewrite <- (firstn_skipn k ring) at 1. rewrite E. rewrite firstn_app, firstn_length, Nat.min_l by lia.
      rewrite (firstn_all2 (firstn k ring)) by (rewrite firstn_length; lia). replace (S k - k)%nat with 1%nat by lia. reflexivity. }
    rewrite E1, E2, app_assoc. apply sides_turn1.
Qed.
Lemma raw_perm r r' : Permutation (sides r) (sides r') -> raw_sums r = raw_sums r'.
Proof. intro P. unfold raw_sums. rewrite !(Rsum_map_perm _ _ _ P). reflexivity. Qed.

(** The other way round *)
Lemma combine_rev {A B} (l : list A) (m : list B) : length l = length m -> combine (rev l) (rev m) = rev (combine l m).
Proof.
  revert m. induction l as [|a l IH]; intros [|b m] E; cbn in *; try discriminate; [reflexivity|].
  rewrite combine_app by (rewrite !rev_length; lia). cbn. rewrite IH by lia. reflexivity.
Qed.
Lemma combine_swap {A B} (l : list A) (m : list B) : combine m l = map (fun s => (snd s, fst s)) (combine l m).
Proof. revert m. induction l as [|a l IH]; intros [|b m]; cbn; try reflexivity. now rewrite IH. Qed.
Lemma sides_rev {A} (ring : list A) : Permutation (sides (rev ring)) (map (fun s => (snd s, fst s)) (sides ring)).
Proof.
  destruct ring as [|a r]; [constructor|]. cbn [rev]. rewrite (sides_turn1 a (rev r)).
  rewrite sides_cons, sides_cons. rewrite <- combine_swap.
  replace (combine (a :: rev r) (rev r ++ [a])) with (combine (rev (r ++ [a])) (rev (a :: r))) by (rewrite rev_app_distr; reflexivity).
  rewrite combine_rev by (rewrite app_length; cbn; lia). symmetry. apply Permutation_rev.
Qed.
Lemma raw_rev ring : let '(a, mx, my) := raw_sums ring in raw_sums (rev ring) = (- a, - mx, - my).
Proof.
  unfold raw_sums. rewrite !(Rsum_map_perm _ _ _ (sides_rev ring)). rewrite !map_map.
  assert (N : forall f g : (R * R) * (R * R) -> R, (forall p q, f (p, q) = - g (p, q)) -> Rsum (map f (sides ring)) = - Rsum (map g (sides ring))).
  { intros f g E. rewrite (map_ext f (fun s => -1 * g s)) by (intros [p q]; rewrite E; ring). rewrite Rsum_map_scal. ring. }
  apply injective_projections; [apply injective_projections|]; cbn [fst snd]; apply N; intros p q; unfold side_cross; cbn [fst snd]; ring.
Qed.
