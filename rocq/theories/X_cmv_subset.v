(** cmv.py optimum_subset. *)
From Coq Require Import FunctionalExtensionality ClassicalEpsilon.
From Verif Require Import Prelude PreludeFacts RealBase Fl RealStat M_spatial Spec_spatial P_plane M_cmv Spec_field P_field_lsa Spec_cmv.
Local Open Scope R_scope.

Definition units (cmvs : list (R * R)) : list (R * R) := map (fun v => (fst v / magnitude v, snd v / magnitude v)) cmvs.

Lemma combine_seq {A} (l : list A) d s : combine (seq s (length l)) l = map (fun k => ((s + k)%nat, nth k l d)) (seq 0 (length l)).
Proof.
  revert s. induction l as [|a l IH]; intro s; cbn; auto. rewrite Nat.add_0_r. f_equal.
  rewrite IH, <- seq_shift, map_map. apply map_ext. intro k. f_equal. lia.
Qed.

Lemma nth_map_lt {A B} (f : A -> B) l d d' k : (k < length l)%nat -> nth k (map f l) d = f (nth k l d').
Proof. intro L. rewrite (nth_indep _ d (f d')) by (now rewrite map_length). apply map_nth. Qed.

Lemma unit_alignment v a : v <> (0, 0) -> Rabs (dot (fst v / magnitude v, snd v / magnitude v) (cos a, sin a)) = alignment v a.
Proof.
  intro N. unfold alignment. rewrite magnitude_len. assert (0 < len v) by (now apply len_pos).
  unfold dot, inner. cbn [fst snd].
  replace (fst v / len v * cos a + snd v / len v * sin a) with ((fst v * cos a + snd v * sin a) / len v) by (field; lra).
  unfold Rdiv. rewrite Rabs_mult. f_equal. apply Rabs_pos_eq. left. now apply Rinv_0_lt_compat.
Qed.

Lemma Rsum_opp {A} (f : A -> R) l : Rsum (map (fun x => - f x) l) = - Rsum (map f l).
Proof. unfold Rsum. induction l; cbn in *; lra. Qed.

Lemma cost_alignment n cmvs a cols : Forall (fun v => v <> (0, 0)) cmvs -> assignment n (length cmvs) cols ->
  assign_cost (subset_cost n (units cmvs) a) cols = - total_alignment cmvs n a cols.
Proof.
  intros NZ (L & _ & B). unfold assign_cost, total_alignment. rewrite (combine_seq cols 0%nat 0), L, map_map.
  rewrite <- Rsum_opp. f_equal. apply map_ext_in. intros k Hk. apply in_seq in Hk. cbn [fst snd Nat.add].
  assert (C : (nth k cols 0 < length cmvs)%nat) by (rewrite Forall_forall in B; apply B, nth_In; lia).
  unfold subset_cost, ideal_vecs. rewrite map_map.
  rewrite (nth_map_lt _ _ _ 0%nat) by (rewrite seq_length; lia). rewrite seq_nth by lia. cbn [Nat.add].
  unfold units. rewrite map_map. rewrite (nth_map_lt _ _ _ (0, 0)) by exact C. f_equal.
  rewrite unit_alignment.
  - f_equal. unfold Rdiv. ring.
  - rewrite Forall_forall in NZ. apply NZ, nth_In, C.
Qed.

Lemma subset_cost_shape n u a : length (subset_cost n u a) = n /\ Forall (fun row => length row = length u) (subset_cost n u a).
Proof.
  unfold subset_cost, ideal_vecs. rewrite map_length, map_length, seq_length. split; auto.
  apply Forall_forall. intros row Hr. apply in_map_iff in Hr. destruct Hr as (w & <- & _). apply map_length.
Qed.

Definition objective lsa n cmvs a : R := fst (calc_cost lsa n (units cmvs) a).

Lemma calc_cost_optimal lsa n cmvs a : lsa_correct lsa -> Forall (fun v => v <> (0, 0)) cmvs -> (n <= length cmvs)%nat ->
  assignment n (length cmvs) (snd (calc_cost lsa n (units cmvs) a)) /\
  objective lsa n cmvs a = - total_alignment cmvs n a (snd (calc_cost lsa n (units cmvs) a)) /\
  forall cols, assignment n (length cmvs) cols ->
    total_alignment cmvs n a cols <= total_alignment cmvs n a (snd (calc_cost lsa n (units cmvs) a)).
Proof.
  intros C NZ Ln. unfold objective, calc_cost. cbv zeta.
  destruct (subset_cost_shape n (units cmvs) a) as [S1 S2].
  assert (LU : length (units cmvs) = length cmvs) by (unfold units; apply map_length). rewrite LU in *.
  destruct (C (length cmvs) (subset_cost n (units cmvs) a)) as (E & A & O); [lia|exact S2|].
  destruct (lsa (length cmvs) (subset_cost n (units cmvs) a)) as [r c]. cbn [fst snd] in *. rewrite S1 in *. subst r.
  split; [exact A|]. split.
  - rewrite <- cost_alignment by assumption. unfold assign_cost. destruct A as (-> & _). reflexivity.
  - intros cols Hc. specialize (O cols Hc). rewrite !cost_alignment in O by assumption. lra.
Qed.

Lemma mag_zero v : magnitude v = 0 <-> v = (0, 0).
Proof.
  rewrite magnitude_len. apply len_zero.
Qed.

Lemma existsb_zero cmvs : existsb (fun v => Reqb (magnitude v) 0) cmvs = false <-> Forall (fun v => v <> (0, 0)) cmvs.
Proof.
  rewrite Forall_forall. split.
  - intros E v Hv Z. assert (existsb (fun v => Reqb (magnitude v) 0) cmvs = true); [|congruence].
    apply existsb_exists. exists v. split; auto. apply Reqb_true. now apply mag_zero.
  - intro N. destruct (existsb _ cmvs) eqn:E; auto. apply existsb_exists in E. destruct E as (v & Hv & Z).
    exfalso. apply (N v Hv). apply mag_zero. destruct (Req_dec (magnitude v) 0) as [|D]; auto. rewrite Reqb_false in Z by auto. discriminate.
Qed.

(*@ C23 The call succeeds exactly for n >= 1 and equally many non-zero x and y components. Unequal lengths are a
    ValueError whatever n is, n = 0 is then a division by zero, and everything else is a ValueError. *)
Lemma subset_success : forall lsa shgo cmvx cmvy n,
  (optimum_subset lsa shgo cmvx cmvy n = Err ZeroDivisionError <-> n = 0%nat /\ length cmvx = length cmvy) /\
  ((exists idx, optimum_subset lsa shgo cmvx cmvy n = Ok idx) <->
     n <> 0%nat /\ length cmvx = length cmvy /\ Forall (fun v => v <> (0, 0)) (combine cmvx cmvy)) /\
  (forall e, optimum_subset lsa shgo cmvx cmvy n = Err e -> e = ValueError \/ e = ZeroDivisionError).
Proof.
  intros lsa shgo cmvx cmvy n. unfold optimum_subset. cbv zeta.
  destruct (Nat.eqb_spec (length cmvx) (length cmvy)) as [L|L]; cbn [negb].
  2: { split; [split; [discriminate|intros (_ & F); contradiction]|].
       split; [split; [intros (i & E); discriminate|intros (_ & F & _); contradiction]|intros e [= <-]; auto]. }
  destruct (Nat.eqb_spec n 0) as [->|Nz].
  { split; [split; auto|]. split; [split; [intros (i & E); discriminate|intros (F & _); now elim F]|intros e [= <-]; auto]. }
  destruct (existsb _ _) eqn:E.
  - split; [split; [discriminate|intros (F & _); contradiction]|].
    split; [|intros e [= <-]; auto]. split; [intros (i & F); discriminate|]. intros (_ & _ & F). apply existsb_zero in F. congruence.
  - split; [split; [discriminate|intros (F & _); contradiction]|].
    split; [|intros e F; discriminate]. split; [|eauto]. intros _. apply existsb_zero in E. auto.
Qed.

Lemma subset_inv lsa shgo cmvx cmvy n idx : optimum_subset lsa shgo cmvx cmvy n = Ok idx ->
  n <> 0%nat /\ length cmvx = length cmvy /\ Forall (fun v => v <> (0, 0)) (combine cmvx cmvy) /\
  idx = snd (calc_cost lsa n (units (combine cmvx cmvy)) (shgo (objective lsa n (combine cmvx cmvy)) (PI / INR n))).
Proof.
  unfold optimum_subset. cbv zeta. destruct (Nat.eqb_spec (length cmvx) (length cmvy)) as [L|L]; cbn [negb]; [|discriminate].
  destruct (Nat.eqb_spec n 0) as [->|Nz]; [discriminate|].
  destruct (existsb _ _) eqn:E; [discriminate|]. apply existsb_zero in E.
  intro H. split; auto. split; auto. split; auto. unfold objective, units. congruence.
Qed.

(*@ C23 n distinct valid positions, and for the rotation angle [y] the optimiser settled on, no other choice of n
    distinct CMVs for the n axes is better aligned. The optimiser was asked to minimise minus the best total
    alignment, over rotations of one axis spacing. *)
Lemma subset_optimal : forall lsa shgo cmvx cmvy n idx,
  lsa_correct lsa -> (n <= length cmvx)%nat -> optimum_subset lsa shgo cmvx cmvy n = Ok idx ->
  assignment n (length cmvx) idx /\
  exists f y, y = shgo f (PI / INR n) /\
    (forall cols, assignment n (length cmvx) cols ->
       total_alignment (combine cmvx cmvy) n y cols <= total_alignment (combine cmvx cmvy) n y idx) /\
    (forall a, (exists cols, assignment n (length cmvx) cols /\ f a = - total_alignment (combine cmvx cmvy) n a cols) /\
               forall cols, assignment n (length cmvx) cols -> f a <= - total_alignment (combine cmvx cmvy) n a cols).
Proof.
  intros lsa shgo cmvx cmvy n idx C Ln E. apply subset_inv in E. destruct E as (Nz & L & NZ & ->).
  assert (LC : length (combine cmvx cmvy) = length cmvx) by (rewrite combine_length; lia).
  set (cmvs := combine cmvx cmvy) in *. rewrite <- LC in *.
  split; [now apply calc_cost_optimal|].
  exists (objective lsa n cmvs), (shgo (objective lsa n cmvs) (PI / INR n)). split; [reflexivity|]. split.
  - now apply calc_cost_optimal.
  - intro a. destruct (calc_cost_optimal lsa n cmvs a C NZ Ln) as (A & O & M). split; [eauto|].
    intros cols Hc. specialize (M cols Hc). lra.
Qed.

Lemma alignment_pi v a : alignment v (a + PI) = alignment v a.
Proof.
  unfold alignment, inner. cbn [fst snd]. rewrite neg_cos, neg_sin. f_equal.
  rewrite <- (Rabs_Ropp (fst v * cos a + snd v * sin a)). f_equal. ring.
Qed.

Lemma Rsum_cons1 x l : Rsum (x :: l) = x + Rsum l.
Proof. reflexivity. Qed.

Lemma Rsum_app l l' : Rsum (l ++ l') = Rsum l + Rsum l'.
Proof. unfold Rsum. induction l; cbn in *; lra. Qed.

(* Turning all axes by one spacing only relabels them. *)
Lemma turn cmvs n a c cols : length cols = n ->
  total_alignment cmvs (S n) (a + PI / INR (S n)) (cols ++ [c]) = total_alignment cmvs (S n) a (c :: cols).
Proof.
  intro L. unfold total_alignment. rewrite (seq_S n 0) at 1. rewrite map_app, Rsum_app. cbn [map Nat.add].
  cbn [seq map nth]. rewrite Rsum_cons1, (Rsum_cons1 _ (map _ _)). rewrite app_nth2 by lia. rewrite L, Nat.sub_diag. cbn [nth].
  assert (P : INR (S n) <> 0) by (apply not_0_INR; lia).
  replace (INR n * (PI / INR (S n)) + (a + PI / INR (S n))) with (INR 0 * (PI / INR (S n)) + a + PI)
    by (rewrite S_INR in *; cbn [INR]; field; auto).
  rewrite alignment_pi. replace (Rsum []) with 0 by reflexivity. rewrite Rplus_0_r, Rplus_comm. f_equal.
  rewrite <- seq_shift, map_map. f_equal. apply map_ext_in. intros k Hk. apply in_seq in Hk.
  rewrite app_nth1 by lia. f_equal. rewrite (S_INR k). ring.
Qed.

Lemma assignment_rotate n m c cols : assignment (S n) m (c :: cols) <-> assignment (S n) m (cols ++ [c]).
Proof.
  unfold assignment. rewrite app_length. cbn [length]. rewrite Forall_app.
  assert (P : Permutation.Permutation (c :: cols) (cols ++ [c])) by (apply Permutation.Permutation_cons_append).
  split; intros (A & B & D); (split; [lia|]).
  - split; [eapply Permutation.Permutation_NoDup; eauto|]. inversion D. auto.
  - split; [eapply Permutation.Permutation_NoDup; [apply Permutation.Permutation_sym|]; eauto|]. destruct D as [D1 D2]. inversion D2. auto.
Qed.

Definition best (cmvs : list (R * R)) n a m : Prop :=
  forall cols, assignment n (length cmvs) cols -> total_alignment cmvs n a cols <= m.

Lemma best_turn cmvs n a m : n <> 0%nat -> best cmvs n (a + PI / INR n) m <-> best cmvs n a m.
Proof.
  intro N. destruct n as [|n]; [contradiction|]. split; intros B cols Hc.
  - destruct cols as [|c cols]; [destruct Hc as [L _]; discriminate|].
    rewrite <- turn by (destruct Hc as [L _]; cbn in L; lia). apply B. now apply assignment_rotate.
  - destruct (exists_last (l := cols)) as (l & c & ->); [intros ->; destruct Hc as [L _]; discriminate|].
    rewrite turn by (destruct Hc as [L _]; rewrite app_length in L; cbn in L; lia). apply B. now apply assignment_rotate.
Qed.

Lemma best_turns cmvs n a m k : n <> 0%nat -> best cmvs n a m -> best cmvs n (a + INR k * (PI / INR n)) m.
Proof.
  intros N B. induction k as [|k IH]; [cbn; now replace (a + 0 * (PI / INR n)) with a by ring|].
  rewrite S_INR. replace (a + (INR k + 1) * (PI / INR n)) with (a + INR k * (PI / INR n) + PI / INR n) by ring. now apply best_turn.
Qed.
Lemma best_turns_back cmvs n a m k : n <> 0%nat -> best cmvs n a m -> best cmvs n (a - INR k * (PI / INR n)) m.
Proof.
  intros N B. induction k as [|k IH]; [cbn; now replace (a - 0 * (PI / INR n)) with a by ring|].
  apply best_turn; auto. rewrite S_INR. now replace (a - (INR k + 1) * (PI / INR n) + PI / INR n) with (a - INR k * (PI / INR n)) by ring.
Qed.

(* The maximum over rotations and choices exists. *)
Lemma alignment_continuous v b : continuity (fun a => alignment v (b + a)).
Proof.
  unfold alignment, inner. cbn [fst snd].
  assert (H : continuity (fun a => fst v * cos (b + a) + snd v * sin (b + a))).
  { apply (continuity_plus (fun a => fst v * cos (b + a)) (fun a => snd v * sin (b + a))).
    - apply (continuity_scal (fun a => cos (b + a))). apply (continuity_comp (fun a => b + a) cos); [|apply continuity_cos].
      apply (continuity_plus (fun _ => b) (fun a => a)); [apply continuity_const; intros ? ?; reflexivity|apply derivable_continuous, derivable_id].
    - apply (continuity_scal (fun a => sin (b + a))). apply (continuity_comp (fun a => b + a) sin); [|apply continuity_sin].
      apply (continuity_plus (fun _ => b) (fun a => a)); [apply continuity_const; intros ? ?; reflexivity|apply derivable_continuous, derivable_id]. }
  intro x. unfold Rdiv.
  apply (continuity_pt_mult (fun a => Rabs (fst v * cos (b + a) + snd v * sin (b + a))) (fun _ => / len v)).
  - apply (continuity_comp _ Rabs H Rcontinuity_abs).
  - apply continuity_const. intros ? ?; reflexivity.
Qed.

Lemma total_continuous cmvs n cols : continuity (fun a => total_alignment cmvs n a cols).
Proof.
  unfold total_alignment. induction (seq 0 n) as [|k l IH].
  - unfold Rsum. cbn. apply continuity_const. intros ? ?; reflexivity.
  - cbn [map]. unfold Rsum in *. cbn [fold_right] in *. apply (continuity_plus _ _ (alignment_continuous _ _) IH).
Qed.

Fixpoint lists_below (n m : nat) : list (list nat) :=
  match n with O => [[]] | S n' => flat_map (fun c => map (cons c) (lists_below n' m)) (seq 0 m) end.
Lemma lists_below_spec n m cols : length cols = n -> Forall (fun c => (c < m)%nat) cols -> In cols (lists_below n m).
Proof.
  revert cols. induction n as [|n IH]; intros [|c cols] L F; try discriminate; cbn; auto.
  inversion F; subst. apply in_flat_map. exists c. split; [apply in_seq; lia|]. apply in_map. apply IH; auto.
Qed.

Lemma max_finite cmvs n s (P : list nat -> Prop) L : 0 <= s -> (exists c, In c L /\ P c) ->
  exists a c, 0 <= a <= s /\ P c /\ forall a' c', 0 <= a' <= s -> In c' L -> P c' -> total_alignment cmvs n a' c' <= total_alignment cmvs n a c.
Proof.
  intros Hs. induction L as [|c0 L IH]; intros (c & Hc & Pc); [destruct Hc|].
  destruct (continuity_ab_maj (fun a => total_alignment cmvs n a c0) 0 s Hs) as (m & M & Hm).
  { intros x _. apply total_continuous. }
  destruct (Classical_Prop.classic (exists c, In c L /\ P c)) as [X|X].
  - destruct (IH X) as (a1 & c1 & Ha1 & P1 & B1). destruct (Classical_Prop.classic (P c0)) as [P0|P0].
    + destruct (Rle_or_lt (total_alignment cmvs n m c0) (total_alignment cmvs n a1 c1)) as [Q|Q].
      * exists a1, c1. split; auto. split; auto. intros a' c' Ha' [<-|Hc'] Pc'; auto. specialize (M a' Ha'). cbn beta in M. lra.
      * exists m, c0. split; auto. split; auto. intros a' c' Ha' [<-|Hc'] Pc'; auto. specialize (B1 a' c' Ha' Hc' Pc'). lra.
    + exists a1, c1. split; auto. split; auto. intros a' c' Ha' [<-|Hc'] Pc'; auto. contradiction.
  - destruct Hc as [->|Hc]; [|exfalso; eauto]. exists m, c. split; auto. split; auto.
    intros a' c' Ha' [<-|Hc'] Pc'; auto. exfalso; eauto.
Qed.

(*@ C23 If the optimiser finds a minimum over its search interval whenever there is one, the returned set is the best aligned
    with n evenly spaced axes over every rotation of the axes and every choice of n distinct CMVs. *)
Lemma subset_global : forall lsa shgo cmvx cmvy n idx,
  lsa_correct lsa -> (n <= length cmvx)%nat ->
  (forall f b, (exists y, 0 <= y <= b /\ forall x, 0 <= x <= b -> f y <= f x) ->
     0 <= shgo f b <= b /\ forall x, 0 <= x <= b -> f (shgo f b) <= f x) ->
  optimum_subset lsa shgo cmvx cmvy n = Ok idx ->
  exists y, forall a cols, assignment n (length cmvx) cols ->
    total_alignment (combine cmvx cmvy) n a cols <= total_alignment (combine cmvx cmvy) n y idx.
Proof.
  intros lsa shgo cmvx cmvy n idx C Ln Hs E.
  destruct (subset_inv _ _ _ _ _ _ E) as (Nz & L & _). destruct (subset_optimal _ _ _ _ _ _ C Ln E) as (A & f & y & Ey & O & F).
  assert (LC : length (combine cmvx cmvy) = length cmvx) by (rewrite combine_length; lia).
  assert (P : 0 < PI / INR n) by (apply Rdiv_lt_0_compat; [apply PI_RGT_0|apply lt_0_INR; lia]).
  destruct (max_finite (combine cmvx cmvy) n (PI / INR n) (assignment n (length cmvx)) (lists_below n (length cmvx))) as (a0 & c0 & Ha0 & Hc0 & Hmax0); [lra| |].
  { exists idx. split; [|exact A]. destruct A as (A1 & A2 & A3). now apply lists_below_spec. }
  assert (Hmax : forall a' cols', 0 <= a' <= PI / INR n -> assignment n (length cmvx) cols' ->
        total_alignment (combine cmvx cmvy) n a' cols' <= total_alignment (combine cmvx cmvy) n a0 c0).
  { intros a' c' Ha' Hc'. apply Hmax0; auto. destruct Hc' as (A1 & A2 & A3). now apply lists_below_spec. }
  destruct (Hs f (PI / INR n)) as [Hy Hmin].
  { exists a0. split; [exact Ha0|]. intros x Hx. destruct (F x) as ((cx & Hcx & ->) & _). destruct (F a0) as (_ & F0).
    specialize (F0 c0 Hc0). specialize (Hmax x cx Hx Hcx). lra. }
  rewrite <- Ey in *.
  exists y. intros a cols Hc.
  assert (B : forall x, 0 <= x <= PI / INR n -> best (combine cmvx cmvy) n x (total_alignment (combine cmvx cmvy) n y idx)).
  { intros x Hx cs Hcs. rewrite LC in Hcs. destruct (F x) as (_ & Fx). specialize (Fx cs Hcs). destruct (F y) as ((cy & Hcy & Fy) & _).
    specialize (Hmin x Hx). specialize (O cy Hcy). lra. }
  set (s := PI / INR n) in *. set (z := Int_part (a / s)).
  assert (Hz : IZR z <= a / s < IZR z + 1) by (unfold z; destruct (base_Int_part (a / s)); lra).
  assert (Hx : 0 <= a - IZR z * s <= s).
  { assert (Ea : a = a / s * s) by (field; lra). rewrite Ea at 1 2. split; nra. }
  assert (G : best (combine cmvx cmvy) n a (total_alignment (combine cmvx cmvy) n y idx)).
  { destruct (Z.le_ge_cases 0 z) as [Hp|Hp].
    - replace a with (a - IZR z * s + INR (Z.to_nat z) * s) by (rewrite INR_IZR_INZ, Z2Nat.id by lia; ring). now apply best_turns; auto.
    - replace a with (a - IZR z * s - INR (Z.to_nat (- z)) * s) by (rewrite INR_IZR_INZ, Z2Nat.id, opp_IZR by lia; ring). now apply best_turns_back; auto. }
  apply G. now rewrite LC.
Qed.

Lemma map2_cons {A B C} (f : A -> B -> C) x l y l' : map2 f (x :: l) (y :: l') = f x y :: map2 f l l'.
Proof. reflexivity. Qed.

(*@ C23 Reversing or rescaling any of the CMVs changes nothing. *)
Lemma subset_scale_invariant : forall lsa shgo cmvx cmvy ks n,
  length ks = length cmvx -> length ks = length cmvy -> Forall (fun k => k <> 0) ks ->
  optimum_subset lsa shgo (map2 Rmult ks cmvx) (map2 Rmult ks cmvy) n = optimum_subset lsa shgo cmvx cmvy n.
Proof.
  intros lsa shgo cmvx cmvy ks n L1 L2 K.
  assert (LM : forall l, length ks = length l -> length (map2 Rmult ks l) = length l).
  { clear. intros l E. unfold map2. rewrite map_length, combine_length. lia. }
  assert (Z : existsb (fun v => Reqb (magnitude v) 0) (combine (map2 Rmult ks cmvx) (map2 Rmult ks cmvy)) =
              existsb (fun v => Reqb (magnitude v) 0) (combine cmvx cmvy)).
  { clear - K L1 L2. revert cmvx cmvy L1 L2. induction K as [|k ks Hk K IH]; intros [|x cx] [|y cy]; cbn [existsb length]; auto; try discriminate; rewrite ?map2_cons; cbn [combine existsb].
    intros [= E1] [= E2]. rewrite IH by auto. f_equal.
    destruct (Req_dec (magnitude (x, y)) 0) as [E|E].
    - rewrite (Reqb_true (magnitude (x, y))) by auto. apply mag_zero in E. injection E as -> ->. apply Reqb_true, mag_zero. f_equal; apply Rmult_0_r.
    - rewrite (Reqb_false (magnitude (x, y))) by auto. apply Reqb_false. intro F. apply E. apply mag_zero in F. injection F as Fx Fy.
      apply mag_zero. f_equal; apply (Rmult_eq_reg_l k); auto; rewrite Rmult_0_r; auto. }
  assert (D : Forall (fun v => v <> (0, 0)) (combine cmvx cmvy) -> forall w,
     map (fun v => - Rabs (dot v w)) (units (combine (map2 Rmult ks cmvx) (map2 Rmult ks cmvy))) = map (fun v => - Rabs (dot v w)) (units (combine cmvx cmvy))).
  { intros NZ w. unfold units. rewrite !map_map. clear - K L1 L2 NZ. revert cmvx cmvy L1 L2 NZ.
    induction K as [|k ks Hk K IH]; intros [|x cx] [|y cy]; cbn [length]; auto; try discriminate; rewrite ?map2_cons; cbn [combine map].
    intros [= E1] [= E2] NZ. inversion NZ as [|? ? N NZ']; subst. rewrite IH by auto. f_equal. f_equal.
    assert (M : 0 < magnitude (x, y)) by (rewrite magnitude_len; now apply len_pos).
    assert (Q : magnitude (k * x, k * y) = Rabs k * magnitude (x, y)).
    { unfold magnitude. cbn [fst snd]. rewrite <- sqrt_Rsqr_abs, <- sqrt_mult by (try apply Rle_0_sqr; nra). f_equal. unfold Rsqr. ring. }
    assert (A : 0 < Rabs k) by (now apply Rabs_pos_lt).
    rewrite Q. unfold dot. cbn [fst snd].
    replace (k * x / (Rabs k * magnitude (x, y)) * fst w + k * y / (Rabs k * magnitude (x, y)) * snd w)
      with (k / Rabs k * (x / magnitude (x, y) * fst w + y / magnitude (x, y) * snd w)) by (field; lra).
    rewrite Rabs_mult. unfold Rdiv at 1. rewrite Rabs_mult, Rabs_inv, Rabs_Rabsolu. rewrite Rinv_r by lra. ring. }
  unfold optimum_subset. cbv zeta. rewrite !LM by auto. rewrite Z.
  destruct (negb _); auto. destruct (Nat.eqb n 0); auto. destruct (existsb _ (combine cmvx cmvy)) eqn:E; auto. apply existsb_zero in E.
  fold (units (combine (map2 Rmult ks cmvx) (map2 Rmult ks cmvy))). fold (units (combine cmvx cmvy)).
  assert (CC : calc_cost lsa n (units (combine (map2 Rmult ks cmvx) (map2 Rmult ks cmvy))) = calc_cost lsa n (units (combine cmvx cmvy))).
  { apply functional_extensionality. intro a. unfold calc_cost. cbv zeta.
    assert (S : subset_cost n (units (combine (map2 Rmult ks cmvx) (map2 Rmult ks cmvy))) a = subset_cost n (units (combine cmvx cmvy)) a).
    { unfold subset_cost. apply map_ext. intro w. now apply D. }
    rewrite S. unfold units. rewrite !map_length, !combine_length, !LM by auto. reflexivity. }
  rewrite CC. reflexivity.
Qed.

Lemma minimiser_exists : exists shgo : (R -> R) -> R -> R,
  forall f b, (exists y, 0 <= y <= b /\ forall x, 0 <= x <= b -> f y <= f x) ->
     0 <= shgo f b <= b /\ forall x, 0 <= x <= b -> f (shgo f b) <= f x.
Proof.
  exists (fun f b => epsilon (inhabits 0) (fun y => 0 <= y <= b /\ forall x, 0 <= x <= b -> f y <= f x)).
  intros f b H. apply (epsilon_spec (inhabits 0) _ H).
Qed.

(*@ex C23 *)
Lemma subset_example : exists lsa shgo, lsa_correct lsa /\
  (forall f b, (exists y, 0 <= y <= b /\ forall x, 0 <= x <= b -> f y <= f x) ->
     0 <= shgo f b <= b /\ forall x, 0 <= x <= b -> f (shgo f b) <= f x) /\
  exists idx, (2 <= length [1; 0; -3]%R)%nat /\ optimum_subset lsa shgo [1; 0; -3] [1; 2; -3.5] 2 = Ok idx.
Proof.
  destruct minimiser_exists as (shgo & M). exists lsa_brute, shgo. split; [apply lsa_brute_correct|]. split; auto.
  destruct (proj2 (proj1 (proj2 (subset_success lsa_brute shgo [1; 0; -3] [1; 2; -3.5] 2)))) as (idx & E).
  - split; [lia|]. split; [reflexivity|]. cbn [combine]. repeat constructor; intro F; injection F; lra.
  - exists idx. split; [cbn; lia|exact E].
Qed.
