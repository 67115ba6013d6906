(** Lemmas about differences, ranks and resampling. *)
From Coq Require Import Permutation Sorted.
From Verif Require Import Prelude PreludeFacts RealBase Fl RealStat M_spatial M_stats Spec_stats X_stats_err.
Local Open Scope R_scope.

Lemma present_app {A} (l l' : list (option A)) : present (l ++ l') = present l ++ present l'.
Proof. unfold present. apply flat_map_app. Qed.
Lemma present_none {A} (l : list (option A)) : (forall x, In x l -> x = None) -> present l = [].
Proof. induction l as [|x l IH]; intro N; [easy|]. cbn. rewrite (N x (or_introl eq_refl)). apply IH. intros; apply N; now right. Qed.
Lemma present_option_map {A B} (f : A -> B) l : present (map (option_map f) l) = map f (present l).
Proof. induction l as [|[x|] l IH]; cbn; [easy| |easy]. unfold present in IH. now rewrite IH. Qed.

Lemma combine_skipn (l : list (option R)) tau : (tau <= length l)%nat ->
  combine l (skipn tau l) = map (fun i => (nth i l None, nth (i + tau) l None)) (seq 0 (length l - tau)).
Proof.
  intro H. apply nth_error_ext. intro i.
  assert (NS : forall j, nth j (skipn tau l) None = nth (j + tau) l None).
  { clear H. revert tau. induction l as [|x l IH]; intros [|tau] j; cbn; rewrite ?Nat.add_0_r; auto.
    - now destruct j.
    - rewrite Nat.add_succ_r. cbn. apply IH. }
  destruct (Nat.lt_ge_cases i (length l - tau)) as [Hi|Hi].
  - rewrite nth_error_map, (nth_error_nth' _ O) by (rewrite seq_length; lia). rewrite seq_nth by lia. cbn [option_map].
    assert (E : nth_error l i = Some (nth i l None)) by (apply nth_error_nth'; lia).
    assert (F : nth_error (skipn tau l) i = Some (nth (i + tau) l None)) by (rewrite <- NS; apply nth_error_nth'; rewrite skipn_length; lia).
    cbn [Nat.add]. revert E F. generalize (nth i l None), (nth (i + tau) l None), (skipn tau l). intros a b l'.
    clear. revert l' i. induction l as [|x l IH]; intros [|y l'] [|i]; cbn; intros E F; try discriminate; [congruence|now apply IH].
  - rewrite !(proj2 (nth_error_None _ _)); [easy| |]; rewrite ?map_length, ?seq_length, ?combine_length, ?skipn_length; lia.
Qed.

Lemma present_flat {A} (f : A -> option R) l : present (map f l) = flat_map (fun x => match f x with Some d => [d] | None => [] end) l.
Proof. unfold present. induction l as [|x l IH]; cbn; [easy|]. rewrite IH. now destruct (f x). Qed.

Lemma flat_map_ext_in {A B} (f g : A -> list B) l : (forall x, In x l -> f x = g x) -> flat_map f l = flat_map g l.
Proof. induction l as [|x l IH]; intro E; [easy|]. cbn. rewrite E by now left. f_equal. apply IH. intros; apply E; now right. Qed.
Lemma flat_map_map {A B C} (g : A -> B) (f : B -> list C) l : flat_map f (map g l) = flat_map (fun x => f (g x)) l.
Proof. induction l as [|x l IH]; cbn; [easy|]. now rewrite IH. Qed.
Lemma map_flat_map {A B C} (g : A -> list B) (f : B -> C) l : map f (flat_map g l) = flat_map (fun x => map f (g x)) l.
Proof. induction l as [|x l IH]; cbn; [easy|]. now rewrite map_app, IH. Qed.
Lemma seq_shift_n a n k : seq (a + k) n = map (fun i => (i + k)%nat) (seq a n).
Proof. revert a. induction n as [|n IH]; intro a; cbn; [easy|]. f_equal. apply (IH (S a)). Qed.

Lemma skipn_all_nil {A} n (l : list A) : (length l <= n)%nat -> skipn n l = [].
Proof. apply skipn_all2. Qed.

Lemma sdiff_pos tau l : present (sdiff (Z.of_nat tau) l) = ramps tau l.
Proof.
  unfold sdiff, ramps. destruct (Nat.le_gt_cases tau (length l)) as [H|H].
  - rewrite combine_skipn by easy. replace (seq 0 (length l)) with (seq 0 tau ++ seq (0 + tau) (length l - tau)).
    2:{ rewrite <- seq_app. f_equal. lia. }
    rewrite map_app, present_app, present_none, app_nil_l.
    + rewrite seq_shift_n, map_map, present_flat, flat_map_map. apply flat_map_ext_in. intros i Hi. apply in_seq in Hi.
      replace (Z.of_nat (i + tau) - Z.of_nat tau)%Z with (Z.of_nat i) by lia.
      rewrite (proj2 (Z.leb_le _ _)), (proj2 (Z.ltb_lt _ _)) by lia. cbn [andb]. rewrite Nat2Z.id.
      unfold opt2. destruct (nth i l None), (nth (i + tau) l None); reflexivity.
    + intros x Hx. apply in_map_iff in Hx. destruct Hx as (i & <- & Hi). apply in_seq in Hi.
      rewrite (proj2 (Z.leb_gt _ _)) by lia. reflexivity.
  - rewrite skipn_all_nil by lia. rewrite combine_nil. apply present_none.
    intros x Hx. apply in_map_iff in Hx. destruct Hx as (i & <- & Hi). apply in_seq in Hi.
    rewrite (proj2 (Z.leb_gt _ _)) by lia. reflexivity.
Qed.

Lemma sdiff_neg tau l : present (sdiff (- Z.of_nat tau) l) = map Ropp (ramps tau l).
Proof.
  unfold sdiff, ramps. destruct (Nat.le_gt_cases tau (length l)) as [H|H].
  - rewrite combine_skipn by easy. replace (seq 0 (length l)) with (seq 0 (length l - tau) ++ seq (length l - tau) tau).
    2:{ replace (length l - tau)%nat with (0 + (length l - tau))%nat at 2 by lia. rewrite <- seq_app. f_equal. lia. }
    rewrite map_app, present_app, (present_none (map _ (seq (length l - tau) tau))), app_nil_r.
    + rewrite present_flat, flat_map_map, map_flat_map. apply flat_map_ext_in. intros i Hi. apply in_seq in Hi.
      replace (Z.of_nat i - - Z.of_nat tau)%Z with (Z.of_nat (i + tau)) by lia.
      rewrite (proj2 (Z.leb_le _ _)), (proj2 (Z.ltb_lt _ _)) by lia. cbn [andb]. rewrite Nat2Z.id.
      unfold opt2. destruct (nth i l None), (nth (i + tau) l None); try reflexivity. cbn. f_equal. ring.
    + intros x Hx. apply in_map_iff in Hx. destruct Hx as (i & <- & Hi). apply in_seq in Hi.
      rewrite (proj2 (Z.ltb_ge _ _)) by lia. rewrite andb_false_r. reflexivity.
  - rewrite skipn_all_nil by lia. rewrite combine_nil. apply present_none.
    intros x Hx. apply in_map_iff in Hx. destruct Hx as (i & <- & Hi). apply in_seq in Hi.
    rewrite (proj2 (Z.ltb_ge _ _)) by lia. rewrite andb_false_r. reflexivity.
Qed.

(** Absolute ramps, for any integer tau. *)
Lemma sdiff_abs tau l : map Rabs (present (sdiff tau l)) = map Rabs (ramps (Z.abs_nat tau) l).
Proof.
  destruct (Z.le_gt_cases 0 tau) as [H|H].
  - replace tau with (Z.of_nat (Z.abs_nat tau)) at 1 by lia. now rewrite sdiff_pos.
  - replace tau with (- Z.of_nat (Z.abs_nat tau))%Z at 1 by lia. rewrite sdiff_neg, map_map. apply map_ext. intro. apply Rabs_Ropp.
Qed.

(** ** Ranks *)
Lemma filter_length_perm {A} (f : A -> bool) l l' : Permutation l l' -> length (filter f l) = length (filter f l').
Proof.
  induction 1; cbn; auto.
  - destruct (f x); cbn; congruence.
  - destruct (f x), (f y); cbn; congruence.
  - congruence.
Qed.

Lemma sorted_split (s : list R) a : StronglySorted (fun x y => Rleb x y = true) s ->
  exists s1 s2 s3, s = s1 ++ s2 ++ s3 /\ Forall (fun x => x < a) s1 /\ Forall (fun x => x = a) s2 /\ Forall (fun x => a < x) s3.
Proof.
  induction 1 as [|x s S IH F].
  - exists [], [], []. repeat constructor.
  - destruct IH as (s1 & s2 & s3 & -> & F1 & F2 & F3).
    destruct (Rtotal_order x a) as [H|[H|H]].
    + exists (x :: s1), s2, s3. repeat split; auto.
    + subst x. destruct s1 as [|y s1].
      * exists [], (a :: s2), s3. repeat split; auto.
      * exfalso. inversion F1; subst. inversion F as [|? ? Q]; subst. destruct (Rleb_spec a y); [lra|easy].
    + destruct s1 as [|y s1]; [destruct s2 as [|y s2]|].
      * exists [], [], (x :: s3). repeat split; auto.
      * exfalso. inversion F2; subst. inversion F as [|? ? Q]; subst. destruct (Rleb_spec x a); [lra|easy].
      * exfalso. inversion F1; subst. inversion F as [|? ? Q]; subst. destruct (Rleb_spec x y); [lra|easy].
Qed.

Lemma filter_none {A} (f : A -> bool) l : (forall x, In x l -> f x = false) -> filter f l = [].
Proof. induction l as [|x l IH]; intro E; [easy|]. cbn. rewrite E by now left. apply IH. intros; apply E; now right. Qed.
Lemma filter_all {A} (f : A -> bool) l : (forall x, In x l -> f x = true) -> filter f l = l.
Proof. induction l as [|x l IH]; intro E; [easy|]. cbn. rewrite E by now left. f_equal. apply IH. intros; apply E; now right. Qed.

Lemma sum_seq n k : Rsum (map (fun i => INR i + 1) (seq n k)) = INR k * INR n + INR k * (INR k + 1) / 2.
Proof.
  revert n. induction k as [|k IH]; intro n; cbn [seq map]; rewrite ?Rsum_cons, ?Rsum_nil; [cbn; lra|].
  rewrite IH, !S_INR. field.
Qed.

Lemma rank_exceedance l a : In a l -> 1 - rank_pct l a = exceedance_ties a l.
Proof.
  intro Ha. unfold rank_pct, exceedance_ties, n_larger, n_equal.
  rewrite (filter_length_perm _ _ _ (rsort_perm l)), (filter_length_perm (fun x => Reqb x a) _ _ (rsort_perm l)).
  rewrite <- (rsort_length l). assert (Ha' : In a (rsort l)) by (eapply Permutation_in; [apply rsort_perm|easy]).
  destruct (sorted_split (rsort l) a (rsort_sorted l)) as (s1 & s2 & s3 & E & F1 & F2 & F3).
  rewrite E in *. rewrite Forall_forall in F1, F2, F3.
  assert (P : filter (fun i => Reqb (nth i (s1 ++ s2 ++ s3) 0) a) (seq 0 (length (s1 ++ s2 ++ s3))) = seq (length s1) (length s2)).
  { rewrite !app_length, !seq_app, !filter_app. rewrite filter_none, filter_all, filter_none, app_nil_r; [reflexivity| | |].
    - intros i Hi. apply in_seq in Hi. apply Reqb_false. rewrite !app_nth2 by lia.
      assert (In (nth (i - length s1 - length s2) s3 0) s3) as I by (apply nth_In; lia). specialize (F3 _ I). lra.
    - intros i Hi. apply in_seq in Hi. apply Reqb_true. rewrite app_nth2, app_nth1 by lia.
      apply F2, nth_In. lia.
    - intros i Hi. apply in_seq in Hi. apply Reqb_false. rewrite app_nth1 by lia.
      assert (In (nth i s1 0) s1) as I by (apply nth_In; lia). specialize (F1 _ I). lra. }
  rewrite P. rewrite !filter_app.
  rewrite (filter_none (Rltb a) s1), (filter_none (Rltb a) s2), (filter_all (Rltb a) s3).
  2:{ intros x Hx. apply Rltb_true. auto. }
  2:{ intros x Hx. apply Rltb_false. rewrite (F2 x Hx). lra. }
  2:{ intros x Hx. apply Rltb_false. specialize (F1 x Hx). lra. }
  rewrite (filter_none (fun x => Reqb x a) s1), (filter_all (fun x => Reqb x a) s2), (filter_none (fun x => Reqb x a) s3).
  2:{ intros x Hx. apply Reqb_false. specialize (F3 x Hx). lra. }
  2:{ intros x Hx. apply Reqb_true. auto. }
  2:{ intros x Hx. apply Reqb_false. specialize (F1 x Hx). lra. }
  cbn [app]. rewrite app_nil_r. unfold Rmean. rewrite sum_seq, map_length, seq_length, !app_length, !plus_INR.
  assert (Q : (0 < length s2)%nat).
  { destruct s2 as [|x s2]; [|cbn; lia]. exfalso. cbn [app] in Ha'. apply in_app_iff in Ha'. destruct Ha' as [H|H]; [specialize (F1 _ H)|specialize (F3 _ H)]; lra. }
  apply lt_0_INR in Q. pose proof (pos_INR (length s1)). pose proof (pos_INR (length s3)). field. lra.
Qed.

(** The score as a function of the absolute ramps. *)
Definition vs_of (A : list R) : fl := nan_reduce Rmax_of (map (fun a => a * exceedance_ties a A) A).
Lemma vs_core_of tau l : vs_core tau l = vs_of (map Rabs (ramps (Z.abs_nat tau) l)).
Proof.
  unfold vs_core. rewrite sdiff_abs. unfold vs_of. f_equal. apply map_ext_in. intros a Ha. now rewrite rank_exceedance.
Qed.

Lemma exceedance_perm a l l' : Permutation l l' -> exceedance_ties a l = exceedance_ties a l'.
Proof.
  intro P. unfold exceedance_ties, n_larger, n_equal.
  now rewrite (filter_length_perm _ _ _ P), (filter_length_perm (fun x => Reqb x a) _ _ P), (Permutation_length P).
Qed.
Lemma Rmax_of_perm l l' : Permutation l l' -> Rmax_of l = Rmax_of l'.
Proof.
  intro P. destruct l as [|x l]; [apply Permutation_nil in P; now subst|].
  assert (N : l' <> []) by (intros ->; apply Permutation_sym, Permutation_nil in P; discriminate).
  symmetry. apply Rmax_of_unique.
  - eapply Permutation_in; [apply P|]. now apply Rmax_of_in.
  - intros y Hy. apply Rmax_of_ge. eapply Permutation_in; [apply Permutation_sym, P|easy].
Qed.
Lemma vs_of_perm A A' : Permutation A A' -> vs_of A = vs_of A'.
Proof.
  intro P. unfold vs_of. assert (Q : Permutation (map (fun a => a * exceedance_ties a A) A) (map (fun a => a * exceedance_ties a A') A')).
  { rewrite (map_ext (fun a => a * exceedance_ties a A) (fun a => a * exceedance_ties a A')) by (intro; now rewrite (exceedance_perm _ _ _ P)).
    now apply Permutation_map. }
  destruct A as [|x A].
  - apply Permutation_nil in P. now subst.
  - destruct A' as [|y A']; [now apply Permutation_sym, Permutation_nil in P|]. cbn [map nan_reduce]. f_equal. now apply Rmax_of_perm.
Qed.

Lemma count_le A a : (n_larger a A + n_equal a A <= length A)%nat.
Proof.
  unfold n_larger, n_equal. induction A as [|x A IH]; cbn; [lia|].
  destruct (Rltb_spec a x), (Reqb_spec x a); cbn; try lia. lra.
Qed.
Lemma n_equal_pos A a : In a A -> (0 < n_equal a A)%nat.
Proof.
  intro I. unfold n_equal. assert (In a (filter (fun x => Reqb x a) A)) by (apply filter_In; split; [easy|now apply Reqb_true]).
  destruct (filter (fun x => Reqb x a) A); [easy|cbn; lia].
Qed.
Lemma exceedance_bounds A a : In a A -> 0 <= exceedance a A <= exceedance_ties a A /\ exceedance_ties a A <= 1 - / INR (length A).
Proof.
  intro I. pose proof (n_equal_pos A a I) as P. pose proof (count_le A a) as Q. apply le_INR in Q. rewrite plus_INR in Q.
  apply (le_INR 1) in P. cbn in P. assert (L : 0 < INR (length A)) by (apply INR_length_pos; now intros ->).
  pose proof (pos_INR (n_larger a A)) as Z. unfold exceedance, exceedance_ties.
  split; [split|].
  - apply Rmult_le_pos; [easy|]. left. now apply Rinv_0_lt_compat.
  - apply Rmult_le_compat_r; [left; now apply Rinv_0_lt_compat|lra].
  - replace (1 - / INR (length A)) with ((INR (length A) - 1) / INR (length A)) by (field; lra).
    apply Rmult_le_compat_r; [left; now apply Rinv_0_lt_compat|lra].
Qed.

Lemma filter_map_len {A B} (f : B -> bool) (g : A -> B) l : length (filter f (map g l)) = length (filter (fun x => f (g x)) l).
Proof. induction l as [|x l IH]; cbn; [easy|]. destruct (f (g x)); cbn; congruence. Qed.
Lemma exceedance_scale A a k : 0 < k -> exceedance_ties (k * a) (map (Rmult k) A) = exceedance_ties a A.
Proof.
  intro K. unfold exceedance_ties, n_larger, n_equal. rewrite !filter_map_len, map_length.
  rewrite (filter_ext (fun x => Rltb (k * a) (k * x)) (Rltb a)), (filter_ext (fun x => Reqb (k * x) (k * a)) (fun x => Reqb x a)); [easy| |].
  - intro x. destruct (Reqb_spec x a); [subst; now apply Reqb_true|]. apply Reqb_false. intro E. apply Rmult_eq_reg_l in E; [easy|lra].
  - intro x. destruct (Rltb_spec a x); [apply Rltb_true|apply Rltb_false]; nra.
Qed.

Lemma Rmax_of_scale k l : 0 <= k -> Rmax_of (map (Rmult k) l) = k * Rmax_of l.
Proof.
  intro K. destruct l as [|x l]; [cbn; ring|]. apply Rmax_of_unique.
  - apply in_map. now apply Rmax_of_in.
  - intros y Hy. apply in_map_iff in Hy. destruct Hy as (z & <- & Hz). apply Rmult_le_compat_l; [easy|]. now apply Rmax_of_ge.
Qed.

Lemma vs_of_scale k A : 0 <= k -> vs_of (map (Rmult k) A) = fmul (Fin k) (vs_of A).
Proof.
  intro K. unfold vs_of. destruct A as [|x A]; [reflexivity|]. set (B := x :: A). assert (N : B <> []) by easy. clearbody B. clear x A.
  rewrite !nan_reduce_ne by auto using map_ne. cbn [fmul]. f_equal. rewrite map_map.
  destruct (Req_dec k 0) as [->|K0].
  - rewrite Rmult_0_l. apply Rmax_of_unique.
    + destruct B as [|b B]; [easy|]. left. ring.
    + intros y Hy. apply in_map_iff in Hy. destruct Hy as (z & <- & _). lra.
  - rewrite <- Rmax_of_scale by easy. f_equal. rewrite map_map. apply map_ext. intro a. rewrite exceedance_scale by lra. ring.
Qed.

(** ** Affine changes of the data *)
Lemma ramps_affine tau k c l : ramps tau (map (option_map (fun x => k * x + c)) l) = map (Rmult k) (ramps tau l).
Proof.
  unfold ramps. rewrite skipn_map. generalize (skipn tau l). intro l'. revert l'.
  induction l as [|x l IH]; intros [|y l']; cbn; try reflexivity.
  destruct x, y; cbn; rewrite IH; try reflexivity. f_equal. ring.
Qed.
Lemma vs_core_affine tau k c l : vs_core tau (map (option_map (fun x => k * x + c)) l) = fmul (Fin (Rabs k)) (vs_core tau l).
Proof.
  rewrite !vs_core_of, ramps_affine, map_map.
  rewrite (map_ext (fun x => Rabs (k * x)) (fun x => Rabs k * Rabs x)) by (intro; apply Rabs_mult).
  rewrite <- (map_map Rabs (Rmult (Rabs k))). apply vs_of_scale, Rabs_pos.
Qed.

Lemma smap_stamps f s : stamps (smap f s) = stamps s.
Proof. unfold stamps, smap. rewrite map_map. reflexivity. Qed.
Lemma smap_values f s : values (smap f s) = map (option_map f) (values s).
Proof. unfold values, smap. rewrite !map_map. reflexivity. Qed.

Lemma smap_filter f (p : Z -> bool) s : filter (fun r => p (fst r)) (smap f s) = smap f (filter (fun r => p (fst r)) s).
Proof. unfold smap. induction s as [|[t v] s IH]; cbn; [easy|]. destruct (p t); cbn; congruence. Qed.

Lemma Rmean_affine k c l : l <> [] -> Rmean (map (fun x => k * x + c) l) = k * Rmean l + c.
Proof. intro N. rewrite Rmean_map_plus, Rmean_map_scal, Rmean_const, map_id by easy. reflexivity. Qed.

Lemma resample_affine w k c s : resample_mean w (smap (fun x => k * x + c) s) = rmap (smap (fun x => k * x + c)) (resample_mean w s).
Proof.
  unfold resample_mean. destruct (w <=? 0)%Z; [easy|]. rewrite smap_stamps. destruct (stamps s) as [|t0 ts] eqn:E; [reflexivity|].
  rewrite <- E. cbn [rmap]. apply f_equal.
  match goal with |- _ = smap ?f ?X => change (smap f X) with (map (fun r => (fst r, option_map f (snd r))) X) end. rewrite map_map. apply map_ext. intro i. cbn [fst snd]. f_equal.
  set (o := (day_ns * (Zmin_of (stamps s) / day_ns))%Z). set (lf := (o + _ * _)%Z).
  rewrite (smap_filter _ (fun t => (lf <=? t)%Z && (t <? lf + w * ns)%Z)).
  set (g := filter _ s). assert (E2 : map snd (smap (fun x => k * x + c) g) = map (option_map (fun x => k * x + c)) (map snd g)) by apply smap_values.
  rewrite E2, present_option_map.
  destruct (present (map snd g)) as [|y l]; [reflexivity|]. cbn [map option_map]. f_equal. apply (Rmean_affine k c (y :: l)). easy.
Qed.
