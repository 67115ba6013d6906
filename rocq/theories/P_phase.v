(** Lemmas on complex angles, np.unwrap and linear interpolation. *)
From Verif Require Import Prelude PreludeFacts RealBase Fl Dft Phase P_dft.
From Coq Require Import Lra Psatz.
From Coquelicot Require Import Rcomplements Complex.
Local Open Scope R_scope.

Lemma acos_bounds x : 0 <= acos x <= PI.
Proof. apply acos_bound. Qed.
Lemma polar (z : C) : Cmult (RtoC (Cmod z)) (cis (angle z)) = z.
Proof.
  unfold angle. destruct (Req_EM_T (Cmod z) 0) as [Z|Z].
  - rewrite Z, Cmult_0_l. symmetry. now apply Cmod_eq_0.
  - destruct z as [a b]. cbn [fst snd]. set (r := Cmod (a, b)) in *.
    assert (R2 : r * r = a ^ 2 + b ^ 2).
    { unfold r, Cmod. cbn [fst snd]. apply sqrt_sqrt. apply Rplus_le_le_0_compat; apply pow2_ge_0. }
    assert (Rp : 0 < r) by (pose proof (Cmod_ge_0 (a, b)) as G; fold r in G; lra).
    assert (B : -1 <= a / r <= 1).
    { assert (Rabs a <= r).
      { unfold r, Cmod. cbn [fst snd]. rewrite <- sqrt_Rsqr_abs. apply sqrt_le_1_alt. unfold Rsqr. nra. }
      apply Rabs_le_between in H. split; apply Rmult_le_reg_r with r; auto; unfold Rdiv; rewrite Rmult_assoc, Rinv_l by lra; lra. }
    assert (Sq : sqrt (1 - Rsqr (a / r)) = Rabs b / r).
    { replace (1 - Rsqr (a / r)) with (Rsqr (b / r)).
      - rewrite sqrt_Rsqr_abs. unfold Rdiv. rewrite Rabs_mult, (Rabs_pos_eq (/ r)); [reflexivity|]. left. now apply Rinv_0_lt_compat.
      - unfold Rsqr. apply Rmult_eq_reg_r with (r * r); [|nra]. field_simplify; [|lra|lra]. nra. }
    destruct (Rle_dec 0 b) as [Hb|Hb].
    + unfold cis. rewrite cos_acos, sin_acos, Sq, (Rabs_pos_eq b) by auto. unfold Cmult, RtoC. cbn [fst snd]. f_equal; field; lra.
    + unfold cis. rewrite cos_neg, sin_neg, cos_acos, sin_acos, Sq, (Rabs_left b) by (auto; lra). unfold Cmult, RtoC. cbn [fst snd]. f_equal; field; lra.
Qed.
Lemma angle_range z : - PI < angle z <= PI.
Proof.
  pose proof PI_RGT_0. unfold angle. destruct (Req_EM_T (Cmod z) 0) as [Z|Z]; [lra|].
  pose proof (acos_bounds (fst z / Cmod z)) as B. destruct (Rle_dec 0 (snd z)) as [Hb|Hb]; [lra|]. split; [|lra].
  enough (acos (fst z / Cmod z) <> PI) by lra. intro E.
  assert (Q : snd z = 0); [|lra].
  pose proof (polar z) as P. unfold angle in P. destruct (Req_EM_T (Cmod z) 0); [easy|]. destruct (Rle_dec 0 (snd z)); [easy|].
  rewrite E in P. unfold cis in P. rewrite cos_neg, sin_neg, cos_PI, sin_PI in P. rewrite <- P. cbn. ring.
Qed.
(** [u] and [v] differ by whole turns. *)
Definition same_turn (u v : R) : Prop := exists k, u = v + 2 * PI * IZR k.
Lemma same_turn_refl u : same_turn u u.
Proof. exists 0%Z. ring. Qed.
Lemma same_turn_trans u v w : same_turn u v -> same_turn v w -> same_turn u w.
Proof. intros [k E] [j F]. exists (k + j)%Z. rewrite plus_IZR. lra. Qed.
Lemma same_turn_cis u v : same_turn u v -> cis u = cis v.
Proof. intros [k ->]. apply cis_plus_turns. Qed.
Lemma same_turn_close u v : same_turn u v -> Rabs (u - v) < 2 * PI -> u = v.
Proof.
  intros [k E] H. pose proof PI_RGT_0 as P. replace (u - v) with (2 * PI * IZR k) in H by lra.
  rewrite Rabs_mult, (Rabs_pos_eq (2 * PI)) in H by lra.
  assert (K : Rabs (IZR k) < 1) by (apply Rmult_lt_reg_l with (2 * PI); lra).
  rewrite <- abs_IZR in K. apply lt_IZR in K. assert (k = 0%Z) by lia. subst k. lra.
Qed.
Lemma cis_inj u v : cis u = cis v -> same_turn u v.
Proof.
  intro E. pose proof PI_RGT_0 as P.
  set (k := Int_part ((u - v) / (2 * PI))). destruct (base_Int_part ((u - v) / (2 * PI))) as [B1 B2]. fold k in B1, B2.
  set (t := (u - v) - 2 * PI * IZR k).
  assert (Dv : (u - v) / (2 * PI) * (2 * PI) = u - v) by (field; lra).
  assert (T : 0 <= t < 2 * PI).
  { unfold t. split; [apply (Rmult_le_compat_r (2 * PI)) in B1; [lra|lra]|].
    assert (L : (u - v) / (2 * PI) < IZR k + 1) by lra. apply (Rmult_lt_compat_r (2 * PI)) in L; lra. }
  assert (C1 : cis t = RtoC 1).
  { replace t with ((u - v) + 2 * PI * IZR (- k)) by (unfold t; rewrite opp_IZR; ring). rewrite cis_plus_turns.
    unfold Rminus. rewrite cis_plus, E, <- cis_plus, Rplus_opp_r. apply cis_0. }
  exists k. destruct (Req_dec t 0) as [T0|T0]; [unfold t in T0; lra|]. exfalso. apply (cis_eq_1 t); [lra|exact C1].
Qed.

Lemma wrap_pi_range d : - PI <= wrap_pi d < PI.
Proof.
  pose proof PI_RGT_0 as P. unfold wrap_pi. set (q := (d + PI) / (2 * PI)). destruct (base_Int_part q) as [B1 B2].
  assert (D : q * (2 * PI) = d + PI) by (unfold q; field; lra).
  split; [apply (Rmult_le_compat_r (2 * PI)) in B1; lra|]. assert (L : q < IZR (Int_part q) + 1) by lra.
  apply (Rmult_lt_compat_r (2 * PI)) in L; lra.
Qed.
Lemma jump_fix_turn d : same_turn (jump_fix d) 0.
Proof.
  unfold jump_fix. destruct (Rlt_dec (Rabs d) PI); [apply same_turn_refl|].
  assert (W : same_turn (wrap_pi d - d) 0) by (exists (- Int_part ((d + PI) / (2 * PI)))%Z; unfold wrap_pi; rewrite opp_IZR; lra).
  destruct (Req_EM_T (wrap_pi d) (- PI)) as [E|]; [|exact W]. destruct (Rlt_dec 0 d); [|exact W].
  destruct W as [k W]. exists (k + 1)%Z. rewrite plus_IZR. rewrite E in W. lra.
Qed.
Lemma jump_fix_small d : Rabs (d + jump_fix d) <= PI.
Proof.
  pose proof PI_RGT_0 as P. unfold jump_fix. destruct (Rlt_dec (Rabs d) PI); [rewrite Rplus_0_r; lra|].
  pose proof (wrap_pi_range d) as W. destruct (Req_EM_T (wrap_pi d) (- PI)) as [E|].
  - destruct (Rlt_dec 0 d); apply Rabs_le; lra.
  - apply Rabs_le; lra.
Qed.

(** ** unwrap *)
Lemma unwrap_from_length l : forall prev c, length (unwrap_from prev c l) = length l.
Proof. induction l as [|q r IH]; intros; cbn; auto. Qed.
Lemma unwrap_length l : length (unwrap l) = length l.
Proof. destruct l; cbn; [reflexivity|]. now rewrite unwrap_from_length. Qed.
Lemma unwrap_from_turn l : forall prev c i, same_turn c 0 -> (i < length l)%nat ->
  same_turn (nth i (unwrap_from prev c l) 0) (nth i l 0).
Proof.
  induction l as [|q r IH]; intros prev c i C Hi; [cbn in Hi; lia|]. cbn [unwrap_from].
  assert (C' : same_turn (c + jump_fix (q - prev)) 0).
  { destruct C as [k C]. destruct (jump_fix_turn (q - prev)) as [j J]. exists (k + j)%Z. rewrite plus_IZR. lra. }
  destruct i as [|i]; cbn [nth].
  - destruct C' as [k E]. exists k. lra.
  - apply IH; [exact C'|cbn in Hi; lia].
Qed.
Lemma unwrap_turn l i : (i < length l)%nat -> same_turn (nth i (unwrap l) 0) (nth i l 0).
Proof.
  destruct l as [|p r]; intro Hi; [cbn in Hi; lia|]. destruct i as [|i]; cbn [unwrap nth]; [apply same_turn_refl|].
  apply unwrap_from_turn; [apply same_turn_refl|cbn in Hi; lia].
Qed.
Lemma unwrap_from_jump l : forall prev c i, (S i < S (length l))%nat ->
  Rabs (nth i (unwrap_from prev c l) 0 - nth i (prev + c :: unwrap_from prev c l) 0) <= PI.
Proof.
  induction l as [|q r IH]; intros prev c i Hi; [cbn in Hi; lia|]. cbn [unwrap_from].
  destruct i as [|i].
  - cbn [nth]. replace (q + (c + jump_fix (q - prev)) - (prev + c)) with ((q - prev) + jump_fix (q - prev)) by ring. apply jump_fix_small.
  - cbn [nth]. apply (IH q (c + jump_fix (q - prev)) i). cbn in Hi. lia.
Qed.
Lemma unwrap_jump l i : (S i < length l)%nat -> Rabs (nth (S i) (unwrap l) 0 - nth i (unwrap l) 0) <= PI.
Proof.
  destruct l as [|p r]; intro Hi; [cbn in Hi; lia|]. cbn [unwrap]. cbn [nth].
  pose proof (unwrap_from_jump r p 0 i Hi) as H. rewrite Rplus_0_r in H. exact H.
Qed.
Lemma unwrap_first l : nth 0 (unwrap l) 0 = nth 0 l 0.
Proof. destruct l; reflexivity. Qed.
(** Unwrapping recovers any phase curve whose steps stay below half a turn, up to a constant. *)
Lemma unwrap_recovers l (th : nat -> R) :
  (forall i, (i < length l)%nat -> same_turn (nth i l 0) (th i)) ->
  (forall i, (S i < length l)%nat -> Rabs (th (S i) - th i) < PI) ->
  forall i, (i < length l)%nat -> nth i (unwrap l) 0 = th i + (nth 0 l 0 - th 0%nat).
Proof.
  intros H1 H2. induction i as [|i IH]; intro Hi; [rewrite unwrap_first; lra|].
  specialize (IH ltac:(lia)).
  apply same_turn_close.
  - eapply same_turn_trans; [apply unwrap_turn; auto|]. eapply same_turn_trans; [apply H1; auto|].
    destruct (H1 0%nat ltac:(lia)) as [k E]. exists (- k)%Z. rewrite opp_IZR. lra.
  - pose proof (unwrap_jump l i Hi) as J. pose proof (H2 i Hi) as K. rewrite IH in J.
    apply Rabs_le_between in J. apply Rabs_def2 in K. apply Rabs_def1; lra.
Qed.
(** With no missing entry the NaN-aware version is the plain one. *)
Lemma unwrap_from_nan_some l : forall prev c, unwrap_from_nan prev c (map Some l) = map Some (unwrap_from prev c l).
Proof. induction l as [|q r IH]; intros; cbn; [reflexivity|]. now rewrite IH. Qed.
Lemma unwrap_nan_some l : unwrap_nan (map Some l) = map Some (unwrap l).
Proof. destruct l; cbn; [reflexivity|]. now rewrite unwrap_from_nan_some. Qed.

(** ** interp1d *)
Definition increasing (xs : list R) : Prop := forall i j, (i < j < length xs)%nat -> nth i xs 0 < nth j xs 0.
Lemma increasing_le xs i j : increasing xs -> (i <= j < length xs)%nat -> nth i xs 0 <= nth j xs 0.
Proof. intros H [L B]. destruct (Nat.eq_dec i j) as [-> |]; [lra|]. left. apply H. lia. Qed.
Lemma increasing_tail x xs : increasing (x :: xs) -> increasing xs.
Proof. intros H i j L. apply (H (S i) (S j)). cbn. lia. Qed.
Lemma count_below xs x k : increasing xs -> (k <= length xs)%nat ->
  (forall i, (i < k)%nat -> nth i xs 0 < x) -> (forall i, (k <= i < length xs)%nat -> x <= nth i xs 0) ->
  length (filter (fun t => Rltb t x) xs) = k.
Proof.
  revert k. induction xs as [|y ys IH]; intros k I Hk H1 H2; [cbn in *; lia|].
  cbn [filter]. destruct k as [|k].
  - destruct (Rltb_spec y x) as [L|L]; [exfalso; specialize (H2 0%nat ltac:(cbn; lia)); cbn in H2; lra|].
    apply IH; [eapply increasing_tail; eauto|lia|intros; lia|]. intros i Hi. apply (H2 (S i)). cbn. lia.
  - destruct (Rltb_spec y x) as [L|L]; [|exfalso; specialize (H1 0%nat ltac:(lia)); cbn in H1; lra].
    cbn [length]. f_equal. apply IH; [eapply increasing_tail; eauto|cbn in Hk; lia| |].
    + intros i Hi. apply (H1 (S i)). lia.
    + intros i Hi. apply (H2 (S i)). cbn. lia.
Qed.
Lemma lerp_node_right xs ys i : increasing xs -> (1 <= i < length xs)%nat -> lerp_at xs ys i (nth i xs 0) = nth i ys 0.
Proof. intros I H. unfold lerp_at. specialize (I (i - 1)%nat i ltac:(lia)). field. lra. Qed.
Lemma interp1d_between xs ys i x : increasing xs -> (S i < length xs)%nat -> nth i xs 0 <= x <= nth (S i) xs 0 ->
  interp1d xs ys x
  = Ok (nth i ys 0 + (x - nth i xs 0) / (nth (S i) xs 0 - nth i xs 0) * (nth (S i) ys 0 - nth i ys 0)).
Proof.
  intros I Hi [H1 H2]. unfold interp1d.
  destruct (Rltb_spec x (nth 0 xs 0)) as [L|_]; [exfalso; pose proof (increasing_le xs 0 i I ltac:(lia)); lra|].
  destruct (Rltb_spec (nth (length xs - 1) xs 0) x) as [L|_]; [exfalso; pose proof (increasing_le xs (S i) (length xs - 1) I ltac:(lia)); lra|].
  cbn [orb]. f_equal. pose proof (I i (S i) ltac:(lia)) as G.
  assert (Lin : lerp_at xs ys (S i) x = nth i ys 0 + (x - nth i xs 0) / (nth (S i) xs 0 - nth i xs 0) * (nth (S i) ys 0 - nth i ys 0)).
  { unfold lerp_at. replace (S i - 1)%nat with i by lia. field. lra. }
  destruct (Req_dec x (nth i xs 0)) as [E|N].
  - assert (C : length (filter (fun t => Rltb t x) xs) = i).
    { apply count_below; [auto|lia| |]; intros j Hj; rewrite E; [apply I; lia|apply increasing_le; auto; lia]. }
    unfold seg_of. rewrite C. destruct i as [|i].
    + replace (Nat.min (Nat.max 1 0) (length xs - 1)) with 1%nat by lia. exact Lin.
    + replace (Nat.min (Nat.max 1 (S i)) (length xs - 1)) with (S i) by lia.
      rewrite E. rewrite lerp_node_right by (auto; lia). field. lra.
  - assert (C : length (filter (fun t => Rltb t x) xs) = S i).
    { apply count_below; [auto|lia| |].
      - intros j Hj. pose proof (increasing_le xs j i I ltac:(lia)). lra.
      - intros j Hj. pose proof (increasing_le xs (S i) j I ltac:(lia)). lra. }
    unfold seg_of. rewrite C. replace (Nat.min (Nat.max 1 (S i)) (length xs - 1)) with (S i) by lia. exact Lin.
Qed.
Lemma interp1d_node xs ys i : increasing xs -> (2 <= length xs)%nat -> (i < length xs)%nat -> interp1d xs ys (nth i xs 0) = Ok (nth i ys 0).
Proof.
  intros I L Hi. destruct (Nat.eq_dec (S i) (length xs)) as [E|E].
  - destruct i as [|i]; [lia|]. pose proof (I i (S i) ltac:(lia)) as G.
    rewrite (interp1d_between xs ys i (nth (S i) xs 0) I ltac:(lia) ltac:(lra)). f_equal. field. lra.
  - pose proof (I i (S i) ltac:(lia)) as G.
    rewrite (interp1d_between xs ys i (nth i xs 0) I ltac:(lia) ltac:(lra)). f_equal. field. lra.
Qed.
Lemma interp1d_outside xs ys x : (x < nth 0 xs 0 \/ nth (length xs - 1) xs 0 < x) -> interp1d xs ys x = Err ValueError.
Proof.
  intro H. unfold interp1d. destruct (Rltb_spec x (nth 0 xs 0)); [reflexivity|]. destruct (Rltb_spec (nth (length xs - 1) xs 0) x); [reflexivity|lra].
Qed.
(** Every point of the range lies in a segment. *)
Lemma find_segment xs x : increasing xs -> (2 <= length xs)%nat -> nth 0 xs 0 <= x <= nth (length xs - 1) xs 0 ->
  exists i, (S i < length xs)%nat /\ nth i xs 0 <= x <= nth (S i) xs 0.
Proof.
  intros I L [H1 H2].
  assert (G : forall m, (m < length xs)%nat -> x <= nth m xs 0 -> (0 < m)%nat -> exists i, (S i < length xs)%nat /\ nth i xs 0 <= x <= nth (S i) xs 0).
  { induction m as [|m IH]; intros Hm Hx Hp; [lia|]. destruct (Rle_dec (nth m xs 0) x) as [Hle|Hgt]; [exists m; auto|].
    destruct m as [|m]; [lra|]. apply IH; [lia|lra|lia]. }
  apply (G (length xs - 1)%nat); [lia|lra|lia].
Qed.
