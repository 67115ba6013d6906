(** Resampling: general bins, and blocks of consecutive samples on a regular grid. *)
From Coq Require Import Permutation Sorted.
From Verif Require Import Prelude PreludeFacts RealBase Fl RealStat M_spatial M_stats Spec_stats X_spatial_zone X_stats_err P_stats.
Local Open Scope R_scope.

Lemma fold_min_spec l : forall x, (fold_left Z.min l x <= x)%Z /\ (forall y, In y l -> fold_left Z.min l x <= y)%Z /\
  (fold_left Z.min l x = x \/ In (fold_left Z.min l x) l).
Proof.
  induction l as [|a l IH]; intro x; cbn; [repeat split; auto; lia|]. destruct (IH (Z.min x a)) as (A & B & C).
  split; [lia|]. split.
  - intros y [<-|Hy]; [lia|auto].
  - destruct C as [->|]; [|auto]. destruct (Z.min_spec x a) as [[_ ->]|[_ ->]]; auto.
Qed.
Lemma fold_max_spec l : forall x, (x <= fold_left Z.max l x)%Z /\ (forall y, In y l -> y <= fold_left Z.max l x)%Z /\
  (fold_left Z.max l x = x \/ In (fold_left Z.max l x) l).
Proof.
  induction l as [|a l IH]; intro x; cbn; [repeat split; auto; lia|]. destruct (IH (Z.max x a)) as (A & B & C).
  split; [lia|]. split.
  - intros y [<-|Hy]; [lia|auto].
  - destruct C as [->|]; [|auto]. destruct (Z.max_spec x a) as [[_ ->]|[_ ->]]; auto.
Qed.
Lemma Zmin_of_spec l : l <> [] -> In (Zmin_of l) l /\ forall y, In y l -> (Zmin_of l <= y)%Z.
Proof.
  destruct l as [|x l]; [easy|]. intros _. cbn. destruct (fold_min_spec l x) as (A & B & C). split.
  - destruct C as [->|]; auto.
  - intros y [<-|Hy]; auto.
Qed.
Lemma Zmax_of_spec l : l <> [] -> In (Zmax_of l) l /\ forall y, In y l -> (y <= Zmax_of l)%Z.
Proof.
  destruct l as [|x l]; [easy|]. intros _. cbn. destruct (fold_max_spec l x) as (A & B & C). split.
  - destruct C as [->|]; auto.
  - intros y [<-|Hy]; auto.
Qed.

Lemma ns_pos : (0 < ns)%Z. Proof. reflexivity. Qed.

Lemma average_of_match l v : v = match present l with [] => None | x :: xs => Some (Rmean (x :: xs)) end -> average_of l v.
Proof. intros ->. unfold average_of. destruct (present l); [easy|]. split; [easy|reflexivity]. Qed.

Lemma resample_binned w s : (0 < w)%Z -> s <> [] -> exists rs, resample_mean w s = Ok rs /\ binned w s rs.
Proof.
  intros Hw N. unfold resample_mean. rewrite (proj2 (Z.leb_gt _ _)) by easy.
  assert (NS : stamps s <> []) by now destruct s.
  destruct (stamps s) as [|t ts] eqn:E; [easy|]. rewrite <- E in *. clear E t ts.
  destruct (Zmin_of_spec _ NS) as [Imin Lmin]. destruct (Zmax_of_spec _ NS) as [Imax Lmax].
  set (first := Zmin_of (stamps s)) in *. set (last := Zmax_of (stamps s)) in *.
  set (W := (w * ns)%Z). assert (HW : (0 < W)%Z) by (pose proof ns_pos; unfold W; nia).
  set (o := (day_ns * (first / day_ns))%Z).
  eexists. split; [reflexivity|]. split; [easy|]. fold W. exists ((first - o) / W)%Z, first, last.
  split; [easy|]. split; [easy|]. split; [auto|]. cbv zeta. change one_day with day_ns. fold o.
  set (k0 := ((first - o) / W)%Z). set (k1 := ((last - o) / W)%Z). rewrite map_length, seq_length.
  assert (D0 := Z.div_mod (first - o) W ltac:(lia)). assert (M0 := Z.mod_pos_bound (first - o) W HW).
  assert (D1 := Z.div_mod (last - o) W ltac:(lia)). assert (M1 := Z.mod_pos_bound (last - o) W HW).
  fold k0 in D0. fold k1 in D1.
  assert (K : (k0 <= k1)%Z) by (apply Z.div_le_mono; [easy|]; specialize (Lmax _ Imin); lia).
  split; [nia|]. split; [nia|]. intros i Hi. eexists. split.
  - rewrite nth_error_map, (nth_error_nth' _ O) by (rewrite seq_length; lia). rewrite seq_nth by lia. reflexivity.
  - apply average_of_match. cbn [Nat.add].
    replace (o + (k0 + Z.of_nat (S i)) * W)%Z with (o + (k0 + Z.of_nat i) * W + W)%Z by nia. now destruct (present _).
Qed.

(** Regular grids *)
Lemma filter_range {A} (p : nat -> bool) a b (l : list A) (f : nat -> A) (q : A -> bool) :
  (forall i, q (f i) = p i) -> (forall i, p i = true <-> (a <= i < b)%nat) -> (a <= b)%nat ->
  l = map f (seq 0 (length l)) -> filter q l = firstn (b - a) (skipn a l).
Proof.
  intros Q P Hab L. rewrite L. generalize (length l). intro n. clear L l.
  assert (Fm : forall s, filter q (map f s) = map f (filter p s)).
  { induction s as [|x s IH]; cbn; [easy|]. rewrite Q. destruct (p x); cbn; congruence. }
  rewrite Fm. rewrite skipn_map, firstn_map. f_equal.
  assert (G : forall n k, filter p (seq k n) = firstn (b - Nat.max a k) (skipn (a - k) (seq k n))).
  { clear n. induction n as [|n IH]; intro k; cbn [seq filter]; [now rewrite skipn_nil, firstn_nil|].
    destruct (p k) eqn:E.
    - apply P in E. replace (a - k)%nat with 0%nat by lia. cbn [skipn].
      replace (b - Nat.max a k)%nat with (S (b - Nat.max a (S k))) by lia. cbn [firstn]. f_equal.
      rewrite IH. replace (a - S k)%nat with 0%nat by lia. reflexivity.
    - destruct (Nat.lt_ge_cases k a) as [H|H].
      + replace (a - k)%nat with (S (a - S k)) by lia. cbn [skipn]. rewrite IH. f_equal. lia.
      + assert (b <= k)%nat.
        { destruct (Nat.le_gt_cases b k); [easy|]. exfalso. assert (p k = true) by (apply P; lia). congruence. }
        replace (b - Nat.max a k)%nat with 0%nat by lia. cbn [firstn]. rewrite IH.
        replace (b - Nat.max a (S k))%nat with 0%nat by lia. reflexivity. }
  rewrite G. f_equal; [lia|]. f_equal. lia.
Qed.

Lemma Zdiffs_cons2 x y l : Zdiffs (x :: y :: l) = (y - x)%Z :: Zdiffs (y :: l).
Proof. reflexivity. Qed.
Lemma Zdiffs_regular t0 D n m : Zdiffs (map (fun i => (t0 + Z.of_nat i * D)%Z) (seq m n)) = map (fun _ => D) (seq 0 (n - 1)).
Proof.
  revert m. induction n as [|n IH]; intro m; [reflexivity|]. destruct n as [|n]; [reflexivity|].
  specialize (IH (S m)). change (seq m (S (S n))) with (m :: S m :: seq (S (S m)) n).
  change (seq (S m) (S n)) with (S m :: seq (S (S m)) n) in IH. cbn [map] in IH |- *. rewrite Zdiffs_cons2, IH.
  replace (S (S n) - 1)%nat with (S n) by lia. replace (S n - 1)%nat with n by lia. cbn [seq map].
  f_equal; [nia|]. rewrite <- seq_shift, map_map. reflexivity.
Qed.

Lemma regular_step t0 d s : regular t0 d s -> (2 <= length s)%nat -> index_step (stamps s) = Some (IZR d).
Proof.
  intros Rg L. unfold index_step. rewrite Rg, Zdiffs_regular. destruct (length s - 1)%nat as [|n] eqn:E; [lia|].
  cbn [seq map]. f_equal. apply median_const; [easy|]. intros x Hx.
  assert (HN : IZR (d * ns) / IZR ns = IZR d).
  { rewrite mult_IZR. unfold ns. field. }
  destruct Hx as [<-|Hx]; [exact HN|]. apply in_map_iff in Hx. destruct Hx as (z & <- & Hz). apply in_map_iff in Hz.
  destruct Hz as (i & <- & _). exact HN.
Qed.


Lemma regular_nth t0 d s i : regular t0 d s -> (i < length s)%nat -> exists v, nth_error s i = Some ((t0 + Z.of_nat i * (d * ns))%Z, v).
Proof.
  intros Rg Hi. destruct (nth_error s i) as [[t v]|] eqn:E; [|apply nth_error_None in E; lia].
  exists v. do 2 f_equal. assert (F : nth_error (stamps s) i = Some t) by (unfold stamps; rewrite nth_error_map, E; reflexivity).
  rewrite Rg, nth_error_map, (nth_error_nth' _ O) in F by (rewrite seq_length; lia). rewrite seq_nth in F by lia. cbn in F. congruence.
Qed.

Lemma binned_blocks t0 d k s rs : regular t0 d s -> (0 < d)%Z -> (0 < k)%nat -> s <> [] ->
  ((t0 - one_day * (t0 / one_day)) mod (Z.of_nat k * d * ns) = 0)%Z ->
  binned (Z.of_nat k * d) s rs -> block_averages k (values s) (values rs).
Proof.
  intros Rg Hd Hk N Al (Hw & k0 & first & last & I1 & I2 & B & L0 & L1 & V). cbv zeta in *.
  set (D := (d * ns)%Z) in *. assert (HD : (0 < D)%Z) by (pose proof ns_pos; unfold D; nia).
  replace (Z.of_nat k * d * ns)%Z with (Z.of_nat k * D)%Z in * by (unfold D; ring).
  set (W := (Z.of_nat k * D)%Z) in *. assert (HW : (0 < W)%Z) by (unfold W; nia).
  set (n := length s) in *. assert (Hn : (0 < n)%nat) by (unfold n; destruct s; [easy|cbn; lia]).
  assert (St : forall t, In t (stamps s) <-> exists i, (i < n)%nat /\ t = (t0 + Z.of_nat i * D)%Z).
  { intro t. rewrite Rg, in_map_iff. fold n D. split; intros (i & A & C).
    - apply in_seq in C. exists i. split; [lia|easy].
    - exists i. split; [easy|]. apply in_seq. lia. }
  assert (F0 : first = t0).
  { apply St in I1. destruct I1 as (i & Hi & ->). assert (In t0 (stamps s)) as I0 by (apply St; exists 0%nat; split; [easy|lia]).
    specialize (B _ I0). nia. }
  subst first.
  assert (FL : last = (t0 + Z.of_nat (n - 1) * D)%Z).
  { apply St in I2. destruct I2 as (i & Hi & ->). assert (In (t0 + Z.of_nat (n - 1) * D)%Z (stamps s)) as I0 by (apply St; exists (n - 1)%nat; split; [lia|easy]).
    specialize (B _ I0). nia. }
  subst last. set (o := (one_day * (t0 / one_day))%Z) in *.
  assert (OO : (t0 = o + k0 * W)%Z).
  { apply Z.mod_divide in Al; [|lia]. destruct Al as (q & Eq). assert (q = k0) by nia. subst. lia. }
  assert (LF : forall i, (o + (k0 + Z.of_nat i) * W = t0 + Z.of_nat (i * k) * D)%Z) by (intro i; unfold W in *; nia).
  rewrite !LF in L1. set (m := length rs) in *.
  assert (Hm : (0 < m)%nat).
  { destruct m; [|lia]. exfalso. cbn in L1. nia. }
  assert (C1 : (m * k < n + k)%nat).
  { assert ((m - 1) * k <= n - 1)%nat by nia. nia. }
  assert (C2 : (n <= m * k)%nat) by nia.
  unfold block_averages. unfold values at 1 2 3 4. rewrite !map_length. fold n m. split; [easy|]. split; [easy|].
  intros j v Hv. unfold values in Hv. rewrite nth_error_map in Hv. destruct (nth_error rs j) as [[t v']|] eqn:Ej; [|discriminate].
  assert (Hj : (j < m)%nat) by (unfold m; apply nth_error_Some; congruence).
  destruct (V j Hj) as (u & Eu & Au). rewrite Ej in Eu. cbn in Hv. assert (v = u) by congruence. subst u. clear Eu Hv.
  rewrite !LF in Au. unfold values. rewrite skipn_map, firstn_map.
  assert (FR : filter (fun r => ((t0 + Z.of_nat (j * k) * D <=? fst r) && (fst r <? t0 + Z.of_nat (S j * k) * D))%Z) s = firstn k (skipn (j * k) s)).
  { set (f := fun i => nth i s (t0 + Z.of_nat i * D, None)%Z).
    transitivity (firstn (S j * k - j * k) (skipn (j * k) s)); [|f_equal; nia].
    apply (filter_range (fun i => ((j * k <=? i) && (i <? S j * k))%nat) (j * k) (S j * k) s f).
    - intro i. assert (Ef : fst (f i) = (t0 + Z.of_nat i * D)%Z).
      { unfold f. destruct (Nat.lt_ge_cases i n) as [Hi|Hi].
        - destruct (regular_nth t0 d s i Rg Hi) as (w & Ew). rewrite (nth_error_nth _ _ _ Ew). reflexivity.
        - rewrite nth_overflow by easy. reflexivity. }
      rewrite Ef. f_equal.
      + destruct (Nat.leb_spec (j * k) i), (Z.leb_spec (t0 + Z.of_nat (j * k) * D) (t0 + Z.of_nat i * D)); auto; nia.
      + destruct (Nat.ltb_spec i (S j * k)), (Z.ltb_spec (t0 + Z.of_nat i * D) (t0 + Z.of_nat (S j * k) * D)); auto; nia.
    - intro i. rewrite andb_true_iff, Nat.leb_le, Nat.ltb_lt. reflexivity.
    - nia.
    - apply nth_error_ext. intro i. rewrite nth_error_map. fold n. destruct (Nat.lt_ge_cases i n) as [Hi|Hi].
      + rewrite (nth_error_nth' (seq 0 n) O) by (rewrite seq_length; lia). rewrite seq_nth by lia. cbn [option_map Nat.add].
        unfold f. now apply nth_error_nth'.
      + rewrite !(proj2 (nth_error_None _ _)); [easy| |]; rewrite ?seq_length; lia. }
  rewrite FR in Au. exact Au.
Qed.

Lemma py_int_IZR z : (0 <= z)%Z -> py_int (IZR z) = z.
Proof. intro. apply py_int_eq; [easy|]. lra. Qed.
