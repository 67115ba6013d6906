(** Sensor series read from a synthetic cloud field by the demo (C114). *)
From Verif Require Import Prelude PreludeFacts RealBase Fl RealStat M_spatial M_cloudfield Spec_copula Spec_cloudfield M_cloud_demo Spec_cloud_demo
  X_cloud_random X_cloud_ts.
From Coq Require Import Lra Psatz.
Local Open Scope R_scope.

Lemma ranges_min {K} f (pos : list (K * (R * R))) lo hi : ranges f pos lo hi -> Rmin_of (map (fun p => f (snd p)) pos) = lo.
Proof.
  intros ((k & p & I & E) & _ & B). apply Rmin_of_unique.
  - apply in_map_iff. exists (k, p). auto.
  - intros x Hx. apply in_map_iff in Hx. destruct Hx as ([k' p'] & <- & I'). cbn [snd]. specialize (B k' p' I'). lra.
Qed.
Lemma ranges_max {K} f (pos : list (K * (R * R))) lo hi : ranges f pos lo hi -> Rmax_of (map (fun p => f (snd p)) pos) = hi.
Proof.
  intros (_ & (k & p & I & E) & B). apply Rmax_of_unique.
  - apply in_map_iff. exists (k, p). auto.
  - intros x Hx. apply in_map_iff in Hx. destruct Hx as ([k' p'] & <- & I'). cbn [snd]. specialize (B k' p' I'). lra.
Qed.
Lemma ranges_affine {K} f (pos : list (K * (R * R))) lo hi a c : 0 < a -> ranges f pos lo hi ->
  ranges (fun p => (f p - c) * a) pos ((lo - c) * a) ((hi - c) * a).
Proof.
  intros Ha ((k & p & I & E) & (k' & p' & I' & E') & B). repeat split; [exists k, p|exists k', p'| |]; try (split; [auto|congruence]).
  - apply Rmult_le_compat_r; [lra|]. specialize (B _ _ H). lra.
  - apply Rmult_le_compat_r; [lra|]. specialize (B _ _ H). lra.
Qed.
Lemma ranges_ext {K} f g (pos : list (K * (R * R))) lo hi : (forall p, f p = g p) -> ranges f pos lo hi -> ranges g pos lo hi.
Proof.
  intros E ((k & p & I & E1) & (k' & p' & I' & E2) & B). repeat split; [exists k, p|exists k', p'| |]; try (split; [auto|congruence]); rewrite <- E; now apply (B k0).
Qed.
Lemma Int_part_unique' v (z : Z) : IZR z <= v < IZR z + 1 -> Int_part v = z.
Proof.
  intros [H1 H2]. unfold Int_part. destruct (archimed v) as [A1 A2].
  assert (B : (z < up v)%Z) by (apply lt_IZR; lra).
  assert (D : (up v < z + 2)%Z) by (apply lt_IZR; rewrite plus_IZR; lra). lia.
Qed.
Lemma ceil_eq x n : covers n x -> Z.to_nat (int_ceil x) = n.
Proof.
  intros [H1 H2]. unfold int_ceil. rewrite (Int_part_unique' (- x) (- Z.of_nat n)); [lia|].
  rewrite opp_IZR, <- INR_IZR_INZ. lra.
Qed.
Lemma fits_trunc x n : fits n x -> py_trunc x = Z.of_nat n.
Proof. intros [H1 H2]. apply trunc_eq. left. rewrite <- INR_IZR_INZ. pose proof (pos_INR n). lra. Qed.
Lemma fits_ex x : 0 <= x -> exists n, fits n x.
Proof.
  intro H. destruct (Int_part_spec x) as [A B]. exists (Z.to_nat (Int_part x)). unfold fits. rewrite INR_IZR_INZ, Z2Nat.id; [lra|].
  assert (- 1 < Int_part x)%Z by (apply lt_IZR; lra). lia.
Qed.
Lemma covers_ex x : 0 <= x -> exists n, covers n x.
Proof.
  intro H. destruct (fits_ex x H) as [n [A B]]. destruct (Req_dec x (INR n)) as [E|E].
  - exists n. unfold covers. lra.
  - exists (S n). unfold covers. rewrite S_INR. lra.
Qed.
Lemma covers_unique x n m : covers n x -> covers m x -> n = m.
Proof. intros A B. rewrite <- (ceil_eq _ _ A). now apply ceil_eq. Qed.
Lemma rotate_parts dir p : rotate_vector p (- dir) = (along dir p, across dir p).
Proof. unfold rotate_vector, along, across. rewrite cos_neg, sin_neg. f_equal; ring. Qed.
Lemma every_second_length t0 T : length (every_second t0 T) = (T + 1)%nat.
Proof. unfold every_second. now rewrite map_length, seq_length. Qed.
Lemma every_second_extent t0 T : Rmax_of (every_second t0 T) - Rmin_of (every_second t0 T) = INR T.
Proof.
  rewrite (Rmax_of_unique _ (t0 + INR T)), (Rmin_of_unique _ (t0 + INR 0)); [cbn [INR]; ring| | | |].
  - apply in_map_iff. exists 0%nat. split; [reflexivity|]. apply in_seq. lia.
  - intros x Hx. apply in_map_iff in Hx. destruct Hx as (i & <- & _). pose proof (pos_INR i). cbn [INR]. lra.
  - apply in_map_iff. exists T. split; [reflexivity|]. apply in_seq. lia.
  - intros x Hx. apply in_map_iff in Hx. destruct Hx as (i & <- & I). apply in_seq in I. apply Rplus_le_compat_l, le_INR. lia.
Qed.
Lemma mapM_combine {K B} (f : R * R -> R) (g : R * R -> R) (F : K * (R * R) -> result B) (pos : list (K * (R * R))) :
  mapM F (combine (map fst pos) (combine (map (fun p => f (snd p)) pos) (map (fun p => g (snd p)) pos)))
  = mapM (fun p => F (fst p, (f (snd p), g (snd p)))) pos.
Proof. induction pos as [|p pos IH]; [reflexivity|]. cbn [map combine mapM]. now rewrite IH. Qed.

Lemma demo_eq {K} gen (pos : list (K * (R * R))) spd dir t0 T loA hiA loB hiB nx ny : 0 < spd -> (1 <= T)%nat ->
  ranges (along dir) pos loA hiA -> ranges (across dir) pos loB hiB ->
  covers nx ((hiA - loA) / spd + INR T) -> covers ny ((hiB - loB) / spd) ->
  clouds_demo gen pos spd dir (every_second t0 T) =
    (let! field := gen (nx, ny) in
     mapM (fun p => let! s := sensor_series field ((hiA - loA) / spd) (INR T) (T + 1) ((along dir (snd p) - loA) / spd) ((across dir (snd p) - loB) / spd) in
                    Ok (fst p, s)) pos).
Proof.
  intros Hs HT RA RB CX CY. unfold clouds_demo. destruct pos as [|p0 pos0] eqn:Ep; [destruct RA as ((k & p & [] & _) & _)|]. rewrite <- Ep in *. clear Ep p0 pos0.
  rewrite every_second_length, every_second_extent. destruct (Nat.ltb_spec (T + 1) 2); [lia|].
  rewrite !map_map.
  rewrite (map_ext _ (fun p => along dir (snd p))) by (intro p; now rewrite rotate_parts).
  rewrite (map_ext (fun x => snd (rotate_vector (snd x) (- dir))) (fun p => across dir (snd p))) by (intro p; now rewrite rotate_parts).
  assert (Sh : forall f lo hi, ranges f pos lo hi ->
    from_zero (map (fun p => f (snd p)) pos) = map (fun p => f (snd p) - lo) pos /\
    extent_of (map (fun p => f (snd p) - lo) pos) = hi - lo /\
    from_zero (map (fun p => f (snd p) - lo) pos) = map (fun p => f (snd p) - lo) pos /\
    Rmax_of (map (fun v => v / spd) (map (fun p => f (snd p) - lo) pos)) = (hi - lo) / spd).
  { intros f lo hi Hr. pose proof (ranges_ext (fun p => (f p - lo) * 1) (fun p => f p - lo) pos _ _ (fun p => Rmult_1_r _) (ranges_affine f pos lo hi 1 lo ltac:(lra) Hr)) as Hr1.
    pose proof (ranges_affine f pos lo hi (/ spd) lo ltac:(now apply Rinv_0_lt_compat) Hr) as Hr2.
    pose proof (ranges_min _ _ _ _ Hr1) as E1. pose proof (ranges_max _ _ _ _ Hr1) as E2. cbn beta in E1, E2.
    repeat split.
    - unfold from_zero. rewrite (ranges_min _ _ _ _ Hr), map_map. reflexivity.
    - unfold extent_of. rewrite E1, E2. rewrite Rabs_right; [ring|]. destruct Hr as ((k & p & I & E) & _ & B). specialize (B _ _ I). lra.
    - unfold from_zero. rewrite E1, map_map. apply map_ext. intro; ring.
    - rewrite map_map. exact (ranges_max _ _ _ _ Hr2). }
  destruct (Sh _ _ _ RA) as (A1 & A2 & A3 & A4). destruct (Sh _ _ _ RB) as (B1 & B2 & B3 & _).
  rewrite A1, A2, A3, A4, B1, B2, B3, (ceil_eq _ _ CX), (ceil_eq _ _ CY).
  destruct (gen (nx, ny)) as [field|e]; [|reflexivity]. cbn [rbind]. rewrite !map_map.
  rewrite (mapM_combine (fun p => (along dir p - loA) / spd) (fun p => (across dir p - loB) / spd)). reflexivity.
Qed.

Lemma sensor_ok r c field xmax x y T a b : shaped r c field -> (0 < r)%nat -> fits a (xmax - x) -> fits b y ->
  sensor_series field xmax (INR T) (T + 1) x y =
    if Nat.leb c b then Err IndexError
    else if Nat.leb (a + T + 1) r then Ok (map (fun row => nth b row Nan) (firstn (T + 1) (skipn a field)))
    else Err ValueError.
Proof.
  intros S Hr Fa Fb. unfold sensor_series. rewrite (fits_trunc _ _ Fa), (fits_trunc _ _ Fb), (shaped_ncols _ _ _ S Hr).
  rewrite (fits_trunc (INR T) T) by (unfold fits; lra).
  destruct (Nat.leb_spec c b) as [L|L].
  - replace ((Z.of_nat b <? - Z.of_nat c) || (Z.of_nat c <=? Z.of_nat b))%Z with true by lia. reflexivity.
  - replace ((Z.of_nat b <? - Z.of_nat c) || (Z.of_nat c <=? Z.of_nat b))%Z with false by lia.
    replace (Z.of_nat b <? 0)%Z with false by lia. rewrite Nat2Z.id. unfold py_slice, slice_bound.
    destruct (Z.ltb_spec (Z.of_nat a) 0); [lia|]. destruct (Z.ltb_spec (Z.of_nat a + Z.of_nat T + 1) 0); [lia|].
    rewrite (proj1 S), map_length, firstn_length, skipn_length, (proj1 S).
    destruct (Nat.leb_spec (a + T + 1) r) as [L'|L'].
    + destruct (Nat.eqb_spec (Nat.min (Nat.min (Z.to_nat (Z.of_nat a + Z.of_nat T + 1)) r - Nat.min (Z.to_nat (Z.of_nat a)) r) (r - Nat.min (Z.to_nat (Z.of_nat a)) r)) (T + 1)) as [_|N]; [|lia].
      replace (Nat.min (Z.to_nat (Z.of_nat a)) r) with a by lia.
      replace (Nat.min (Z.to_nat (Z.of_nat a + Z.of_nat T + 1)) r - a)%nat with (T + 1)%nat by lia. reflexivity.
    + destruct (Nat.eqb_spec (Nat.min (Nat.min (Z.to_nat (Z.of_nat a + Z.of_nat T + 1)) r - Nat.min (Z.to_nat (Z.of_nat a)) r) (r - Nat.min (Z.to_nat (Z.of_nat a)) r)) (T + 1)) as [N|_]; [lia|reflexivity].
Qed.
Lemma fits_ceil x a n : fits a x -> covers n x -> (a <= n)%nat /\ ((a < n)%nat <-> ~ whole x) /\ (n <= a + 1)%nat.
Proof.
  intros [A1 A2] [C1 C2].
  assert (a <= n)%nat by (apply INR_le; lra). assert (n < a + 2)%nat by (apply INR_lt; rewrite plus_INR; cbn; lra).
  split; [auto|]. split; [|lia]. split.
  - intros L [z ->]. rewrite INR_IZR_INZ in A1, A2, C1, C2.
    rewrite <- plus_IZR in A2. rewrite <- minus_IZR in C1. apply lt_IZR in A2, C1. apply le_IZR in A1, C2. lia.
  - intro W. assert (a <> n); [|lia]. intros ->. apply W. exists (Z.of_nat n). rewrite <- INR_IZR_INZ. lra.
Qed.
Lemma nth_error_column (field : list (list fl)) r c a b T k v : shaped r c field -> (b < c)%nat -> (a + T + 1 <= r)%nat ->
  nth_error (map (fun row => nth b row Nan) (firstn (T + 1) (skipn a field))) k = Some v <-> (k <= T)%nat /\ cell_at field (a + k) b v.
Proof.
  intros S Hb Hr. rewrite nth_error_map. replace (T + 1)%nat with ((a + T + 1) - a)%nat by lia.
  destruct (nth_error (firstn (a + T + 1 - a) (skipn a field)) k) as [row|] eqn:E.
  - apply nth_error_slice in E. destruct E as [L E]. cbn [option_map]. assert (Lr : length row = c) by (apply S; eapply nth_error_In; eauto). split.
    + intro V. injection V as <-. split; [lia|]. exists row. split; [exact E|]. apply nth_error_nth'. lia.
    + intros [_ (row' & E' & V)]. assert (row' = row) by congruence. subst. f_equal. now apply nth_error_nth.
  - cbn [option_map]. split; [easy|]. intros [Lk (row & E' & V)]. exfalso.
    assert (Q : nth_error (firstn (a + T + 1 - a) (skipn a field)) k = Some row); [|congruence]. apply nth_error_slice. split; [lia|exact E'].
Qed.

Lemma whole_dec x : whole x \/ ~ whole x.
Proof.
  destruct (Req_EM_T x (IZR (Int_part x))) as [E|E]; [left; now exists (Int_part x)|right]. intros [z ->]. apply E.
  f_equal. symmetry. apply Int_part_unique'. lra.
Qed.
Lemma mapM_all {A B} (f : A -> result B) (g : A -> B) l : (forall x, In x l -> f x = Ok (g x)) -> mapM f l = Ok (map g l).
Proof.
  induction l as [|x l IH]; intro H; [reflexivity|]. cbn [mapM map]. rewrite (H x) by now left. cbn [rbind].
  rewrite IH by (intros; apply H; now right). reflexivity.
Qed.
Lemma mapM_one_err {A B} (f : A -> result B) (P : exn -> Prop) l x e : In x l -> f x = Err e ->
  (forall y e', In y l -> f y = Err e' -> P e') -> exists e', mapM f l = Err e' /\ P e'.
Proof.
  induction l as [|y l IH]; [easy|]. intros I E H. cbn [mapM]. destruct (f y) as [z|e'] eqn:Ey.
  - cbn [rbind]. destruct I as [->|I]; [congruence|]. destruct (IH I E) as (e' & -> & He'); [intros; eapply H; eauto; now right|].
    exists e'. split; [reflexivity|exact He'].
  - exists e'. split; [reflexivity|]. apply (H y); [now left|exact Ey].
Qed.

Lemma fits_mono x y a b : x <= y -> fits a x -> fits b y -> (a <= b)%nat.
Proof. intros H [A1 A2] [B1 B2]. assert (a < b + 1)%nat; [|lia]. apply INR_lt. rewrite plus_INR. cbn. lra. Qed.
Lemma fits_unique x a b : fits a x -> fits b x -> a = b.
Proof. intros A B. apply Nat.le_antisymm; eapply fits_mono; eauto; lra. Qed.
Section Demo.
Context {K : Type}.
Variables (gen : nat * nat -> result (list (list fl))) (pos : list (K * (R * R))) (spd dir t0 : R) (T : nat) (loA hiA loB hiB : R) (nx ny : nat) (field : list (list fl)).
Hypotheses (Hs : 0 < spd) (HT : (1 <= T)%nat) (RA : ranges (along dir) pos loA hiA) (RB : ranges (across dir) pos loB hiB)
  (CX : covers nx ((hiA - loA) / spd + INR T)) (CY : covers ny ((hiB - loB) / spd)) (G : gen (nx, ny) = Ok field) (S : shaped nx ny field).
Lemma nx_split : exists m, covers m ((hiA - loA) / spd) /\ nx = (m + T)%nat.
Proof using Hs RA CX.
  assert (D : 0 <= (hiA - loA) / spd).
  { destruct RA as ((k & p & I & E) & _ & B). specialize (B _ _ I). apply Rmult_le_pos; [lra|]. left. now apply Rinv_0_lt_compat. }
  destruct (covers_ex _ D) as [m M]. exists m. split; [exact M|]. apply (covers_unique _ _ _ CX). unfold covers in *. rewrite plus_INR. lra.
Qed.
Lemma sensor_at k p : In (k, p) pos -> exists a b, fits a ((hiA - along dir p) / spd) /\ fits b ((across dir p - loB) / spd) /\
  sensor_series field ((hiA - loA) / spd) (INR T) (T + 1) ((along dir p - loA) / spd) ((across dir p - loB) / spd) =
    if Nat.leb ny b then Err IndexError
    else if Nat.leb (a + T + 1) nx then Ok (map (fun row => nth b row Nan) (firstn (T + 1) (skipn a field)))
    else Err ValueError.
Proof using Hs HT RA RB CX S.
  clear G.
  intro I. pose proof (Rinv_0_lt_compat _ Hs) as Hi.
  destruct RA as (_ & _ & BA). destruct RB as (_ & _ & BB). specialize (BA _ _ I). specialize (BB _ _ I).
  destruct (fits_ex ((hiA - along dir p) / spd)) as [a Fa]; [apply Rmult_le_pos; lra|].
  destruct (fits_ex ((across dir p - loB) / spd)) as [b Fb]; [apply Rmult_le_pos; lra|].
  exists a, b. split; [exact Fa|]. split; [exact Fb|].
  apply (sensor_ok nx ny); auto.
  - destruct nx_split as (m & _ & ->). lia.
  - replace ((hiA - loA) / spd - (along dir p - loA) / spd) with ((hiA - along dir p) / spd) by (field; lra). exact Fa.
Qed.
Lemma col_bound k p b : In (k, p) pos -> fits b ((across dir p - loB) / spd) -> ~ whole ((hiB - loB) / spd) -> (b < ny)%nat.
Proof using Hs RB CY.
  clear HT CX G S field.
  intros I Fb W. pose proof (Rinv_0_lt_compat _ Hs) as Hi. destruct RB as (_ & (k' & p' & I' & E') & BB). pose proof (BB _ _ I). pose proof (BB _ _ I').
  destruct (fits_ex ((hiB - loB) / spd)) as [t Ft]; [apply Rmult_le_pos; lra|].
  assert (b <= t)%nat. { eapply fits_mono; [|exact Fb|exact Ft]. apply Rmult_le_compat_r; lra. }
  destruct (fits_ceil _ _ _ Ft CY) as (_ & Q & _). apply Q in W. lia.
Qed.
Lemma row_bound k p a : In (k, p) pos -> fits a ((hiA - along dir p) / spd) -> ~ whole ((hiA - loA) / spd) -> (a + T + 1 <= nx)%nat.
Proof using Hs RA CX.
  clear HT G CY S field.
  intros I Fa W. pose proof (Rinv_0_lt_compat _ Hs) as Hi. destruct nx_split as (m & M & ->). destruct RA as ((k' & p' & I' & E') & _ & BA). pose proof (BA _ _ I). pose proof (BA _ _ I').
  destruct (fits_ex ((hiA - loA) / spd)) as [t Ft]; [apply Rmult_le_pos; lra|].
  assert (a <= t)%nat. { eapply fits_mono; [|exact Fa|exact Ft]. apply Rmult_le_compat_r; lra. }
  destruct (fits_ceil _ _ _ Ft M) as (_ & Q & _). apply Q in W. lia.
Qed.
End Demo.

(*@ C114 If neither the extent along the wind nor the extent across it is a whole number of seconds of cloud motion, the demo finds a full series for
    every sensor: sample k is the field at row (distance to the most downwind sensor / speed, truncated) + k and column (distance to the rightmost
    sensor / speed, truncated) *)
Lemma demo_reads : forall K (gen : nat * nat -> result (list (list fl))) (pos : list (K * (R * R))) spd dir t0 T loA hiA loB hiB nx ny field,
  0 < spd -> (1 <= T)%nat -> ranges (along dir) pos loA hiA -> ranges (across dir) pos loB hiB ->
  covers nx ((hiA - loA) / spd + INR T) -> covers ny ((hiB - loB) / spd) -> gen (nx, ny) = Ok field -> shaped nx ny field ->
  ~ whole ((hiA - loA) / spd) -> ~ whole ((hiB - loB) / spd) ->
  exists out, clouds_demo gen pos spd dir (every_second t0 T) = Ok out /\ map fst out = map fst pos /\
    forall i k p, nth_error pos i = Some (k, p) ->
      exists s a b, nth_error out i = Some (k, s) /\ fits a ((hiA - along dir p) / spd) /\ fits b ((across dir p - loB) / spd) /\ length s = (T + 1)%nat /\
        forall t v, nth_error s t = Some v <-> (t <= T)%nat /\ cell_at field (a + t) b v.
Proof.
  intros K gen pos spd dir t0 T loA hiA loB hiB nx ny field Hs HT RA RB CX CY G S WA WB.
  rewrite (demo_eq gen pos spd dir t0 T loA hiA loB hiB nx ny) by auto. rewrite G. cbn [rbind].
  set (F := fun p : K * (R * R) => let! s := sensor_series field ((hiA - loA) / spd) (INR T) (T + 1) ((along dir (snd p) - loA) / spd) ((across dir (snd p) - loB) / spd) in Ok (fst p, s)).
  assert (Q : forall k p, In (k, p) pos -> exists s a b, F (k, p) = Ok (k, s) /\ fits a ((hiA - along dir p) / spd) /\ fits b ((across dir p - loB) / spd) /\
     length s = (T + 1)%nat /\ forall t v, nth_error s t = Some v <-> (t <= T)%nat /\ cell_at field (a + t) b v).
  { intros k p I. destruct (sensor_at pos spd dir T loA hiA loB hiB nx ny field Hs HT RA RB CX S k p I) as (a & b & Fa & Fb & E).
    pose proof (col_bound pos spd dir loB hiB ny Hs RB CY k p b I Fb WB) as Lb.
    pose proof (row_bound pos spd dir T loA hiA nx Hs RA CX k p a I Fa WA) as La.
    destruct (Nat.leb_spec ny b); [lia|]. destruct (Nat.leb_spec (a + T + 1) nx); [|lia].
    do 3 eexists. split; [unfold F; cbn [fst snd]; rewrite E; reflexivity|]. split; [exact Fa|]. split; [exact Fb|].
    split; [rewrite map_length, firstn_length, skipn_length, (proj1 S); lia|]. intros t v. now apply (nth_error_column field nx ny). }
  destruct (mapM F pos) as [out|e] eqn:E.
  - exists out. split; [reflexivity|]. apply mapM_ok_iff in E.
    assert (P : map fst out = map fst pos /\ forall i k p, nth_error pos i = Some (k, p) -> exists s, nth_error out i = Some (k, s) /\ F (k, p) = Ok (k, s)).
    { clear - E Q. assert (Q' : forall k p, In (k, p) pos -> exists s, F (k, p) = Ok (k, s)).
      { intros k p I. destruct (Q k p I) as (s & _ & _ & H & _). eauto. }
      clear Q. induction E as [|[k0 p0] y l l' Ey E IH]; [split; [reflexivity|]; intros [|i]; discriminate|].
      destruct (Q' k0 p0 ltac:(now left)) as [s0 E0]. rewrite E0 in Ey. injection Ey as <-.
      destruct IH as [IH1 IH2]; [intros; apply Q'; now right|]. split; [cbn [map fst]; congruence|].
      intros [|i] k p Hi; [injection Hi as <- <-; exists s0; auto|]. now apply IH2. }
    destruct P as [P1 P2]. split; [exact P1|]. intros i k p Hi. destruct (P2 i k p Hi) as (s & Ho & Es).
    destruct (Q k p (nth_error_In _ _ Hi)) as (s' & a & b & Es' & Fa & Fb & L & V). assert (s' = s) by congruence. subst s'.
    exists s, a, b. auto.
  - exfalso. assert (X : forall l e, (forall p, In p l -> In p pos) -> mapM F l <> Err e).
    { clear - Q. induction l as [|[k p] l IH]; intros e H; [discriminate|]. cbn [mapM]. destruct (Q k p) as (s & _ & _ & -> & _); [apply H; now left|].
      cbn [rbind]. destruct (mapM F l) as [ys|e'] eqn:El; [discriminate|]. exfalso. apply (IH e'); [intros; apply H; now right|reflexivity]. }
    exact (X pos e (fun p I => I) E).
Qed.

(*@ C114 Otherwise it stops with an error: IndexError if only the extent across the wind is a whole number of seconds, ValueError if only the extent along
    it is, one of the two if both are (a single sensor, for one). The generator's own errors are passed on *)
Lemma demo_fails : forall K (gen : nat * nat -> result (list (list fl))) (pos : list (K * (R * R))) spd dir t0 T loA hiA loB hiB nx ny,
  0 < spd -> (1 <= T)%nat -> ranges (along dir) pos loA hiA -> ranges (across dir) pos loB hiB ->
  covers nx ((hiA - loA) / spd + INR T) -> covers ny ((hiB - loB) / spd) ->
  (forall e, gen (nx, ny) = Err e -> clouds_demo gen pos spd dir (every_second t0 T) = Err e) /\
  (forall field, gen (nx, ny) = Ok field -> shaped nx ny field -> whole ((hiA - loA) / spd) \/ whole ((hiB - loB) / spd) ->
    exists e, clouds_demo gen pos spd dir (every_second t0 T) = Err e /\
      (e = IndexError /\ whole ((hiB - loB) / spd) \/ e = ValueError /\ whole ((hiA - loA) / spd))).
Proof.
  intros K gen pos spd dir t0 T loA hiA loB hiB nx ny Hs HT RA RB CX CY.
  rewrite (demo_eq gen pos spd dir t0 T loA hiA loB hiB nx ny) by auto. split; [intros e ->; reflexivity|].
  intros field G S W. rewrite G. cbn [rbind].
  set (F := fun p : K * (R * R) => let! s := sensor_series field ((hiA - loA) / spd) (INR T) (T + 1) ((along dir (snd p) - loA) / spd) ((across dir (snd p) - loB) / spd) in Ok (fst p, s)).
  pose proof (sensor_at pos spd dir T loA hiA loB hiB nx ny field Hs HT RA RB CX S) as At.
  assert (X : exists x e, In x pos /\ F x = Err e).
  { destruct W as [W|W].
    - pose proof RA as ((k & p & I & E) & _ & _). destruct (At k p I) as (a & b & Fa & Fb & Es). exists (k, p).
      destruct (nx_split pos spd dir T loA hiA nx Hs RA CX) as (m & M & Em). rewrite E in Fa. destruct (fits_ceil _ _ _ Fa M) as (_ & Q & _).
      assert (~ (a < m)%nat) by (intro L; apply Q in L; contradiction).
      unfold F. cbn [fst snd]. rewrite Es. destruct (Nat.leb_spec ny b); [eexists; split; [exact I|reflexivity]|].
      destruct (Nat.leb_spec (a + T + 1) nx); [lia|]. eexists; split; [exact I|reflexivity].
    - pose proof RB as (_ & (k & p & I & E) & _). destruct (At k p I) as (a & b & Fa & Fb & Es). exists (k, p).
      rewrite E in Fb. destruct (fits_ceil _ _ _ Fb CY) as (_ & Q & _). assert (~ (b < ny)%nat) by (intro L; apply Q in L; contradiction).
      unfold F. cbn [fst snd]. rewrite Es. destruct (Nat.leb_spec ny b); [|lia]. eexists; split; [exact I|reflexivity]. }
  destruct X as (x & e & I & E).
  apply (mapM_one_err F _ pos x e I E). intros [k p] e' I' E'. unfold F in E'. cbn [fst snd] in E'.
  destruct (At k p I') as (a & b & Fa & Fb & Es). rewrite Es in E'.
  destruct (Nat.leb_spec ny b) as [Lb|Lb].
  - injection E' as <-. left. split; [reflexivity|]. destruct (whole_dec ((hiB - loB) / spd)) as [Y|N]; [exact Y|].
    exfalso. pose proof (col_bound pos spd dir loB hiB ny Hs RB CY k p b I' Fb N). lia.
  - destruct (Nat.leb_spec (a + T + 1) nx) as [La|La]; [discriminate|]. injection E' as <-. right. split; [reflexivity|].
    destruct (whole_dec ((hiA - loA) / spd)) as [Y|N]; [exact Y|].
    exfalso. pose proof (row_bound pos spd dir T loA hiA nx Hs RA CX k p a I' Fa N). lia.
Qed.

(*@ C114 Downwind shows later: of two sensors in the same column of the field, the one further downwind records d samples later what the other records,
    where d is within one second of their along-wind separation over the speed, and equal to it if that is a whole number of seconds *)
Lemma demo_delay : forall K (gen : nat * nat -> result (list (list fl))) (pos : list (K * (R * R))) spd dir t0 T loA hiA loB hiB nx ny field out i j ku kd pu pd su sd b,
  0 < spd -> (1 <= T)%nat -> ranges (along dir) pos loA hiA -> ranges (across dir) pos loB hiB ->
  covers nx ((hiA - loA) / spd + INR T) -> covers ny ((hiB - loB) / spd) -> gen (nx, ny) = Ok field -> shaped nx ny field ->
  clouds_demo gen pos spd dir (every_second t0 T) = Ok out ->
  nth_error pos i = Some (ku, pu) -> nth_error pos j = Some (kd, pd) -> nth_error out i = Some (ku, su) -> nth_error out j = Some (kd, sd) ->
  fits b ((across dir pu - loB) / spd) -> fits b ((across dir pd - loB) / spd) -> along dir pu <= along dir pd ->
  exists d, Rabs (INR d - (along dir pd - along dir pu) / spd) < 1 /\ (whole ((along dir pd - along dir pu) / spd) -> INR d = (along dir pd - along dir pu) / spd) /\
    forall t, (t + d <= T)%nat -> nth_error sd (t + d) = nth_error su t /\ exists v, nth_error su t = Some v.
Proof.
  intros K gen pos spd dir t0 T loA hiA loB hiB nx ny field out i j ku kd pu pd su sd b Hs HT RA RB CX CY G S E Pi Pj Oi Oj Bu Bd Le.
  assert (WW : ~ whole ((hiA - loA) / spd) /\ ~ whole ((hiB - loB) / spd)).
  { destruct (demo_fails K gen pos spd dir t0 T loA hiA loB hiB nx ny Hs HT RA RB CX CY) as [_ Fl].
    split; intro W; destruct (Fl field G S ltac:(auto)) as (e & Er & _); congruence. }
  destruct WW as [WA WB].
  destruct (demo_reads K gen pos spd dir t0 T loA hiA loB hiB nx ny field Hs HT RA RB CX CY G S WA WB) as (out' & E' & _ & V).
  assert (out' = out) by congruence. subst out'.
  destruct (V i ku pu Pi) as (s1 & a1 & b1 & O1 & A1 & B1 & L1 & V1). destruct (V j kd pd Pj) as (s2 & a2 & b2 & O2 & A2 & B2 & L2 & V2).
  assert (s1 = su) by congruence. assert (s2 = sd) by congruence. subst s1 s2.
  assert (b1 = b) by (eapply fits_unique; eauto). assert (b2 = b) by (eapply fits_unique; eauto). subst b1 b2.
  pose proof (Rinv_0_lt_compat _ Hs) as Hi.
  assert (L : (a2 <= a1)%nat). { eapply fits_mono; [|exact A2|exact A1]. apply Rmult_le_compat_r; lra. }
  assert (Sep : (along dir pd - along dir pu) / spd = (hiA - along dir pu) / spd - (hiA - along dir pd) / spd) by (field; lra).
  exists (a1 - a2)%nat. destruct A1 as [X1 X2], A2 as [Y1 Y2]. rewrite minus_INR by auto. split; [|split].
  - rewrite Sep. apply Rabs_def1; lra.
  - intros [z Ez]. rewrite Sep in Ez. rewrite Sep, Ez. rewrite !INR_IZR_INZ, <- minus_IZR. f_equal.
    rewrite INR_IZR_INZ in X1, X2, Y1, Y2.
    assert (Q1 : IZR (Z.of_nat a1 - Z.of_nat a2) - 1 < IZR z) by (rewrite minus_IZR; lra).
    assert (Q2 : IZR z < IZR (Z.of_nat a1 - Z.of_nat a2) + 1) by (rewrite minus_IZR; lra).
    rewrite <- minus_IZR in Q1. rewrite <- plus_IZR in Q2. apply lt_IZR in Q1, Q2. lia.
  - intros t Ht. assert (Lt : (t < length su)%nat) by lia. apply nth_error_Some in Lt. destruct (nth_error su t) as [v|] eqn:Es; [|congruence].
    split; [|eauto]. apply V1 in Es. destruct Es as [_ C1]. apply V2. split; [lia|]. replace (a2 + (t + (a1 - a2)))%nat with (a1 + t)%nat by lia. exact C1.
Qed.

Lemma ranges_moved {K} f (pos : list (K * (R * R))) v c lo hi : (forall p, f (fst p + fst v, snd p + snd v) = f p + c) ->
  ranges f pos lo hi -> ranges f (moved v pos) (lo + c) (hi + c).
Proof.
  intros H ((k & p & I & E) & (k' & p' & I' & E') & B).
  assert (M : forall k p, In (k, p) pos -> In (k, (fst p + fst v, snd p + snd v)) (moved v pos)).
  { intros k0 p0 I0. apply in_map_iff. exists (k0, p0). auto. }
  split; [|split].
  - exists k. eexists. split; [apply M; exact I|]. now rewrite H, E.
  - exists k'. eexists. split; [apply M; exact I'|]. now rewrite H, E'.
  - intros k0 q Iq. apply in_map_iff in Iq. destruct Iq as ([k1 p1] & Eq & I1). cbn [fst snd] in Eq. injection Eq as <- <-. rewrite H. specialize (B _ _ I1). lra.
Qed.
Lemma ranges_ex {K} f (pos : list (K * (R * R))) : pos <> [] -> exists lo hi, ranges f pos lo hi.
Proof.
  intro N. exists (Rmin_of (map (fun p => f (snd p)) pos)), (Rmax_of (map (fun p => f (snd p)) pos)).
  assert (N' : map (fun p => f (snd p)) pos <> []) by (destruct pos; [contradiction|discriminate]).
  split; [|split].
  - pose proof (Rmin_of_in _ N') as I. apply in_map_iff in I. destruct I as ([k p] & E & I). eauto.
  - pose proof (Rmax_of_in _ N') as I. apply in_map_iff in I. destruct I as ([k p] & E & I). eauto.
  - intros k p I. assert (I' : In (f p) (map (fun p => f (snd p)) pos)) by (apply in_map_iff; exists (k, p); auto).
    split; [now apply Rmin_of_le|now apply Rmax_of_ge].
Qed.

(*@ C114 Only relative positions matter: moving every sensor by the same vector changes nothing *)
Lemma demo_moved : forall K (gen : nat * nat -> result (list (list fl))) (pos : list (K * (R * R))) spd dir t0 T v,
  0 < spd -> (1 <= T)%nat -> clouds_demo gen (moved v pos) spd dir (every_second t0 T) = clouds_demo gen pos spd dir (every_second t0 T).
Proof.
  intros K gen pos spd dir t0 T v Hs HT. destruct pos as [|p0 pos0] eqn:Ep; [reflexivity|]. rewrite <- Ep in *. assert (Np : pos <> []) by (subst; discriminate). clear Ep p0 pos0.
  destruct (ranges_ex (along dir) pos Np) as (loA & hiA & RA). destruct (ranges_ex (across dir) pos Np) as (loB & hiB & RB).
  assert (HA : forall p, along dir (fst p + fst v, snd p + snd v) = along dir p + along dir v) by (intro; unfold along; cbn [fst snd]; ring).
  assert (HB : forall p, across dir (fst p + fst v, snd p + snd v) = across dir p + across dir v) by (intro; unfold across; cbn [fst snd]; ring).
  pose proof (ranges_moved _ _ _ _ _ _ HA RA) as RA'. pose proof (ranges_moved _ _ _ _ _ _ HB RB) as RB'.
  pose proof (Rinv_0_lt_compat _ Hs) as Hi.
  assert (0 <= (hiA - loA) / spd). { destruct RA as ((k & p & I & E) & _ & B). specialize (B _ _ I). apply Rmult_le_pos; lra. }
  assert (0 <= (hiB - loB) / spd). { destruct RB as ((k & p & I & E) & _ & B). specialize (B _ _ I). apply Rmult_le_pos; lra. }
  destruct (covers_ex ((hiA - loA) / spd + INR T)) as [nx CX]; [pose proof (pos_INR T); lra|]. destruct (covers_ex ((hiB - loB) / spd)) as [ny CY]; [lra|].
  rewrite (demo_eq gen pos spd dir t0 T _ _ _ _ nx ny Hs HT RA RB CX CY).
  rewrite (demo_eq gen (moved v pos) spd dir t0 T _ _ _ _ nx ny Hs HT RA' RB').
  2: now replace (hiA + along dir v - (loA + along dir v)) with (hiA - loA) by ring.
  2: now replace (hiB + across dir v - (loB + across dir v)) with (hiB - loB) by ring.
  destruct (gen (nx, ny)) as [field|e]; [|reflexivity]. cbn [rbind]. unfold moved.
  clear - HA HB. induction pos as [|[k p] pos IH]; [reflexivity|]. cbn [map mapM fst snd]. rewrite HA, HB.
  replace (hiA + along dir v - (loA + along dir v)) with (hiA - loA) in * by ring.
  replace (along dir p + along dir v - (loA + along dir v)) with (along dir p - loA) by ring.
  replace (across dir p + across dir v - (loB + across dir v)) with (across dir p - loB) by ring. now rewrite IH.
Qed.

(*@ C114 Fewer than two times: IndexError. No sensor: ValueError *)
Lemma demo_refused : forall K (gen : nat * nat -> result (list (list fl))) (pos : list (K * (R * R))) spd dir twin,
  clouds_demo gen (@nil (K * (R * R))) spd dir twin = Err ValueError /\
  (pos <> [] -> (length twin < 2)%nat -> clouds_demo gen pos spd dir twin = Err IndexError).
Proof.
  intros K gen pos spd dir twin. split; [reflexivity|]. intros N L. unfold clouds_demo. destruct pos; [contradiction|].
  destruct (Nat.ltb_spec (length twin) 2); [reflexivity|lia].
Qed.

(*@ C114 The field generator of the package delivers the size asked for, so all this applies to it *)
Lemma demo_generator : forall rnd weights scales frac ktmean ktmax kt1pct nx ny field,
  cloudfield_timeseries rnd weights scales (nx, ny) frac ktmean ktmax kt1pct Original 3 = Ok field -> shaped nx ny field.
Proof.
  intros rnd weights scales frac ktmean ktmax kt1pct nx ny field E. apply field_clear_part in E. tauto.
Qed.

Definition demo_sensors : list (nat * (R * R)) := [(60%nat, (0, 0)); (70%nat, (3 / 2, 0)); (18%nat, (0, 3 / 2))].
Definition demo_rows (size : nat * nat) : result (list (list fl)) := Ok (build (fst size) (snd size) (fun i j => Fin (INR (10 * i + j)))).
(*@ex C114 Three sensors, wind to the east at 1 m/s, two seconds: extents of 1.5 s give a field of 4 rows and 2 columns. The sensor 1.5 m downwind is one second
    behind the one at the origin *)
Lemma demo_example : ranges (along 0) demo_sensors 0 (3 / 2) /\ ranges (across 0) demo_sensors 0 (3 / 2) /\
  covers 4 ((3 / 2 - 0) / 1 + INR 2) /\ covers 2 ((3 / 2 - 0) / 1) /\ ~ whole ((3 / 2 - 0) / 1) /\
  (exists field, demo_rows (4, 2)%nat = Ok field /\ shaped 4 2 field) /\
  clouds_demo demo_rows demo_sensors 1 0 (every_second 100 2) =
    Ok [(60%nat, [Fin (INR 10); Fin (INR 20); Fin (INR 30)]); (70%nat, [Fin (INR 0); Fin (INR 10); Fin (INR 20)]); (18%nat, [Fin (INR 11); Fin (INR 21); Fin (INR 31)])].
Proof.
  assert (A : ranges (along 0) demo_sensors 0 (3 / 2)).
  { unfold ranges, along. rewrite cos_0, sin_0. split; [|split].
    - exists 60%nat, (0, 0). split; [now left|cbn; ring].
    - exists 70%nat, (3 / 2, 0). split; [right; now left|cbn; field].
    - intros k p [E|[E|[E|[]]]]; injection E as <- <-; cbn [fst snd]; lra. }
  assert (B : ranges (across 0) demo_sensors 0 (3 / 2)).
  { unfold ranges, across. rewrite cos_0, sin_0. split; [|split].
    - exists 60%nat, (0, 0). split; [now left|cbn; ring].
    - exists 18%nat, (0, 3 / 2). split; [right; right; now left|cbn; field].
    - intros k p [E|[E|[E|[]]]]; injection E as <- <-; cbn [fst snd]; lra. }
  assert (C1 : covers 4 ((3 / 2 - 0) / 1 + INR 2)) by (unfold covers; cbn [INR]; lra).
  assert (C2 : covers 2 ((3 / 2 - 0) / 1)) by (unfold covers; cbn [INR]; lra).
  assert (W : ~ whole ((3 / 2 - 0) / 1)).
  { intros [z E]. assert (L1 : IZR 1 < IZR z) by lra. assert (L2 : IZR z < IZR 2) by lra. apply lt_IZR in L1, L2. lia. }
  assert (S : shaped 4 2 (build 4 2 (fun i j => Fin (INR (10 * i + j))))) by apply build_shaped.
  split; [exact A|]. split; [exact B|]. split; [exact C1|]. split; [exact C2|]. split; [exact W|].
  split; [eexists; split; [reflexivity|exact S]|].
  rewrite (demo_eq demo_rows demo_sensors 1 0 100 2 0 (3 / 2) 0 (3 / 2) 4 2) by (auto; try lra; lia).
  change (demo_rows (4%nat, 2%nat)) with (Ok (A := list (list fl)) (build 4 2 (fun i j => Fin (INR (10 * i + j))))). cbn [rbind].
  unfold demo_sensors, along, across. rewrite cos_0, sin_0. cbn [mapM fst snd].
  rewrite (sensor_ok 4 2 _ _ _ _ 2 1 0 S) by (try lia; unfold fits; cbn [INR]; lra).
  rewrite (sensor_ok 4 2 _ _ _ _ 2 0 0 S) by (try lia; unfold fits; cbn [INR]; lra).
  rewrite (sensor_ok 4 2 _ _ _ _ 2 1 1 S) by (try lia; unfold fits; cbn [INR]; lra).
  reflexivity.
Qed.
