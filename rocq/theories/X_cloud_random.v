(** Interpolated random fields. *)
From Coq Require Import Sorted.
From Verif Require Import Prelude PreludeFacts RealBase Fl RealStat Spec_stats M_stats P_stats P_quantile P_list Spec_copula M_cloudfield Spec_cloudfield.
Local Open Scope R_scope.

(** ** Grids *)
Lemma linspace_length n : length (linspace01 n) = n.
Proof. unfold linspace01. now rewrite map_length, seq_length. Qed.
Lemma linspace_nth n i : (i < n)%nat -> nth i (linspace01 n) 0 = INR i / INR (n - 1).
Proof.
  intro H. unfold linspace01. apply nth_error_nth. rewrite nth_error_map, nth_error_seq by easy. reflexivity.
Qed.
Lemma linspace_nth_error n i : (i < n)%nat -> nth_error (linspace01 n) i = Some (INR i / INR (n - 1)).
Proof. intro H. unfold linspace01. now rewrite nth_error_map, nth_error_seq. Qed.

Lemma filter_seq_le (f : nat -> bool) n : (forall i j, (i <= j < n)%nat -> f j = true -> f i = true) ->
  forall i, (i < n)%nat -> (f i = true <-> (i < length (filter f (seq 0 n)))%nat).
Proof.
  induction n as [|n IH]; intros M i Hi; [lia|]. rewrite seq_S, filter_app, app_length. cbn [filter Nat.add].
  assert (M' : forall i j, (i <= j < n)%nat -> f j = true -> f i = true) by (intros a b Hab; apply M; lia).
  pose proof (IH M') as IH'. destruct (f n) eqn:En; cbn [length].
  - assert (A : forall j, (j <= n)%nat -> f j = true) by (intros j Hj; apply (M j n); [lia|easy]).
    assert (L : length (filter f (seq 0 n)) = n).
    { rewrite filter_all by (intros x Hx; apply in_seq in Hx; apply A; lia). apply seq_length. }
    rewrite L. split; [lia|]. intros _. apply A. lia.
  - rewrite Nat.add_0_r. destruct (Nat.eq_dec i n) as [->|N]; [|apply IH'; lia]. split; [congruence|]. intro H.
    assert (length (filter f (seq 0 n)) <= length (seq 0 n))%nat by apply filter_le_length. rewrite seq_length in H0. lia.
Qed.

Lemma grid_count n u j : (j < n)%nat -> (INR j / INR (n - 1) <= u <-> (j < length (filter (fun x => Rleb x u) (linspace01 n)))%nat).
Proof.
  intro Hj. set (f := fun i => Rleb (INR i / INR (n - 1)) u).
  assert (E : length (filter (fun x => Rleb x u) (linspace01 n)) = length (filter f (seq 0 n))).
  { unfold linspace01, f. generalize (seq 0 n). intro l. induction l as [|a l IH]; [reflexivity|]. cbn [map filter]. destruct (Rleb (INR a / INR (n - 1)) u); cbn [length]; now rewrite IH. }
  rewrite E, <- (filter_seq_le f n).
  - unfold f. destruct (Rleb_spec (INR j / INR (n - 1)) u); split; try easy.
  - unfold f. intros a b Hab Hb. destruct (Rleb_spec (INR b / INR (n - 1)) u) as [Q|]; [|easy]. apply Rleb_true. destruct (Nat.eq_dec a b) as [->|Nab]; [easy|].
    assert (INR a <= INR b) by (apply le_INR; lia). assert (0 < INR (n - 1)) by (apply (lt_INR 0); lia).
    apply Rle_trans with (INR b / INR (n - 1)); [|easy]. apply Rmult_le_compat_r; [left; now apply Rinv_0_lt_compat|easy].
  - easy.
Qed.

(** The chosen interval contains u. *)
Lemma grid_cell n u : (2 <= n)%nat -> 0 <= u <= 1 ->
  let i := grid_index (linspace01 n) u in let s := grid_frac (linspace01 n) u in
  (i + 1 < n)%nat /\ u * INR (n - 1) = INR i + s /\ 0 <= s <= 1.
Proof.
  intros Hn Hu i s. set (D := INR (n - 1)). assert (HD : 0 < D) by (unfold D; apply (lt_INR 0); lia).
  set (c := length (filter (fun x => Rleb x u) (linspace01 n))) in *.
  assert (Hi : i = Nat.min (c - 1) (n - 2)) by (unfold i, grid_index; now rewrite linspace_length).
  assert (Hc0 : (0 < c)%nat). { apply (grid_count n u 0); [lia|]. cbn. unfold Rdiv. rewrite Rmult_0_l. lra. }
  assert (Hcn : (c <= n)%nat) by (unfold c; etransitivity; [apply filter_le_length|now rewrite linspace_length]).
  assert (Hlt : (i + 1 < n)%nat) by lia. split; [easy|].
  assert (Hs : s = u * D - INR i).
  { unfold s, grid_frac. fold i. rewrite !linspace_nth by lia. fold D. rewrite plus_INR. cbn [INR]. field. split; [lra|]. lra. }
  split; [rewrite Hs; fold D; ring|].
  assert (A : INR i <= u * D).
  { assert (INR i / D <= u) by (apply (grid_count n u i); [lia|fold c; lia]). apply (Rmult_le_compat_r D) in H; [|lra]. replace (INR i / D * D) with (INR i) in H by (field; lra). easy. }
  assert (B : u * D <= INR i + 1).
  { destruct (Nat.eq_dec c n) as [E|E].
    - replace (INR i + 1) with D; [nra|]. unfold D. rewrite <- (S_INR i). f_equal. lia.
    - assert (N : ~ INR (i + 1) / D <= u). { intro Q. apply (grid_count n u (i + 1)) in Q; [|lia]. fold c in Q. lia. }
      rewrite plus_INR in N. cbn [INR] in N. apply Rnot_le_lt in N. apply (Rmult_lt_compat_r D) in N; [|easy]. replace ((INR i + 1) / D * D) with (INR i + 1) in N by (field; lra). lra. }
  lra.
Qed.
(** Any interval containing u gives the same interpolated value: two candidates differ only at a shared grid point. *)
Lemma grid_unique (f : nat -> R) (i i' : nat) s s' : INR i + s = INR i' + s' -> 0 <= s <= 1 -> 0 <= s' <= 1 ->
  blend s (f i) (f (i + 1)%nat) = blend s' (f i') (f (i' + 1)%nat).
Proof.
  intros E Hs Hs'. unfold blend. destruct (Nat.lt_trichotomy i i') as [H|[->|H]].
  - assert (INR i + 1 <= INR i') by (rewrite <- S_INR; apply le_INR; lia). assert (s = 1) by lra. assert (s' = 0) by lra. subst.
    assert (INR (i + 1) = INR i') by (rewrite plus_INR; cbn; lra). apply INR_eq in H1. subst i'. ring.
  - assert (s = s') by lra. now subst.
  - assert (INR i' + 1 <= INR i) by (rewrite <- S_INR; apply le_INR; lia). assert (s = 0) by lra. assert (s' = 1) by lra. subst.
    assert (INR i = INR (i' + 1)) by (rewrite plus_INR; cbn; lra). apply INR_eq in H1. subst i. ring.
Qed.

(** ** Tables *)
Lemma shaped_ncols {A} r c (m : list (list A)) : shaped r c m -> (0 < r)%nat -> n_cols m = c.
Proof. intros [L H] Hr. destruct m as [|x m]; [cbn in L; lia|]. apply H. now left. Qed.
Lemma shaped_cell {A} r c (m : list (list A)) i j : shaped r c m -> (i < r)%nat -> (j < c)%nat -> exists v, cell_at m i j v.
Proof.
  intros [L H] Hi Hj. destruct (nth_error m i) as [row|] eqn:E; [|apply nth_error_None in E; lia].
  destruct (nth_error row j) as [v|] eqn:Ev; [exists v, row; easy|]. apply nth_error_None in Ev. rewrite (H row) in Ev by (eapply nth_error_In; eauto). lia.
Qed.
Lemma cell_in {A} (m : list (list A)) i j v : cell_at m i j v -> In v (concat m).
Proof. intros (row & A1 & A2). apply in_concat. exists row. split; eapply nth_error_In; eauto. Qed.
Lemma cell_inv {A} (m : list (list A)) v : In v (concat m) -> exists i j, cell_at m i j v.
Proof. intro H. apply in_concat in H. destruct H as (row & A1 & A2). apply In_nth_error in A1, A2. destruct A1 as [i A1], A2 as [j A2]. exists i, j, row. easy. Qed.
Lemma cell_bounds {A} r c (m : list (list A)) i j v : shaped r c m -> cell_at m i j v -> (i < r)%nat /\ (j < c)%nat.
Proof.
  intros [L H] (row & A1 & A2). split; [rewrite <- L; apply nth_error_Some; congruence|]. rewrite <- (H row) by (eapply nth_error_In; eauto). apply nth_error_Some. congruence.
Qed.
Lemma cell_fun {A} (m : list (list A)) i j v v' : cell_at m i j v -> cell_at m i j v' -> v = v'.
Proof. intros (r & A1 & A2) (r' & B1 & B2). congruence. Qed.
Lemma cell_get2 m i j v : cell_at m i j v -> get2 m i j = v.
Proof. intros (row & A1 & A2). unfold get2. rewrite (nth_error_nth _ _ _ A1). now apply nth_error_nth. Qed.
Lemma get2_cell r c m i j : shaped r c m -> (i < r)%nat -> (j < c)%nat -> cell_at m i j (get2 m i j).
Proof. intros S Hi Hj. destruct (shaped_cell r c m i j S Hi Hj) as [v Hv]. now rewrite (cell_get2 m i j v Hv). Qed.
Lemma map_cell {A B} (f : A -> B) m i j v : cell_at (map (map f) m) i j v <-> exists w, cell_at m i j w /\ v = f w.
Proof.
  unfold cell_at. split.
  - intros (row & A1 & A2). rewrite nth_error_map in A1. destruct (nth_error m i) as [r0|] eqn:E; [|discriminate]. injection A1 as <-. rewrite nth_error_map in A2.
    destruct (nth_error r0 j) as [w|] eqn:Ew; [|discriminate]. injection A2 as <-. exists w. split; [exists r0; easy|easy].
  - intros (w & (r0 & E & Ew) & ->). exists (map f r0). rewrite !nth_error_map, E, Ew. easy.
Qed.
Lemma build_shaped {A} r c (f : nat -> nat -> A) : shaped r c (build r c f).
Proof. unfold build. split; [now rewrite map_length, seq_length|]. intros row H. apply in_map_iff in H. destruct H as (i & <- & _). now rewrite map_length, seq_length. Qed.
Lemma build_cell {A} r c (f : nat -> nat -> A) i j : (i < r)%nat -> (j < c)%nat -> cell_at (build r c f) i j (f i j).
Proof. intros Hi Hj. unfold build, cell_at. eexists. rewrite nth_error_map, nth_error_seq by easy. split; [reflexivity|]. now rewrite nth_error_map, nth_error_seq. Qed.

(** Repeating singleton dimensions. *)
Lemma repeat_shape {A} a b (m : list (list A)) : shaped a b m -> (0 < a)%nat -> (0 < b)%nat ->
  shaped (Nat.max a 2) (Nat.max b 2) (repeat_cols (repeat_rows m)) /\
  forall i j v, cell_at (repeat_cols (repeat_rows m)) i j v -> cell_at m (Nat.min i (a - 1)) (Nat.min j (b - 1)) v.
Proof.
  intros S Ha Hb.
  assert (R : shaped (Nat.max a 2) b (repeat_rows m) /\ forall i j v, cell_at (repeat_rows m) i j v -> cell_at m (Nat.min i (a - 1)) j v).
  { destruct S as [L H]. destruct m as [|r [|r2 m]]; cbn in L; [lia| |].
    - subst a. cbn. split; [split; [reflexivity|]; intros row [<-|[<-|[]]]; apply H; now left|]. intros i j v (row & A1 & A2). rewrite Nat.min_0_r. exists row. split; [|easy].
      destruct i as [|[|i]]; cbn in A1 |- *; [congruence|congruence|]. destruct i; discriminate.
    - unfold repeat_rows. split; [split; [cbn; lia|easy]|]. intros i j v Hc. destruct (cell_bounds a b (r :: r2 :: m) i j v (conj L H) Hc). now rewrite Nat.min_l by lia. }
  destruct R as [SR CR]. unfold repeat_cols. rewrite (shaped_ncols _ _ _ SR) by lia. destruct (Nat.eqb_spec b 1) as [->|Nb].
  - split.
    + destruct SR as [L H]. split; [now rewrite map_length|]. intros row Hr. apply in_map_iff in Hr. destruct Hr as (r0 & <- & I). specialize (H r0 I). destruct r0 as [|x [|]]; try discriminate. reflexivity.
    + intros i j v (row & A1 & A2). rewrite nth_error_map in A1. destruct (nth_error (repeat_rows m) i) as [r0|] eqn:E; [|discriminate]. injection A1 as <-.
      apply CR. exists r0. split; [easy|]. destruct SR as [_ H]. specialize (H r0 (nth_error_In _ _ E)). destruct r0 as [|x [|]]; try discriminate. rewrite Nat.min_0_r. destruct j as [|[|j]]; cbn in A2 |- *; [congruence|congruence|]. destruct j; discriminate.
  - replace (Nat.max b 2) with b by lia. split; [easy|]. intros i j v Hc. destruct (cell_bounds _ b _ i j v SR Hc). rewrite (Nat.min_l j) by lia. now apply CR.
Qed.

(** Size of a dimension after the repetition. *)
Definition dim (z : Z) : nat := Nat.max (Z.to_nat (Z.max z 1)) 2.

Section Random.
  Variable rnd : nat -> nat -> nat -> list (list R).
  Hypothesis G : generator rnd.
  Variable k : nat.
  Variables a b : Z.
  Variables n m : nat.
  Let out := random_at_scale rnd k (a, b) (n, m).

  Lemma coarse_shape : shaped (dim a) (dim b) (fst out).
  Proof. unfold out, random_at_scale, dim. cbn [fst snd]. apply repeat_shape; [apply G|lia|lia]. Qed.
  Lemma coarse_cells i j v : cell_at (fst out) i j v -> cell_at (rnd k (Z.to_nat (Z.max a 1)) (Z.to_nat (Z.max b 1)))
      (Nat.min i (Z.to_nat (Z.max a 1) - 1)) (Nat.min j (Z.to_nat (Z.max b 1) - 1)) v.
  Proof. unfold out, random_at_scale. cbn [fst snd]. apply repeat_shape; [apply G|lia|lia]. Qed.
  Lemma fine_shape : shaped n m (snd out).
  Proof.
    unfold out, random_at_scale. cbn [fst snd]. split; [now rewrite map_length, linspace_length|]. intros row H. apply in_map_iff in H. destruct H as (u & <- & _). now rewrite map_length, linspace_length.
  Qed.
  Lemma unit_pos p q : (p < q)%nat -> 0 <= INR p / INR (q - 1) <= 1.
  Proof.
    intro H. pose proof (pos_INR p) as P. destruct (Nat.eq_dec q 1) as [->|N].
    - assert (p = 0)%nat by lia. subst. cbn. unfold Rdiv. rewrite Rmult_0_l. lra.
    - assert (Hq : 0 < INR (q - 1)) by (apply (lt_INR 0); lia). assert (Hp : INR p <= INR (q - 1)) by (apply le_INR; lia).
      split; [apply Rmult_le_pos; [easy|left; now apply Rinv_0_lt_compat]|]. apply (Rmult_le_reg_r (INR (q - 1))); [easy|]. replace (INR p / INR (q - 1) * INR (q - 1)) with (INR p) by (field; lra). lra.
  Qed.
  Lemma fine_cell p q : (p < n)%nat -> (q < m)%nat -> forall i j s t,
    (i + 1 < dim a)%nat -> (j + 1 < dim b)%nat -> 0 <= s <= 1 -> 0 <= t <= 1 ->
    INR p / INR (n - 1) * INR (dim a - 1) = INR i + s -> INR q / INR (m - 1) * INR (dim b - 1) = INR j + t ->
    cell_at (snd out) p q (blend s (blend t (get2 (fst out) i j) (get2 (fst out) i (j + 1)))
                                   (blend t (get2 (fst out) (i + 1) j) (get2 (fst out) (i + 1) (j + 1)))).
  Proof.
    intros Hp Hq i j s t Hi Hj Hs Ht Es Et. pose proof coarse_shape as Sh. pose proof (shaped_ncols _ _ _ Sh ltac:(unfold dim; lia)) as NC.
    assert (LC : length (fst out) = dim a) by apply Sh.
    unfold cell_at. unfold out at 1, random_at_scale. cbn [fst snd]. eexists. rewrite nth_error_map, linspace_nth_error by easy. split; [reflexivity|].
    rewrite nth_error_map, linspace_nth_error by easy. cbn [option_map]. f_equal.
    change (bilinear (linspace01 (length (fst out))) (linspace01 (n_cols (fst out))) (fst out) (INR p / INR (n - 1)) (INR q / INR (m - 1)) = blend s (blend t (get2 (fst out) i j) (get2 (fst out) i (j + 1)))
                                   (blend t (get2 (fst out) (i + 1) j) (get2 (fst out) (i + 1) (j + 1)))).
    rewrite NC, LC. clearbody out. set (u := INR p / INR (n - 1)) in *. set (v := INR q / INR (m - 1)) in *.
    destruct (grid_cell (dim a) u ltac:(unfold dim; lia) (unit_pos p n Hp)) as (A1 & A2 & A3).
    destruct (grid_cell (dim b) v ltac:(unfold dim; lia) (unit_pos q m Hq)) as (B1 & B2 & B3). cbv zeta in *.
    unfold bilinear. set (i' := grid_index (linspace01 (dim a)) u) in *. set (s' := grid_frac (linspace01 (dim a)) u) in *.
    set (j' := grid_index (linspace01 (dim b)) v) in *. set (t' := grid_frac (linspace01 (dim b)) v) in *. set (M := fst out).
    transitivity (blend s' (blend t' (get2 M i' j') (get2 M i' (j' + 1))) (blend t' (get2 M (i' + 1) j') (get2 M (i' + 1) (j' + 1)))); [unfold blend; ring|].
    rewrite (grid_unique (fun x => blend t' (get2 M x j') (get2 M x (j' + 1))) i' i s' s) by (try easy; lra). cbv beta.
    rewrite (grid_unique (get2 M i) j' j t' t) by (try easy; lra). rewrite (grid_unique (get2 M (i + 1)) j' j t' t) by (try easy; lra). reflexivity.
  Qed.
End Random.

(*@ C69 Shapes, and where the coarse values come from: a single row or column is used twice. *)
Lemma random_shape : forall rnd k a b n m coarse fine, generator rnd -> random_at_scale rnd k (a, b) (n, m) = (coarse, fine) ->
  shaped n m fine /\ shaped (Nat.max (Z.to_nat a) 2) (Nat.max (Z.to_nat b) 2) coarse /\
  forall i j v, cell_at coarse i j v -> exists i' j', cell_at (rnd k (Nat.max (Z.to_nat a) 1) (Nat.max (Z.to_nat b) 1)) i' j' v /\
    (i' = i \/ (Z.to_nat a <= 1)%nat /\ i' = 0%nat) /\ (j' = j \/ (Z.to_nat b <= 1)%nat /\ j' = 0%nat).
Proof.
  intros rnd k a b n m co fi G E. pose proof (fine_shape rnd k a b n m) as F. pose proof (coarse_shape rnd G k a b n m) as C. pose proof (coarse_cells rnd G k a b n m) as V.
  rewrite E in F, C, V. cbn [fst snd] in *. split; [easy|]. unfold dim in *. replace (Nat.max (Z.to_nat a) 2) with (Nat.max (Z.to_nat (Z.max a 1)) 2) by lia. replace (Nat.max (Z.to_nat b) 2) with (Nat.max (Z.to_nat (Z.max b 1)) 2) by lia.
  split; [easy|]. intros i j v Hc. destruct (cell_bounds _ _ _ _ _ _ C Hc) as [B1 B2]. apply V in Hc. replace (Nat.max (Z.to_nat a) 1) with (Z.to_nat (Z.max a 1)) by lia. replace (Nat.max (Z.to_nat b) 1) with (Z.to_nat (Z.max b 1)) by lia.
  eexists _, _. split; [exact Hc|]. lia.
Qed.

(*@ C69 Every value of the field is the bilinear blend of the four coarse values around it. *)
Lemma random_value : forall rnd k a b n m coarse fine p q i j s t v00 v01 v10 v11, generator rnd -> random_at_scale rnd k (a, b) (n, m) = (coarse, fine) ->
  (p < n)%nat -> (q < m)%nat -> 0 <= s <= 1 -> 0 <= t <= 1 ->
  INR p / INR (n - 1) * INR (length coarse - 1) = INR i + s ->
  INR q / INR (m - 1) * INR (length (hd [] coarse) - 1) = INR j + t ->
  cell_at coarse i j v00 -> cell_at coarse i (j + 1) v01 -> cell_at coarse (i + 1) j v10 -> cell_at coarse (i + 1) (j + 1) v11 ->
  cell_at fine p q (blend s (blend t v00 v01) (blend t v10 v11)).
Proof.
  intros rnd k a b n m co fi p q i j s t v00 v01 v10 v11 G E Hp Hq Hs Ht Es Et C00 C01 C10 C11.
  pose proof (coarse_shape rnd G k a b n m) as C. pose proof (fine_cell rnd G k a b n m p q Hp Hq i j s t) as F. rewrite E in C, F. cbn [fst snd] in *.
  destruct (cell_bounds _ _ _ _ _ _ C C11) as [B1 B2]. pose proof (shaped_ncols _ _ _ C ltac:(unfold dim; lia)) as NC.
  replace (length (hd [] co)) with (dim b) in Et by (rewrite <- NC; destruct co; reflexivity). rewrite (proj1 C) in Es.
  rewrite (cell_get2 _ _ _ _ C00), (cell_get2 _ _ _ _ C01), (cell_get2 _ _ _ _ C10), (cell_get2 _ _ _ _ C11) in F. now apply F.
Qed.

(*@ C69 The field stays within the range of the coarse values, hence within [0, 1). *)
Lemma random_range : forall rnd k a b n m coarse fine, generator rnd -> random_at_scale rnd k (a, b) (n, m) = (coarse, fine) ->
  (forall lo hi, within lo hi coarse -> within lo hi fine) /\ (forall v, In v (concat fine) -> 0 <= v < 1).
Proof.
  intros rnd k a b n m co fi G E. pose proof (coarse_shape rnd G k a b n m) as C. pose proof (fine_shape rnd k a b n m) as Fs. pose proof (fine_cell rnd G k a b n m) as F. pose proof (coarse_cells rnd G k a b n m) as V.
  rewrite E in C, F, V, Fs. cbn [fst snd] in *.
  assert (Q : forall v, In v (concat fi) -> exists s t i j, 0 <= s <= 1 /\ 0 <= t <= 1 /\ (i + 1 < dim a)%nat /\ (j + 1 < dim b)%nat /\
     v = blend s (blend t (get2 co i j) (get2 co i (j + 1))) (blend t (get2 co (i + 1) j) (get2 co (i + 1) (j + 1)))).
  { intros v Iv. apply cell_inv in Iv. destruct Iv as (p & q & Hc). destruct (cell_bounds _ _ _ _ _ _ Fs Hc) as [Hp Hq].
    destruct (grid_cell (dim a) (INR p / INR (n - 1)) ltac:(unfold dim; lia) (unit_pos p n Hp)) as (A1 & A2 & A3).
    destruct (grid_cell (dim b) (INR q / INR (m - 1)) ltac:(unfold dim; lia) (unit_pos q m Hq)) as (B1 & B2 & B3).
    eexists _, _, _, _. split; [exact A3|]. split; [exact B3|]. split; [exact A1|]. split; [exact B1|]. eapply cell_fun; [exact Hc|]. now apply F. }
  assert (W : forall lo hi, within lo hi co -> within lo hi fi).
  { intros lo hi W v Iv. destruct (Q v Iv) as (s & t & i & j & Hs & Ht & Hi & Hj & ->).
    assert (Z : forall x y, (x < dim a)%nat -> (y < dim b)%nat -> lo <= get2 co x y <= hi) by (intros x y Hx Hy; apply W; eapply cell_in, get2_cell; eauto).
    pose proof (Z i j). pose proof (Z i (j + 1)%nat). pose proof (Z (i + 1)%nat j). pose proof (Z (i + 1)%nat (j + 1)%nat). unfold blend.
    assert (BB : forall r x y, 0 <= r <= 1 -> lo <= x <= hi -> lo <= y <= hi -> lo <= (1 - r) * x + r * y <= hi) by (intros; nra).
    apply BB; [easy| |]; apply BB; try easy; match goal with H : _ -> _ -> ?g |- ?g => apply H; lia end. }
  split; [exact W|]. intros v Iv.
  assert (P : forall x, In x (concat co) -> 0 <= x < 1) by (intros x Ix; apply cell_inv in Ix; destruct Ix as (i & j & Hx); apply V, cell_in in Hx; now apply G in Hx).
  assert (Nco : concat co <> []). { destruct (shaped_cell _ _ _ 0 0 C) as [w Hw]; [unfold dim; lia|unfold dim; lia|]. apply cell_in in Hw. intro X. now rewrite X in Hw. }
  specialize (W 0 (Rmax_of (concat co))). assert (W' : within 0 (Rmax_of (concat co)) fi).
  { apply W. intros x Ix. split; [now apply P|now apply Rmax_of_ge]. }
  specialize (W' v Iv). pose proof (P _ (Rmax_of_in _ Nco)). lra.
Qed.

(*@ C69 Corners of the field are corners of the coarse values. *)
Lemma random_corners : forall rnd k a b n m coarse fine p q i j v, generator rnd -> random_at_scale rnd k (a, b) (n, m) = (coarse, fine) ->
  (p < n)%nat -> (q < m)%nat ->
  (p = 0 /\ i = 0 \/ 0 < p /\ p = n - 1 /\ i = length coarse - 1)%nat -> (q = 0 /\ j = 0 \/ 0 < q /\ q = m - 1 /\ j = length (hd [] coarse) - 1)%nat ->
  cell_at coarse i j v -> cell_at fine p q v.
Proof.
  intros rnd k a b n m co fi p q i j v G E Hp Hq Hi Hj Hv. pose proof (coarse_shape rnd G k a b n m) as C. pose proof (fine_cell rnd G k a b n m p q Hp Hq) as F. rewrite E in C, F. cbn [fst snd] in *.
  pose proof (shaped_ncols _ _ _ C ltac:(unfold dim; lia)) as NC. replace (length (hd [] co)) with (dim b) in Hj by (rewrite <- NC; destruct co; reflexivity). rewrite (proj1 C) in Hi.
  assert (Da : (2 <= dim a)%nat) by (unfold dim; lia). assert (Db : (2 <= dim b)%nat) by (unfold dim; lia).
  assert (X : forall p n i d, (2 <= d)%nat -> (p < n)%nat -> (p = 0 /\ i = 0 \/ 0 < p /\ p = n - 1 /\ i = d - 1)%nat ->
            exists i' s, (i' + 1 < d)%nat /\ 0 <= s <= 1 /\ INR p / INR (n - 1) * INR (d - 1) = INR i' + s /\ ((s = 0 /\ i' = i) \/ (s = 1 /\ (i' + 1)%nat = i))).
  { clear. intros p n i d Hd Hp [[-> ->]|(P0 & -> & ->)].
    - exists 0%nat, 0. split; [lia|]. split; [lra|]. split; [cbn; unfold Rdiv; ring|]. now left.
    - exists (d - 2)%nat, 1. split; [lia|]. split; [lra|]. split; [|right; split; [easy|lia]]. assert (0 < INR (n - 1)) by (apply (lt_INR 0); lia).
      replace (d - 1)%nat with (S (d - 2)) by lia. rewrite S_INR. field. lra. }
  destruct (X p n i (dim a) Da Hp Hi) as (i' & s & I1 & I2 & I3 & I4). destruct (X q m j (dim b) Db Hq Hj) as (j' & t & J1 & J2 & J3 & J4).
  specialize (F i' j' s t I1 J1 I2 J2 I3 J3). rewrite <- (cell_get2 _ _ _ _ Hv). replace (get2 co i j) with (blend s (blend t (get2 co i' j') (get2 co i' (j' + 1))) (blend t (get2 co (i' + 1) j') (get2 co (i' + 1) (j' + 1)))); [easy|].
  unfold blend. destruct I4 as [[-> ->]|[-> ->]], J4 as [[-> ->]|[-> ->]]; ring.
Qed.
(*@ex C69 *)
Lemma random_example : exists rnd, generator rnd /\ forall coarse fine, random_at_scale rnd 0 (2, 1)%Z (3, 2)%nat = (coarse, fine) ->
  cell_at fine 1 1 (1 / 4) /\ shaped 2 2 coarse.
Proof.
  set (rnd := fun (k a b : nat) => build a b (fun i _ => match i with O => 1 / 2 | _ => 0 end)). assert (G : generator rnd).
  { intros k a b. split; [apply build_shaped|]. intros v Iv. apply cell_inv in Iv. destruct Iv as (i & j & Hc). destruct (cell_bounds _ _ _ _ _ _ (build_shaped a b _) Hc).
    rewrite (cell_fun _ _ _ _ _ Hc (build_cell a b _ i j H H0)). destruct i; lra. }
  exists rnd. split; [exact G|]. intros co fi E. assert (Eco : co = [[1 / 2; 1 / 2]; [0; 0]]) by (change co with (fst (co, fi)); rewrite <- E; reflexivity). subst co. split; [|split; [easy|]; intros row [<-|[<-|[]]]; easy].
  replace (1 / 4) with (blend (1 / 2) (blend 1 (1 / 2) (1 / 2)) (blend 1 0 0)) by (unfold blend; lra).
  apply (random_value rnd 0 2 1 3 2 [[1 / 2; 1 / 2]; [0; 0]] fi 1 1 0 0 (1 / 2) 1 (1 / 2) (1 / 2) 0 0 G E); try lia; try lra; try (cbn; lra); try (eexists; split; reflexivity).
Qed.
