(** Clear mask and cloud edges. *)
From Coq Require Import Permutation.
From Verif Require Import Prelude PreludeFacts RealBase Fl RealStat Spec_stats M_stats P_stats P_quantile P_list X_stats_err Spec_copula M_cloudfield Spec_cloudfield
  X_copula_down X_field_pos X_cloud_random.
Local Open Scope R_scope.

Lemma filter_perm {A} (f : A -> bool) l l' : Permutation l l' -> length (filter f l) = length (filter f l').
Proof. intro P. induction P as [|x l l' P IH|x y l|]; cbn; [easy| | |lia]; repeat (destruct (f _); cbn); lia. Qed.
Lemma filter_nth {A} (f : A -> bool) (d : A) l : length (filter f l) = length (filter (fun i => f (nth i l d)) (seq 0 (length l))).
Proof.
  induction l as [|x l IH]; [reflexivity|]. cbn [length seq filter]. rewrite <- seq_shift. change (nth 0 (x :: l) d) with x.
  assert (E : length (filter (fun i => f (nth i (x :: l) d)) (map S (seq 0 (length l)))) = length (filter f l)).
  { rewrite IH. generalize (seq 0 (length l)). intro k. induction k as [|a k IHk]; [reflexivity|]. cbn [map filter]. change (nth (S a) (x :: l) d) with (nth a l d). destruct (f (nth a l d)); cbn [length]; now rewrite IHk. }
  destruct (f x); cbn [length]; now rewrite E.
Qed.
Lemma sorted_strict (s : list R) : NoDup s -> (forall i j, (i <= j < length s)%nat -> nth i s 0 <= nth j s 0) ->
  forall i j, (i < j < length s)%nat -> nth i s 0 < nth j s 0.
Proof.
  intros N H i j Hij. destruct (H i j ltac:(lia)) as [Q|Q]; [easy|]. exfalso. rewrite NoDup_nth in N. specialize (N i j ltac:(lia) ltac:(lia) Q). lia.
Qed.

(** How many values do not exceed their q-quantile. *)
Lemma count_quantile q l : 0 <= q <= 1 -> l <> [] ->
  (INR (length l) - 1) * q < INR (length (filter (fun v => Rleb v (quantile q l)) l)) /\
  (NoDup l -> INR (length (filter (fun v => Rleb v (quantile q l)) l)) <= (INR (length l) - 1) * q + 1).
Proof.
  intros Hq Ne. destruct (quantile_is q l Hq Ne) as (_ & s & k & f & P & So & Ek & Hf & Ev). set (v := quantile q l) in *.
  rewrite (filter_perm _ l s P), (filter_nth _ 0 s). pose proof (Permutation_length P) as Lp. set (n := length s) in *.
  set (g := fun i => Rleb (nth i s 0) v). assert (Hn : (0 < n)%nat) by (rewrite <- Lp; destruct l; [easy|cbn; lia]).
  assert (Hk : (k < n)%nat).
  { apply INR_lt. assert (INR k <= INR (length l) - 1) by (rewrite Rmult_comm in Ek; pose proof (le_INR 1 (length l) ltac:(lia)); cbn in H; nra). rewrite Lp in H. lra. }
  assert (Sk : f <> 0 -> (S k < n)%nat).
  { intro Nf. apply INR_lt. rewrite S_INR. rewrite Lp in Ek. assert (0 <= INR n - 1) by (pose proof (le_INR 1 n ltac:(lia)); cbn in H; lra). assert (q * (INR n - 1) <= INR n - 1) by nra. assert (0 < f) by lra. lra. }
  assert (Vk : nth k s 0 <= v). { rewrite Ev. destruct (Req_dec f 0) as [->|Nf]; [lra|]. specialize (So k (S k) ltac:(split; [lia|now apply Sk])). nra. }
  assert (Mono : forall i j, (i <= j < n)%nat -> g j = true -> g i = true).
  { unfold g. intros i j Hij Hj. destruct (Rleb_spec (nth j s 0) v) as [Q|]; [|easy]. apply Rleb_true. specialize (So i j Hij). lra. }
  pose proof (filter_seq_le g n Mono) as C. set (c := length (filter g (seq 0 n))) in *.
  assert (Cn : (c <= n)%nat) by (unfold c; etransitivity; [apply filter_le_length|now rewrite seq_length]).
  assert (Ck : (k < c)%nat) by (apply C; [easy|]; unfold g; now apply Rleb_true). rewrite Rmult_comm, Ek. split.
  - assert (INR k + 1 <= INR c) by (rewrite <- S_INR; apply le_INR; lia). lra.
  - intro Nd. assert (Nds : NoDup s) by (eapply Permutation_NoDup; eauto). assert (c <= S k)%nat; [|apply le_INR in H; rewrite S_INR in H; lra].
    destruct (Nat.le_gt_cases c (S k)) as [Q|Q]; [easy|]. exfalso. assert (Hs : g (S k) = true) by (apply C; lia). unfold g in Hs. destruct (Rleb_spec (nth (S k) s 0) v) as [Z|]; [|easy].
    pose proof (sorted_strict s Nds So k (S k) ltac:(fold n; lia)). rewrite Ev in Z. nra.
Qed.

Lemma mask_form t field : map (map (fun v => if Rltb t v then 0 else 1)) field = map (map (below t)) field.
Proof. apply map_ext. intro row. apply map_ext. intro v. unfold below. destruct (Rltb_spec t v), (Rleb_spec v t); try reflexivity; lra. Qed.
Lemma Rsum_indicator {A} (f : A -> bool) l : Rsum (map (fun v => if f v then 1 else 0) l) = INR (length (filter f l)).
Proof. induction l as [|x l IH]; [reflexivity|]. cbn [map filter]. rewrite Rsum_cons, IH. destruct (f x); cbn [length]; [rewrite S_INR|]; ring. Qed.
Lemma mask_sum t field : Rsum (concat (map (map (below t)) field)) = INR (count (fun v => Rleb v t) field).
Proof. rewrite concat_map_map. unfold below, count. apply Rsum_indicator. Qed.
Lemma isclose_spec a b : isclose a b = true <-> Rabs (a - b) <= 1 / 100000000 + 1 / 1000 * Rabs b.
Proof. unfold isclose. destruct (Rleb_spec (Rabs (a - b)) (1 / 100000000 + 1 / 1000 * Rabs b)); split; try easy; lra. Qed.

Lemma n_pos {A} (field : list (list A)) : concat field <> [] -> 1 <= n_pixels field.
Proof. intro N. unfold n_pixels. apply (le_INR 1). destruct (concat field); [easy|cbn; lia]. Qed.

(*@ C72 The mask marks a lower level set of the field. With all values distinct it covers the requested fraction up to one pixel; with
    ties it never covers less. *)
Lemma mask_value : forall field q, 0 < q <= 1 -> concat field <> [] ->
  exists t, let clear := count (fun v => Rleb v t) field in
    (n_pixels field - 1) * q < INR clear /\
    (NoDup (concat field) -> INR clear <= (n_pixels field - 1) * q + 1) /\
    (Rabs (q - INR clear / n_pixels field) <= 1 / 100000000 + 1 / 1000 * (INR clear / n_pixels field) ->
       calc_clear_mask field q = Ok (map (map (below t)) field)) /\
    (1 / 100000000 + 1 / 1000 * (INR clear / n_pixels field) < Rabs (q - INR clear / n_pixels field) ->
       calc_clear_mask field q = Err AssertionError).
Proof.
  intros field q Hq Ne. exists (quantile q (concat field)). cbv zeta. set (t := quantile q (concat field)).
  destruct (count_quantile q (concat field) ltac:(lra) Ne) as [A B]. fold t in A, B. fold (count (fun v => Rleb v t) field) in A, B. fold (n_pixels field) in A, B.
  pose proof (n_pos field Ne) as N1. pose proof (pos_INR (count (fun v => Rleb v t) field)) as P. split; [exact A|]. split; [exact B|].
  assert (E : calc_clear_mask field q = if isclose q (INR (count (fun v => Rleb v t) field) / n_pixels field) then Ok (map (map (below t)) field) else Err AssertionError).
  { unfold calc_clear_mask. rewrite (Rltb_false 1 q), (Rltb_false q 0), (Reqb_false q 0) by lra. cbn [orb]. destruct (concat field) as [|x l] eqn:Ec; [easy|]. cbv zeta. rewrite mask_form, mask_sum. unfold n_pixels. rewrite Ec. reflexivity. }
  rewrite E. set (b := INR (count (fun v => Rleb v t) field) / n_pixels field). assert (Pb : 0 <= b) by (apply Rmult_le_pos; [easy|left; apply Rinv_0_lt_compat; lra]).
  split; intro H.
  - rewrite (proj2 (isclose_spec q b)); [reflexivity|]. now rewrite (Rabs_right b) by lra.
  - destruct (isclose q b) eqn:Ei; [|reflexivity]. apply isclose_spec in Ei. rewrite (Rabs_right b) in Ei by lra. lra.
Qed.

(*@ C72 Special requests: none clear, all clear, outside [0, 1], empty field. *)
Lemma mask_edge : forall field q,
  ((q < 0 \/ 1 < q) -> calc_clear_mask field q = Err ValueError) /\
  (concat field <> [] -> calc_clear_mask field 0 = Ok (map (map (fun _ => 0)) field)) /\
  (concat field <> [] -> calc_clear_mask field 1 = Ok (map (map (fun _ => 1)) field)) /\
  (concat field = [] -> 0 < q <= 1 -> calc_clear_mask field q = Err IndexError) /\
  (concat field = [] -> calc_clear_mask field 0 = Err AssertionError).
Proof.
  intros field q. split; [|split; [|split; [|split]]].
  - intros [H|H]; unfold calc_clear_mask; [rewrite (Rltb_true q 0) by easy; now rewrite orb_true_r|now rewrite (Rltb_true 1 q) by easy].
  - intro Ne. unfold calc_clear_mask. rewrite (Rltb_false 1 0), (Rltb_false 0 0), (Reqb_true 0 0) by lra. cbn [orb]. destruct (concat field) as [|x l] eqn:Ec; [easy|]. rewrite <- Ec.
    assert (E : Rsum (concat (map (map (fun _ : R => 0)) field)) = 0).
    { rewrite concat_map_map. generalize (concat field). intro k. induction k as [|y k IH]; [reflexivity|]. cbn [map]. rewrite Rsum_cons, IH. ring. }
    cbv zeta. rewrite E. rewrite (proj2 (isclose_spec _ _)); [reflexivity|]. unfold Rdiv. rewrite Rmult_0_l, Rminus_0_r, Rabs_R0. lra.
  - intro Ne. destruct (mask_value field 1 ltac:(lra) Ne) as (t & A & _ & B & _). cbv zeta in *. pose proof (n_pos field Ne) as N1.
    assert (Ec : INR (count (fun v => Rleb v t) field) = n_pixels field).
    { apply Rle_antisym; [apply le_INR; unfold count; apply filter_le_length|]. unfold n_pixels in *. apply le_INR. 
      assert (INR (length (concat field)) < INR (S (count (fun v => Rleb v t) field))) by (rewrite S_INR; lra). apply INR_lt in H. lia. }
    rewrite B.
    + f_equal. assert (All : forall v, In v (concat field) -> Rleb v t = true).
      { unfold count, n_pixels in Ec. apply INR_eq in Ec. intros v Iv. clear -Ec Iv. induction (concat field) as [|x l IH]; [easy|]. cbn [filter] in Ec. pose proof (filter_le_length (fun v => Rleb v t) l).
        destruct (Rleb x t) eqn:Ex; cbn [length] in Ec; [|lia]. destruct Iv as [<-|Iv]; [easy|]. apply IH; [lia|easy]. }
      apply map_ext_in. intros row Hr. apply map_ext_in. intros v Hv. unfold below. now rewrite All by (apply in_concat; exists row; easy).
    + rewrite Ec. replace (1 - n_pixels field / n_pixels field) with 0 by (field; lra). rewrite Rabs_R0. replace (n_pixels field / n_pixels field) with 1 by (field; lra). lra.
  - intros E Hq. unfold calc_clear_mask. rewrite (Rltb_false 1 q), (Rltb_false q 0), E, (Reqb_false q 0) by lra. reflexivity.
  - intros E. unfold calc_clear_mask. rewrite (Rltb_false 1 0), (Rltb_false 0 0), E, (Reqb_true 0 0) by lra. reflexivity.
Qed.

(*@ C72 With distinct values and a request of at least 1001 pixels the function always succeeds. *)
Lemma mask_succeeds : forall field q, 0 < q <= 1 -> NoDup (concat field) -> 1001 <= n_pixels field * q -> exists mask, calc_clear_mask field q = Ok mask.
Proof.
  intros field q Hq Nd Hn. assert (Ne : concat field <> []) by (intro E; unfold n_pixels in Hn; rewrite E in Hn; cbn in Hn; lra).
  destruct (mask_value field q Hq Ne) as (t & A & B & C & _). cbv zeta in *. specialize (B Nd). pose proof (n_pos field Ne) as N1. eexists. apply C. clear C.
  set (c := INR (count (fun v => Rleb v t) field)) in *. set (N := n_pixels field) in *. assert (Hc : 1000 <= c) by nra. assert (Hab : Rabs (c - N * q) <= 1) by (apply Rabs_le; nra).
  replace (q - c / N) with (- ((c - N * q) / N)) by (field; lra). rewrite Rabs_Ropp. unfold Rdiv at 1. rewrite Rabs_mult, (Rabs_right (/ N)) by (apply Rle_ge; left; apply Rinv_0_lt_compat; lra).
  assert (Hi : 0 < / N) by (apply Rinv_0_lt_compat; lra). apply Rle_trans with (1 * / N); [apply Rmult_le_compat_r; lra|].
  assert (1 * / N <= 1 / 1000 * (c / N)) by (unfold Rdiv; nra). lra.
Qed.

(*@ C72 Refuted: the final self-check rejects legitimate requests. Every field of at most ten million distinct values has a fraction it refuses,
    and a constant field is refused for every fraction strictly between 0 and 99 percent. *)
Lemma mask_selfcheck_refuted : forall field, concat field <> [] ->
  (NoDup (concat field) -> n_pixels field <= 10000000 -> exists q, 0 < q < 1 /\ calc_clear_mask field q = Err AssertionError) /\
  (forall c q, within c c field -> 0 < q < 99 / 100 -> calc_clear_mask field q = Err AssertionError).
Proof.
  intros field Ne. pose proof (n_pos field Ne) as N1. split.
  - intros Nd Hn. exists (1 / (2 * n_pixels field)). set (N := n_pixels field) in *. set (q := 1 / (2 * N)).
    assert (Hq : 0 < q < 1). { unfold q. split; [apply Rdiv_lt_0_compat; lra|]. apply (Rmult_lt_reg_r (2 * N)); [lra|]. replace (1 / (2 * N) * (2 * N)) with 1 by (field; lra). lra. }
    assert (Nq : N * q = 1 / 2) by (unfold q; field; lra). split; [easy|].
    destruct (mask_value field q ltac:(lra) Ne) as (t & A & B & _ & D). cbv zeta in *. specialize (B Nd). apply D. fold N in A, B |- *. clear D. set (c := count (fun v => Rleb v t) field) in *.
    assert (c = 1%nat). { assert (INR c <= 3 / 2) by nra.
      assert (0 < INR c) by nra. apply (INR_lt 0) in H0. assert (INR c < INR 2) by (cbn; lra). apply INR_lt in H1. lia. }
    rewrite H. cbn [INR]. replace (q - 1 / N) with (- (1 / (2 * N))) by (unfold q; field; lra). rewrite Rabs_Ropp, Rabs_right by (apply Rle_ge; left; apply Hq).
    apply (Rmult_lt_reg_r N); [lra|]. replace (1 / (2 * N) * N) with (1 / 2) by (field; lra). replace ((1 / 100000000 + 1 / 1000 * (1 / N)) * N) with (N / 100000000 + 1 / 1000) by (field; lra). lra.
  - intros c q W Hq. destruct (mask_value field q ltac:(lra) Ne) as (t & A & _ & _ & D). cbv zeta in *. apply D. clear D.
    assert (E : INR (count (fun v => Rleb v t) field) = n_pixels field).
    { unfold count, n_pixels. f_equal. assert (Hc : forall v, In v (concat field) -> v = c) by (intros v Iv; specialize (W v Iv); lra).
      destruct (filter (fun v => Rleb v t) (concat field)) as [|v l] eqn:Ef.
      - exfalso. unfold count in A. rewrite Ef in A. cbn in A. nra.
      - assert (Iv : In v (filter (fun v => Rleb v t) (concat field))) by (rewrite Ef; now left). apply filter_In in Iv. destruct Iv as [I1 I2]. rewrite <- Ef. f_equal. apply filter_all. intros x Ix. now rewrite (Hc x Ix), <- (Hc v I1). }
    rewrite E. replace (n_pixels field / n_pixels field) with 1 by (field; lra). rewrite Rabs_left by lra. lra.
Qed.
(*@ex C72 *)
Lemma mask_example : exists t, calc_clear_mask [[1; 2]; [3; 4]] (1 / 2) = Ok (map (map (below t)) [[1; 2]; [3; 4]]) /\ count (fun v => Rleb v t) [[1; 2]; [3; 4]] = 2%nat.
Proof.
  destruct (mask_value [[1; 2]; [3; 4]] (1 / 2)) as (t & A & B & C & _); [lra|easy|]. cbv zeta in *. exists t. set (c := count (fun v => Rleb v t) [[1; 2]; [3; 4]]) in *. clearbody c. unfold n_pixels in *. cbn [concat app length INR] in *.
  assert (Nd : NoDup [1; 2; 3; 4]) by (repeat constructor; cbn; intuition lra). specialize (B Nd).
  assert (Hc : c = 2%nat).
  { assert (L1 : INR 1 < INR c) by (cbn; lra). assert (L2 : INR c < INR 3) by (cbn; lra). apply INR_lt in L1, L2. lia. }
  split; [|easy]. apply C. rewrite Hc. cbn. replace (1 / 2 - (1 + 1) / (1 + 1 + 1 + 1)) with 0 by field. rewrite Rabs_R0. lra.
Qed.
