(** Lemmas on windows and detrending. *)
From Coq Require Import String.
From Verif Require Import Prelude PreludeFacts RealBase Spec_window M_window P_signal P_welch.
From Coq Require Import Lra Psatz.
Local Open Scope R_scope.

Lemma Rsumn_plus n f g : Rsumn n (fun i => f i + g i) = Rsumn n f + Rsumn n g.
Proof. apply Rsum_map_plus. Qed.
Lemma Rsumn_minus n f g : Rsumn n (fun i => f i - g i) = Rsumn n f - Rsumn n g.
Proof. apply Rsum_map_minus. Qed.
Lemma Rsumn_const n c : Rsumn n (fun _ => c) = INR n * c.
Proof. unfold Rsumn. now rewrite Rsum_map_const, seq_length. Qed.
Lemma Rsumn_sq_zero n f : Rsumn n (fun i => f i ^ 2) = 0 -> forall i, (i < n)%nat -> f i = 0.
Proof.
  intros H i Hi. assert (Z : f i ^ 2 = 0).
  { apply (Rsum_zero_all (map (fun i => f i ^ 2) (seq 0 n))); [|exact H|].
    - intros v I. apply in_map_iff in I as (j & <- & _). apply pow2_ge_0.
    - apply (in_map (fun i => f i ^ 2)). apply in_seq. lia. }
  nra.
Qed.
Lemma with_line_length a b x : length (with_line a b x) = length x.
Proof. unfold with_line. now rewrite map_length, seq_length. Qed.
Lemma with_line_nth a b x i : (i < length x)%nat -> nth i (with_line a b x) 0 = nth i x 0 + (a + b * INR i).
Proof. intro H. unfold with_line. now rewrite nth_map_seq. Qed.
Lemma list_eq_nth (x y : list R) : length x = length y -> (forall i, (i < length x)%nat -> nth i x 0 = nth i y 0) -> x = y.
Proof. intros L H. apply (nth_ext _ _ 0 0); auto. Qed.

(** the centred positions *)
Definition tmean (n : nat) : R := Rmean (map INR (seq 0 n)).
Definition dev (n i : nat) : R := INR i - tmean n.
Lemma dev_sum n : Rsumn n (dev n) = 0.
Proof.
  unfold dev. rewrite Rsumn_minus, Rsumn_const. unfold tmean, Rmean. rewrite map_length, seq_length. fold (Rsumn n INR).
  destruct n; [rewrite Rsumn_0; cbn; lra|]. field. apply not_0_INR. discriminate.
Qed.
Lemma mean_dev x : Rsumn (length x) (fun i => nth i x 0 - Rmean x) = 0.
Proof.
  rewrite Rsumn_minus, Rsumn_const, <- Rsum_as_sumn. unfold Rmean. destruct x; [cbn; lra|]. field. apply not_0_INR. discriminate.
Qed.
Lemma minus_line_length x : length (minus_line x) = length x.
Proof. unfold minus_line. rewrite map2_length; now rewrite map_length, seq_length. Qed.
Lemma minus_mean_length x : length (minus_mean x) = length x.
Proof. apply map_length. Qed.
Lemma slope_eq x : slope_of x = Rsumn (length x) (fun i => dev (length x) i * (nth i x 0 - Rmean x)) / Rsumn (length x) (fun i => dev (length x) i ^ 2).
Proof.
  unfold slope_of. fold (tmean (length x)). f_equal.
  - rewrite Rsum_as_sumn, map2_length by (now rewrite map_length, seq_length). rewrite map_length, seq_length. apply Rsumn_ext. intros i Hi.
    rewrite (map2_nth _ _ _ _ 0 0) by (rewrite ?map_length, ?seq_length; lia). rewrite nth_map_seq by exact Hi. reflexivity.
  - f_equal. now rewrite map_map.
Qed.
Lemma minus_line_nth x i : (i < length x)%nat -> nth i (minus_line x) 0 = nth i x 0 - Rmean x - slope_of x * dev (length x) i.
Proof.
  intro H. unfold minus_line. rewrite (map2_nth _ _ _ _ 0 0) by (rewrite ?map_length, ?seq_length; lia). rewrite nth_map_seq by exact H.
  unfold dev, tmean. ring.
Qed.
Lemma minus_mean_nth x i : (i < length x)%nat -> nth i (minus_mean x) 0 = nth i x 0 - Rmean x.
Proof. intro H. unfold minus_mean. rewrite (nth_indep _ 0 (0 - Rmean x)) by (now rewrite map_length). apply (map_nth (fun v => v - Rmean x)). Qed.
Lemma minus_mean_off x : off_mean x (minus_mean x).
Proof.
  split.
  - exists (Rmean x). apply list_eq_nth; [now rewrite with_line_length, minus_mean_length|]. intros i Hi.
    rewrite with_line_nth by (now rewrite minus_mean_length). rewrite minus_mean_nth by exact Hi. ring.
  - rewrite Rsum_as_sumn, minus_mean_length. rewrite (Rsumn_ext _ _ (fun i => nth i x 0 - Rmean x)); [apply mean_dev|]. intros i Hi. now apply minus_mean_nth.
Qed.
Lemma minus_line_off x : off_line x (minus_line x).
Proof.
  set (n := length x). assert (S0 : Rsumn n (fun i => nth i (minus_line x) 0) = 0).
  { rewrite (Rsumn_ext _ _ (fun i => (nth i x 0 - Rmean x) - slope_of x * dev n i)) by (intros i Hi; now apply minus_line_nth).
    rewrite Rsumn_minus, Rsumn_scal, dev_sum. unfold n. rewrite mean_dev. ring. }
  split; [|split].
  - exists (Rmean x - slope_of x * tmean n), (slope_of x). apply list_eq_nth; [now rewrite with_line_length, minus_line_length|]. intros i Hi.
    rewrite with_line_nth by (now rewrite minus_line_length). rewrite minus_line_nth by exact Hi. unfold dev. fold n. ring.
  - rewrite Rsum_as_sumn, minus_line_length. exact S0.
  - rewrite minus_line_length. fold n. change (Rsumn n (fun i => INR i * nth i (minus_line x) 0) = 0).
    transitivity (Rsumn n (fun i => dev n i * (nth i x 0 - Rmean x) - slope_of x * dev n i ^ 2)).
    + transitivity (Rsumn n (fun i => dev n i * nth i (minus_line x) 0) + tmean n * Rsumn n (fun i => nth i (minus_line x) 0)).
      * rewrite <- Rsumn_scal, <- Rsumn_plus. apply Rsumn_ext. intros i Hi. unfold dev. ring.
      * rewrite S0, Rmult_0_r, Rplus_0_r. apply Rsumn_ext. intros i Hi. rewrite minus_line_nth by exact Hi. fold n. ring.
    + rewrite Rsumn_minus, Rsumn_scal, slope_eq. fold n. destruct (Req_dec (Rsumn n (fun i => dev n i ^ 2)) 0) as [Z|Nz]; [|field; exact Nz].
      rewrite Z, Rmult_0_r, (Rsumn_ext n _ (fun _ => 0)).
      * rewrite Rsumn_const. ring.
      * intros i Hi. rewrite (Rsumn_sq_zero _ _ Z i Hi). ring.
Qed.
Lemma off_line_unique x r r' : off_line x r -> off_line x r' -> r = r'.
Proof.
  intros ((a & b & E) & S0 & S1) ((a' & b' & E') & S0' & S1').
  assert (L : length r = length x) by (rewrite E; now rewrite with_line_length).
  assert (L' : length r' = length x) by (rewrite E'; now rewrite with_line_length).
  set (n := length x) in *. rewrite Rsum_as_sumn, L in S0. rewrite Rsum_as_sumn, L' in S0'. rewrite L in S1. rewrite L' in S1'.
  change (Rsumn n (fun i => INR i * nth i r 0) = 0) in S1. change (Rsumn n (fun i => INR i * nth i r' 0) = 0) in S1'.
  assert (P : forall i, (i < n)%nat -> nth i r 0 - nth i r' 0 = (a' - a) + (b' - b) * INR i).
  { intros i Hi. assert (Q : nth i (with_line a b r) 0 = nth i (with_line a' b' r') 0) by (rewrite <- E, <- E'; reflexivity).
    rewrite !with_line_nth in Q by lia. lra. }
  assert (Q : Rsumn n (fun i => (nth i r 0 - nth i r' 0) ^ 2) = 0).
  { transitivity (Rsumn n (fun i => (a' - a) * (nth i r 0 - nth i r' 0) + (b' - b) * (INR i * nth i r 0 - INR i * nth i r' 0))).
    - apply Rsumn_ext. intros i Hi. transitivity ((nth i r 0 - nth i r' 0) * (nth i r 0 - nth i r' 0)); [ring|]. rewrite (P i Hi) at 1. ring.
    - rewrite Rsumn_plus, !Rsumn_scal, !Rsumn_minus, S0, S0', S1, S1'. ring. }
  apply list_eq_nth; [lia|]. intros i Hi. rewrite L in Hi. pose proof (Rsumn_sq_zero n _ Q i Hi). cbn beta in *. lra.
Qed.
Lemma with_line_twice a b a' b' x : with_line a b (with_line a' b' x) = with_line (a + a') (b + b') x.
Proof.
  apply list_eq_nth; [now rewrite !with_line_length|]. intros i Hi. rewrite !with_line_length in Hi. rewrite !with_line_nth by (rewrite ?with_line_length; exact Hi). ring.
Qed.
Lemma minus_line_with_line a b x : minus_line (with_line a b x) = minus_line x.
Proof.
  apply (off_line_unique (with_line a b x)); [apply minus_line_off|]. destruct (minus_line_off x) as ((a' & b' & E) & S). split; [|exact S].
  exists (a + a'), (b + b'). now rewrite <- with_line_twice, <- E.
Qed.
Lemma off_mean_unique x r r' : off_mean x r -> off_mean x r' -> r = r'.
Proof.
  intros ((a & E) & S0) ((a' & E') & S0').
  assert (L : length r = length x) by (rewrite E; now rewrite with_line_length).
  assert (L' : length r' = length x) by (rewrite E'; now rewrite with_line_length).
  set (n := length x) in *. rewrite Rsum_as_sumn, L in S0. rewrite Rsum_as_sumn, L' in S0'.
  assert (P : forall i, (i < n)%nat -> nth i r 0 - nth i r' 0 = a' - a).
  { intros i Hi. assert (Q : nth i (with_line a 0 r) 0 = nth i (with_line a' 0 r') 0) by (rewrite <- E, <- E'; reflexivity).
    rewrite !with_line_nth in Q by lia. lra. }
  assert (Q : Rsumn n (fun i => (nth i r 0 - nth i r' 0) ^ 2) = 0).
  { transitivity (Rsumn n (fun i => (a' - a) * (nth i r 0 - nth i r' 0))).
    - apply Rsumn_ext. intros i Hi. transitivity ((nth i r 0 - nth i r' 0) * (nth i r 0 - nth i r' 0)); [ring|]. now rewrite (P i Hi) at 1.
    - rewrite Rsumn_scal, !Rsumn_minus, S0, S0'. ring. }
  apply list_eq_nth; [lia|]. intros i Hi. rewrite L in Hi. pose proof (Rsumn_sq_zero n _ Q i Hi). cbn beta in *. lra.
Qed.
Lemma minus_mean_with_line a x : minus_mean (with_line a 0 x) = minus_mean x.
Proof.
  apply (off_mean_unique (with_line a 0 x)); [apply minus_mean_off|]. destruct (minus_mean_off x) as ((a' & E) & S). split; [|exact S].
  exists (a + a'). rewrite <- (Rplus_0_l 0) at 2. now rewrite <- with_line_twice, <- E.
Qed.
Lemma sq_size_sumn x : sq_size x = Rsumn (length x) (fun i => nth i x 0 ^ 2).
Proof.
  unfold sq_size. rewrite Rsum_as_sumn, map_length. apply Rsumn_ext. intros i Hi. rewrite (nth_indep _ 0 (0 ^ 2)) by (now rewrite map_length). apply (map_nth (fun v => v ^ 2)).
Qed.
Lemma pythagoras a b r : Rsum r = 0 -> Rsum (map (fun i => INR i * nth i r 0) (seq 0 (length r))) = 0 ->
  sq_size (with_line a b r) = sq_size r + Rsumn (length r) (fun i => (a + b * INR i) ^ 2).
Proof.
  intros S0 S1. rewrite !sq_size_sumn, with_line_length. set (n := length r) in *. rewrite Rsum_as_sumn in S0. fold n in S0. change (Rsumn n (fun i => INR i * nth i r 0) = 0) in S1.
  transitivity (Rsumn n (fun i => (nth i r 0 ^ 2 + (a + b * INR i) ^ 2) + (2 * a * nth i r 0 + 2 * b * (INR i * nth i r 0)))).
  - apply Rsumn_ext. intros i Hi. rewrite with_line_nth by exact Hi. ring.
  - rewrite !Rsumn_plus, !Rsumn_scal, S0, S1. ring.
Qed.
Lemma slice_with_line a b x s N : firstn N (skipn s (with_line a b x)) = with_line (a + b * INR s) b (firstn N (skipn s x)).
Proof.
  apply list_eq_nth; [rewrite with_line_length, !firstn_length, !skipn_length, with_line_length; reflexivity|]. intros i Hi.
  rewrite firstn_length, skipn_length, with_line_length in Hi.
  assert (F : forall (l : list R), nth i (firstn N (skipn s l)) 0 = nth (s + i) l 0).
  { intro l. assert (iN : (i < N)%nat) by lia. clear Hi. revert l. assert (G : forall (l : list R), nth i (skipn s l) 0 = nth (s + i) l 0).
    { induction s as [|s IH]; intro l; [reflexivity|]. destruct l; [cbn; now destruct i|]. cbn. apply IH. }
    intro l. rewrite <- G. generalize (skipn s l). intro m. revert m i iN G. clear. induction N as [|N IH]; intros m i iN G; [lia|]. destruct m; [reflexivity|].
    destruct i; [reflexivity|]. cbn. apply IH; [lia|]. intro l. clear. revert l. induction s as [|s IH]; intro l; [reflexivity|]. destruct l; [cbn; now destruct i|]. cbn. apply IH. }
  rewrite F, with_line_nth by lia. rewrite with_line_nth by (rewrite firstn_length, skipn_length; lia). rewrite F, plus_INR. ring.
Qed.
