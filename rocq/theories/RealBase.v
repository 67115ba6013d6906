(** Real-number vocabulary shared by the numeric models: boolean comparisons,
    finite sums, means, minima/maxima, first differences. These stand for numpy
    primitives (sum, mean, abs, max, min, diff) in exact arithmetic. *)
From Coq Require Export Reals Lra.
From Coq Require Import List Arith ZArith Lia Bool.
From Verif Require Import Prelude.
Import ListNotations.
Local Open Scope R_scope.

Definition Rleb (a b : R) : bool := if Rle_dec a b then true else false.
Definition Rltb (a b : R) : bool := if Rlt_dec a b then true else false.
Definition Reqb (a b : R) : bool := if Req_EM_T a b then true else false.

(** np.sum *)
Definition Rsum (l : list R) : R := fold_right Rplus 0 l.
(** np.mean of a non-empty list (the empty mean is NaN in numpy; callers guard) *)
Definition Rmean (l : list R) : R := Rsum l / INR (length l).
(** np.max / np.min of a non-empty list *)
Definition Rmaxl (d : R) (l : list R) : R := fold_left Rmax l d.
Definition Rminl (d : R) (l : list R) : R := fold_left Rmin l d.
Definition Rmax_of (l : list R) : R := match l with [] => 0 | x :: xs => Rmaxl x xs end.
Definition Rmin_of (l : list R) : R := match l with [] => 0 | x :: xs => Rminl x xs end.
(** np.diff *)
Fixpoint Rdiff (l : list R) : list R :=
  match l with
  | x :: ((y :: _) as t) => (y - x) :: Rdiff t
  | _ => []
  end.
(** element-wise binary operation on equally long lists *)
Definition map2 {A B C} (f : A -> B -> C) (l : list A) (l' : list B) : list C :=
  map (fun p => f (fst p) (snd p)) (combine l l').
(** sum_{i<n} f i *)
Definition Rsumn (n : nat) (f : nat -> R) : R := Rsum (map f (seq 0 n)).
(** population variance (np.var) and standard deviation *)
Definition Rvar (l : list R) : R := Rmean (map (fun x => (x - Rmean l) ^ 2) l).
Definition Rstd (l : list R) : R := sqrt (Rvar l).

(** ** Facts *)
Lemma Rleb_spec a b : reflect (a <= b) (Rleb a b).
Proof. unfold Rleb. destruct (Rle_dec a b); constructor; auto. Qed.
Lemma Rltb_spec a b : reflect (a < b) (Rltb a b).
Proof. unfold Rltb. destruct (Rlt_dec a b); constructor; auto. Qed.
Lemma Reqb_spec a b : reflect (a = b) (Reqb a b).
Proof. unfold Reqb. destruct (Req_EM_T a b); constructor; auto. Qed.

Lemma Rleb_true a b : a <= b -> Rleb a b = true.
Proof. destruct (Rleb_spec a b); auto; lra. Qed.
Lemma Rleb_false a b : b < a -> Rleb a b = false.
Proof. destruct (Rleb_spec a b); auto; lra. Qed.
Lemma Rltb_true a b : a < b -> Rltb a b = true.
Proof. destruct (Rltb_spec a b); auto; lra. Qed.
Lemma Rltb_false a b : b <= a -> Rltb a b = false.
Proof. destruct (Rltb_spec a b); auto; lra. Qed.
Lemma Reqb_true a b : a = b -> Reqb a b = true.
Proof. destruct (Reqb_spec a b); auto; congruence. Qed.
Lemma Reqb_false a b : a <> b -> Reqb a b = false.
Proof. destruct (Reqb_spec a b); auto; congruence. Qed.

Lemma Rsum_cons x l : Rsum (x :: l) = x + Rsum l.
Proof. reflexivity. Qed.

Lemma Rsum_nil : Rsum [] = 0.
Proof. reflexivity. Qed.

Lemma Rsum_app l l' : Rsum (l ++ l') = Rsum l + Rsum l'.
Proof. induction l as [|x xs IH]; cbn [app]; rewrite ?Rsum_cons, ?Rsum_nil, ?IH; lra. Qed.

Lemma Rsum_nonneg l : (forall x, In x l -> 0 <= x) -> 0 <= Rsum l.
Proof.
  induction l as [|x xs IH]; intro Hl; [cbn; lra|]. rewrite Rsum_cons.
  pose proof (Hl x (or_introl eq_refl)). assert (0 <= Rsum xs) by (apply IH; intros; apply Hl; now right). lra.
Qed.

Lemma Rsum_pos l : l <> [] -> (forall x, In x l -> 0 < x) -> 0 < Rsum l.
Proof.
  destruct l as [|x xs]; [easy|]. intros _ Hl. rewrite Rsum_cons.
  pose proof (Hl x (or_introl eq_refl)).
  assert (0 <= Rsum xs) by (apply Rsum_nonneg; intros y Hy; left; apply Hl; now right). lra.
Qed.

Lemma Rsum_zero_all l : (forall x, In x l -> 0 <= x) -> Rsum l = 0 -> forall x, In x l -> x = 0.
Proof.
  induction l as [|y ys IH]; intros Hl Hs x Hx; [easy|].
  rewrite Rsum_cons in Hs.
  pose proof (Hl y (or_introl eq_refl)).
  assert (Hn : 0 <= Rsum ys) by (apply Rsum_nonneg; intros; apply Hl; now right).
  destruct Hx as [<-|Hx]; [lra|]. apply IH; auto; [intros; apply Hl; now right|lra].
Qed.

Lemma Rsum_map_plus {A} (f g : A -> R) l : Rsum (map (fun x => f x + g x) l) = Rsum (map f l) + Rsum (map g l).
Proof. induction l as [|x xs IH]; cbn [map]; rewrite ?Rsum_cons, ?Rsum_nil; [lra|]. rewrite IH. lra. Qed.

Lemma Rsum_map_minus {A} (f g : A -> R) l : Rsum (map (fun x => f x - g x) l) = Rsum (map f l) - Rsum (map g l).
Proof. induction l as [|x xs IH]; cbn [map]; rewrite ?Rsum_cons, ?Rsum_nil; [lra|]. rewrite IH. lra. Qed.

Lemma Rsum_map_scal {A} c (f : A -> R) l : Rsum (map (fun x => c * f x) l) = c * Rsum (map f l).
Proof. induction l as [|x xs IH]; cbn [map]; rewrite ?Rsum_cons, ?Rsum_nil; [lra|]. rewrite IH. lra. Qed.

Lemma Rsum_map_scal_r {A} c (f : A -> R) l : Rsum (map (fun x => f x * c) l) = Rsum (map f l) * c.
Proof. induction l as [|x xs IH]; cbn [map]; rewrite ?Rsum_cons, ?Rsum_nil; [lra|]. rewrite IH. lra. Qed.

Lemma Rsum_map_const {A} c (l : list A) : Rsum (map (fun _ => c) l) = INR (length l) * c.
Proof.
  induction l as [|x xs IH]; cbn [map length]; rewrite ?Rsum_cons, ?Rsum_nil; [cbn; lra|].
  rewrite IH, S_INR. lra.
Qed.

Lemma Rsum_map_le {A} (f g : A -> R) l : (forall x, In x l -> f x <= g x) -> Rsum (map f l) <= Rsum (map g l).
Proof.
  induction l as [|x xs IH]; intro Hl; cbn [map]; rewrite ?Rsum_cons, ?Rsum_nil; [lra|].
  pose proof (Hl x (or_introl eq_refl)). assert (Rsum (map f xs) <= Rsum (map g xs)) by (apply IH; intros; apply Hl; now right). lra.
Qed.

Lemma Rsum_map_ext {A} (f g : A -> R) l : (forall x, In x l -> f x = g x) -> Rsum (map f l) = Rsum (map g l).
Proof. intro E. f_equal. now apply map_ext_in. Qed.

Lemma Rsum_abs l : Rabs (Rsum l) <= Rsum (map Rabs l).
Proof.
  induction l as [|x xs IH]; cbn [map]; rewrite ?Rsum_cons, ?Rsum_nil; [rewrite Rabs_R0; lra|].
  pose proof (Rabs_triang x (Rsum xs)). lra.
Qed.

From Coq Require Import Permutation.
Lemma Rsum_perm l l' : Permutation l l' -> Rsum l = Rsum l'.
Proof. induction 1; rewrite ?Rsum_cons; lra. Qed.

Lemma Rsum_map_perm {A} (f : A -> R) l l' : Permutation l l' -> Rsum (map f l) = Rsum (map f l').
Proof. intro HP. apply Rsum_perm. now apply Permutation_map. Qed.


(** Cauchy-Schwarz for indexed families. *)
Lemma Rsum_cauchy_schwarz {A} (f g : A -> R) l :
  (Rsum (map (fun x => f x * g x) l)) ^ 2 <= Rsum (map (fun x => f x ^ 2) l) * Rsum (map (fun x => g x ^ 2) l).
Proof.
  set (a := Rsum (map (fun x => f x ^ 2) l)). set (b := Rsum (map (fun x => f x * g x) l)).
  set (c := Rsum (map (fun x => g x ^ 2) l)).
  assert (Q : forall t, 0 <= a * t ^ 2 + 2 * b * t + c).
  { intro t. assert (E : a * t ^ 2 + 2 * b * t + c = Rsum (map (fun x => (t * f x + g x) ^ 2) l)).
    { unfold a, b, c. transitivity (Rsum (map (fun x => (t ^ 2 * f x ^ 2 + (2 * t) * (f x * g x)) + g x ^ 2) l)).
      - rewrite Rsum_map_plus, Rsum_map_plus, !Rsum_map_scal. lra.
      - apply Rsum_map_ext. intros. lra. }
    rewrite E. apply Rsum_nonneg. intros y Hy. apply in_map_iff in Hy. destruct Hy as [x [<- _]]. apply pow2_ge_0. }
  assert (Ha : 0 <= a) by (apply Rsum_nonneg; intros y Hy; apply in_map_iff in Hy; destruct Hy as [x [<- _]]; apply pow2_ge_0).
  destruct (Req_dec a 0) as [E0|N0].
  - assert (Hb : b = 0).
    { destruct (Req_dec b 0) as [|Nb]; [easy|]. exfalso.
      pose proof (Q (- (c + 1) / (2 * b))) as F. rewrite E0 in F.
      replace (0 * (- (c + 1) / (2 * b)) ^ 2 + 2 * b * (- (c + 1) / (2 * b)) + c) with (-1) in F by (field; lra). lra. }
    rewrite Hb, E0. lra.
  - pose proof (Q (- b / a)) as F.
    replace (a * (- b / a) ^ 2 + 2 * b * (- b / a) + c) with ((a * c - b ^ 2) / a) in F by (field; lra).
    assert (0 <= a * c - b ^ 2).
    { replace (a * c - b ^ 2) with ((a * c - b ^ 2) / a * a) by (field; lra). apply Rmult_le_pos; lra. }
    lra.
Qed.

(** Equality in Cauchy-Schwarz forces proportionality. *)

Lemma Rmaxl_ge_d d l : d <= Rmaxl d l.
Proof.
  revert d. induction l as [|x xs IH]; intro d; cbn; [lra|].
  eapply Rle_trans; [|apply IH]. apply Rmax_l.
Qed.
Lemma Rmaxl_ge d l x : In x l -> x <= Rmaxl d l.
Proof.
  revert d. induction l as [|y ys IH]; intros d Hx; [easy|]. cbn.
  destruct Hx as [<-|Hx]; [|now apply IH].
  eapply Rle_trans; [apply Rmax_r|]. apply Rmaxl_ge_d.
Qed.
Lemma Rmaxl_in d l : Rmaxl d l = d \/ In (Rmaxl d l) l.
Proof.
  revert d. induction l as [|y ys IH]; intros d; [now left|].
  change (Rmaxl d (y :: ys)) with (Rmaxl (Rmax d y) ys).
  destruct (IH (Rmax d y)) as [E|Hi]; [|now right; right].
  rewrite E. unfold Rmax. destruct (Rle_dec d y); [right; now left|now left].
Qed.
Lemma Rmax_of_ge l x : In x l -> x <= Rmax_of l.
Proof. destruct l as [|y ys]; [easy|]. intros [<-|Hx]; cbn; [apply Rmaxl_ge_d|now apply Rmaxl_ge]. Qed.
Lemma Rmax_of_in l : l <> [] -> In (Rmax_of l) l.
Proof. destruct l as [|y ys]; [easy|]. intros _. cbn. destruct (Rmaxl_in y ys) as [->|]; auto. Qed.
Lemma Rmax_of_unique l m : In m l -> (forall x, In x l -> x <= m) -> Rmax_of l = m.
Proof.
  intros Hi Hm. apply Rle_antisym; [|now apply Rmax_of_ge].
  apply Hm, Rmax_of_in. now intros ->.
Qed.

Lemma Rminl_le_d d l : Rminl d l <= d.
Proof.
  revert d. induction l as [|x xs IH]; intro d; cbn; [lra|].
  eapply Rle_trans; [apply IH|]. apply Rmin_l.
Qed.
Lemma Rminl_le d l x : In x l -> Rminl d l <= x.
Proof.
  revert d. induction l as [|y ys IH]; intros d Hx; [easy|]. cbn.
  destruct Hx as [<-|Hx]; [|now apply IH].
  eapply Rle_trans; [apply Rminl_le_d|]. apply Rmin_r.
Qed.
Lemma Rminl_in d l : Rminl d l = d \/ In (Rminl d l) l.
Proof.
  revert d. induction l as [|y ys IH]; intros d; [now left|].
  change (Rminl d (y :: ys)) with (Rminl (Rmin d y) ys).
  destruct (IH (Rmin d y)) as [E|Hi]; [|now right; right].
  rewrite E. unfold Rmin. destruct (Rle_dec d y); [now left|right; now left].
Qed.
Lemma Rmin_of_le l x : In x l -> Rmin_of l <= x.
Proof. destruct l as [|y ys]; [easy|]. intros [<-|Hx]; cbn; [apply Rminl_le_d|now apply Rminl_le]. Qed.
Lemma Rmin_of_in l : l <> [] -> In (Rmin_of l) l.
Proof. destruct l as [|y ys]; [easy|]. intros _. cbn. destruct (Rminl_in y ys) as [->|]; auto. Qed.
Lemma Rmin_of_unique l m : In m l -> (forall x, In x l -> m <= x) -> Rmin_of l = m.
Proof.
  intros Hi Hm. apply Rle_antisym; [now apply Rmin_of_le|].
  apply Hm, Rmin_of_in. now intros ->.
Qed.

Lemma Rmean_perm l l' : Permutation l l' -> Rmean l = Rmean l'.
Proof. intro HP. unfold Rmean. now rewrite (Rsum_perm _ _ HP), (Permutation_length HP). Qed.

Lemma INR_length_pos {A} (l : list A) : l <> [] -> 0 < INR (length l).
Proof. intro N. apply lt_0_INR. destruct l; [easy|cbn; lia]. Qed.

Lemma Rmean_scal c l : Rmean (map (fun x => c * x) l) = c * Rmean l.
Proof. unfold Rmean. rewrite Rsum_map_scal, map_id, map_length. unfold Rdiv. ring. Qed.

Lemma Rmean_const {A} c (l : list A) : l <> [] -> Rmean (map (fun _ => c) l) = c.
Proof.
  intro N. unfold Rmean. rewrite Rsum_map_const, map_length. pose proof (INR_length_pos l N). field. lra.
Qed.

Lemma Rmean_map_plus {A} (f g : A -> R) l : Rmean (map (fun x => f x + g x) l) = Rmean (map f l) + Rmean (map g l).
Proof. unfold Rmean. rewrite Rsum_map_plus, !map_length. unfold Rdiv. ring. Qed.
Lemma Rmean_map_minus {A} (f g : A -> R) l : Rmean (map (fun x => f x - g x) l) = Rmean (map f l) - Rmean (map g l).
Proof. unfold Rmean. rewrite Rsum_map_minus, !map_length. unfold Rdiv. ring. Qed.
Lemma Rmean_map_scal {A} c (f : A -> R) l : Rmean (map (fun x => c * f x) l) = c * Rmean (map f l).
Proof. unfold Rmean. rewrite Rsum_map_scal, !map_length. unfold Rdiv. ring. Qed.
Lemma Rmean_map_le {A} (f g : A -> R) l : (forall x, In x l -> f x <= g x) -> Rmean (map f l) <= Rmean (map g l).
Proof.
  intro Hl. destruct l as [|a l]; [cbn; unfold Rmean; cbn; lra|].
  unfold Rmean. rewrite !map_length. apply Rmult_le_compat_r.
  - left. apply Rinv_0_lt_compat, INR_length_pos. easy.
  - now apply Rsum_map_le.
Qed.
Lemma Rmean_nonneg l : (forall x, In x l -> 0 <= x) -> 0 <= Rmean l.
Proof.
  intro Hl. destruct l as [|a l]; [unfold Rmean; cbn; lra|].
  unfold Rmean. apply Rmult_le_pos; [now apply Rsum_nonneg|].
  left. apply Rinv_0_lt_compat, INR_length_pos. easy.
Qed.
Lemma Rmean_between l a b : l <> [] -> (forall x, In x l -> a <= x <= b) -> a <= Rmean l <= b.
Proof.
  intros N Hl.
  assert (E1 : Rmean (map (fun _ => a) l) = a) by now apply Rmean_const.
  assert (E2 : Rmean (map (fun _ => b) l) = b) by now apply Rmean_const.
  assert (E3 : Rmean (map (fun x => x) l) = Rmean l) by now rewrite map_id.
  split.
  - rewrite <- E1, <- E3. apply Rmean_map_le. intros x Hx. now apply Hl.
  - rewrite <- E2, <- E3. apply Rmean_map_le. intros x Hx. now apply Hl.
Qed.

Lemma map2_length {A B C} (f : A -> B -> C) l l' : length l = length l' -> length (map2 f l l') = length l.
Proof. intro E. unfold map2. rewrite map_length, combine_length. lia. Qed.

Lemma map2_nth {A B C} (f : A -> B -> C) l l' n a b c :
  (n < length l)%nat -> length l = length l' ->
  nth n (map2 f l l') c = f (nth n l a) (nth n l' b).
Proof.
  intros Hn E. unfold map2.
  rewrite (nth_indep _ c (f (fst (a, b)) (snd (a, b)))) by (rewrite map_length, combine_length; lia).
  rewrite (map_nth (fun p => f (fst p) (snd p))). now rewrite combine_nth.
Qed.

Lemma nth_error_map2 {A B C} (f : A -> B -> C) l l' n :
  nth_error (map2 f l l') n =
  match nth_error l n, nth_error l' n with Some a, Some b => Some (f a b) | _, _ => None end.
Proof.
  unfold map2. revert l' n. induction l as [|x xs IH]; intros [|y ys] [|n]; cbn; auto.
  destruct (nth_error xs n); auto.
Qed.

(** Indexed sums *)
Lemma Rsumn_S n f : Rsumn (S n) f = Rsumn n f + f n.
Proof. unfold Rsumn. rewrite seq_S, map_app, Rsum_app. cbn. lra. Qed.
Lemma Rsumn_0 f : Rsumn 0 f = 0.
Proof. reflexivity. Qed.
Lemma Rsumn_ext n f g : (forall i, (i < n)%nat -> f i = g i) -> Rsumn n f = Rsumn n g.
Proof. intro E. apply Rsum_map_ext. intros i Hi. apply in_seq in Hi. apply E. lia. Qed.
Lemma Rsumn_first n f : Rsumn (S n) f = f O + Rsumn n (fun i => f (S i)).
Proof. unfold Rsumn. cbn [seq map]. rewrite Rsum_cons, <- seq_shift, map_map. reflexivity. Qed.
Lemma Rsum_as_sumn l : Rsum l = Rsumn (length l) (fun i => nth i l 0).
Proof.
  induction l as [|x xs IH]; [reflexivity|]. cbn [length]. rewrite Rsumn_first, Rsum_cons. cbn. now rewrite IH.
Qed.
Lemma Rsumn_swap n m (f : nat -> nat -> R) : Rsumn n (fun i => Rsumn m (fun j => f i j)) = Rsumn m (fun j => Rsumn n (fun i => f i j)).
Proof.
  induction n as [|n IH].
  - cbn. unfold Rsumn. cbn. rewrite Rsum_map_const. lra.
  - rewrite Rsumn_S, IH. unfold Rsumn at 1 2 3. rewrite <- Rsum_map_plus. apply Rsum_map_ext. intros j _. now rewrite Rsumn_S.
Qed.
