(** numpy reductions on lists of reals: sorting, linear-interpolation percentile, median,
    NaN-skipping mean/max/std. They model numpy primitives, not repository functions. *)
From Coq Require Import Sorted Permutation.
From Verif Require Export Prelude PreludeFacts RealBase Fl.
Local Open Scope R_scope.

Definition rsort (l : list R) : list R := sort_by Rleb l.

(** floor of a non-negative real as a nat *)
Definition Rfloor (x : R) : nat := Z.to_nat (Int_part x).

(** numpy.percentile(l, 100*q), method='linear', on a non-empty list. *)
Definition quantile (q : R) (l : list R) : R :=
  let s := rsort l in
  let h := q * INR (length l - 1) in
  let lo := Rfloor h in
  let a := nth lo s 0 in
  let b := nth (Nat.min (lo + 1) (length l - 1)) s 0 in
  a + (h - INR lo) * (b - a).

(** numpy.median on a non-empty list. *)
Definition median (l : list R) : R :=
  let s := rsort l in
  let n := length l in
  if Nat.even n then (nth (n / 2 - 1) s 0 + nth (n / 2) s 0) / 2 else nth (n / 2) s 0.

(** nan-skipping reductions over optional cells ([None] = NaN); NaN when nothing is left. *)
Definition present {A} (l : list (option A)) : list A :=
  flat_map (fun o => match o with Some x => [x] | None => [] end) l.
Definition nan_reduce (f : list R -> R) (l : list R) : fl :=
  match l with [] => Nan | _ => Fin (f l) end.
Definition nanmean (l : list (option R)) : fl := nan_reduce Rmean (present l).
Definition nanmax (l : list (option R)) : fl := nan_reduce Rmax_of (present l).
Definition nanstd (l : list (option R)) : fl := nan_reduce Rstd (present l).

(** ** Facts *)
Lemma rsort_perm l : Permutation l (rsort l).
Proof. apply sort_by_perm. Qed.
Lemma rsort_length l : length (rsort l) = length l.
Proof. symmetry. apply Permutation_length, rsort_perm. Qed.

Lemma Rleb_total a b : Rleb a b = true \/ Rleb b a = true.
Proof. destruct (Rle_or_lt a b); [left|right]; apply Rleb_true; lra. Qed.
Lemma Rleb_trans a b c : Rleb a b = true -> Rleb b c = true -> Rleb a c = true.
Proof. destruct (Rleb_spec a b), (Rleb_spec b c); try easy. intros _ _. apply Rleb_true. lra. Qed.

Lemma rsort_sorted l : StronglySorted (fun a b => Rleb a b = true) (rsort l).
Proof. apply sort_by_sorted; [apply Rleb_total|apply Rleb_trans]. Qed.

Lemma rsort_nth_le l i j : (i <= j)%nat -> (j < length l)%nat -> nth i (rsort l) 0 <= nth j (rsort l) 0.
Proof.
  intros Hij Hj. rewrite <- (rsort_length l) in Hj. pose proof (rsort_sorted l) as S.
  revert i j Hij Hj. induction S as [|a s S IH F]; intros i j Hij Hj; [cbn in Hj; lia|].
  destruct i as [|i], j as [|j]; cbn [nth]; try lra; try lia.
  - rewrite Forall_forall in F. assert (In (nth j s 0) s) by (apply nth_In; cbn in Hj; lia).
    specialize (F _ H). destruct (Rleb_spec a (nth j s 0)); easy.
  - apply IH; cbn in *; lia.
Qed.

Lemma rsort_nth_in l i : (i < length l)%nat -> In (nth i (rsort l) 0) l.
Proof.
  intro H. apply (Permutation_in _ (Permutation_sym (rsort_perm l))). apply nth_In. now rewrite rsort_length.
Qed.

Lemma Rfloor_spec x : 0 <= x -> INR (Rfloor x) <= x < INR (Rfloor x) + 1.
Proof.
  intro H. unfold Rfloor. destruct (base_Int_part x) as [A B].
  assert (0 <= Int_part x)%Z by (enough (-1 < Int_part x)%Z by lia; apply lt_IZR; lra).
  rewrite INR_IZR_INZ, Z2Nat.id by easy. lra.
Qed.

Lemma quantile_index q n : 0 <= q <= 1 -> (0 < n)%nat -> (Rfloor (q * INR (n - 1)) < n)%nat.
Proof.
  intros Hq Hn. pose proof (pos_INR (n - 1)) as P.
  destruct (Rfloor_spec (q * INR (n - 1))) as [A _]; [nra|].
  assert (INR (Rfloor (q * INR (n - 1))) <= INR (n - 1)) by nra. apply INR_le in H. lia.
Qed.

Lemma quantile_between q l : 0 <= q <= 1 -> l <> [] -> Rmin_of l <= quantile q l <= Rmax_of l.
Proof.
  intros Hq NE. unfold quantile. set (n := length l). assert (Hn : (0 < n)%nat) by (unfold n; destruct l; [easy|cbn; lia]).
  pose proof (quantile_index q n Hq Hn) as Hlo. set (h := q * INR (n - 1)) in *.
  assert (Hh : 0 <= h) by (unfold h; pose proof (pos_INR (n - 1)); nra).
  destruct (Rfloor_spec h Hh) as [A B]. set (lo := Rfloor h) in *.
  assert (Ia : In (nth lo (rsort l) 0) l) by (now apply rsort_nth_in).
  assert (Ib : In (nth (Nat.min (lo + 1) (n - 1)) (rsort l) 0) l) by (apply rsort_nth_in; fold n; lia).
  set (a := nth lo (rsort l) 0) in *. set (b := nth (Nat.min (lo + 1) (n - 1)) (rsort l) 0) in *.
  pose proof (Rmin_of_le l a Ia). pose proof (Rmin_of_le l b Ib). pose proof (Rmax_of_ge l a Ia). pose proof (Rmax_of_ge l b Ib).
  nra.
Qed.

(** At least / at most: a list all of whose entries equal c has every quantile and its median c. *)
Lemma quantile_const q l c : 0 <= q <= 1 -> l <> [] -> (forall x, In x l -> x = c) -> quantile q l = c.
Proof.
  intros Hq NE H. destruct (quantile_between q l Hq NE) as [A B].
  rewrite (H _ (Rmin_of_in l NE)) in A. rewrite (H _ (Rmax_of_in l NE)) in B. lra.
Qed.

Lemma median_const l c : l <> [] -> (forall x, In x l -> x = c) -> median l = c.
Proof.
  intros NE H. unfold median. set (n := length l). assert (Hn : (0 < n)%nat) by (unfold n; destruct l; [easy|cbn; lia]).
  assert (Hd : (n / 2 < n)%nat) by (apply Nat.div_lt; lia).
  assert (E : forall i, (i < n)%nat -> nth i (rsort l) 0 = c) by (intros i Hi; apply H; now apply rsort_nth_in).
  destruct (Nat.even n).
  - rewrite !E by lia. field.
  - now apply E.
Qed.

Lemma present_map_Some {A} (l : list A) : present (map Some l) = l.
Proof. induction l as [|x l IH]; [easy|]. cbn. unfold present in IH. now rewrite IH. Qed.

Lemma present_In {A} (l : list (option A)) x : In x (present l) <-> In (Some x) l.
Proof.
  unfold present. rewrite in_flat_map. split.
  - intros (o & Ho & Hx). destruct o as [y|]; [|easy]. destruct Hx as [->|[]]. easy.
  - intro H. exists (Some x). split; [easy|now left].
Qed.
