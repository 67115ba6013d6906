(** Shared vocabulary: exceptions as values, labels, stable sorting, dictionaries.
    Nothing here models a repository function; it models the Python/pandas
    primitives those functions are written in. *)
From Coq Require Export List Arith ZArith Lia Bool.
From Coq Require Import String Ascii Permutation Sorted.
Export ListNotations.

(** Python exceptions raised by the modelled code. *)
Inductive exn : Type :=
| ValueError | TypeError | KeyError | IndexError | AssertionError
| FileExistsError | ZeroDivisionError | OtherError.

Inductive result (A : Type) : Type :=
| Ok (a : A)
| Err (e : exn).
Arguments Ok {A} a.
Arguments Err {A} e.

Definition rbind {A B} (r : result A) (f : A -> result B) : result B :=
  match r with Ok a => f a | Err e => Err e end.
Notation "'let!' x ':=' r 'in' k" := (rbind r (fun x => k))
  (at level 200, x pattern, r at level 100, k at level 200, right associativity).

Definition rmap {A B} (f : A -> B) (r : result A) : result B :=
  match r with Ok a => Ok (f a) | Err e => Err e end.


(** Left-to-right evaluation of a list of computations; the first exception wins. *)
Fixpoint mapM {A B} (f : A -> result B) (l : list A) : result (list B) :=
  match l with
  | [] => Ok []
  | x :: xs => let! y := f x in let! ys := mapM f xs in Ok (y :: ys)
  end.

(** A for loop threading state; the first exception aborts. *)
Fixpoint foldM {A S} (f : S -> A -> result S) (l : list A) (s : S) : result S :=
  match l with
  | [] => Ok s
  | x :: xs => let! s' := f s x in foldM f xs s'
  end.

(** Labels usable as pandas index labels / dictionary keys that can be sorted. *)
Class Label (K : Type) : Type := {
  lab_leb : K -> K -> bool;
  lab_eqb : K -> K -> bool;
  lab_eqb_eq : forall a b, lab_eqb a b = true <-> a = b;
  lab_total : forall a b, lab_leb a b = true \/ lab_leb b a = true;
  lab_trans : forall a b c, lab_leb a b = true -> lab_leb b c = true -> lab_leb a c = true;
  lab_antisym : forall a b, lab_leb a b = true -> lab_leb b a = true -> a = b
}.

(** Stable insertion sort (Python's list.sort, pandas sort_values are modelled as
    stable; where the library sort is not stable the theorem using it says so). *)
Fixpoint insert_by {A} (le : A -> A -> bool) (x : A) (l : list A) : list A :=
  match l with
  | [] => [x]
  | y :: ys => if le x y then x :: y :: ys else y :: insert_by le x ys
  end.
Definition sort_by {A} (le : A -> A -> bool) (l : list A) : list A :=
  fold_right (insert_by le) [] l.

(** Python dict with insertion order. *)
Section Dict.
  Context {K V : Type} `{Label K}.
  Fixpoint dget (d : list (K * V)) (k : K) : option V :=
    match d with
    | [] => None
    | (k', v) :: r => if lab_eqb k' k then Some v else dget r k
    end.
  Fixpoint dset (d : list (K * V)) (k : K) (v : V) : list (K * V) :=
    match d with
    | [] => [(k, v)]
    | (k', v') :: r => if lab_eqb k' k then (k', v) :: r else (k', v') :: dset r k v
    end.
  (** dict(list_of_pairs) *)
  Definition dict_of (l : list (K * V)) : list (K * V) :=
    fold_left (fun d kv => dset d (fst kv) (snd kv)) l [].
  Definition dkeys (d : list (K * V)) : list K := map fst d.
  Definition dmem (d : list (K * V)) (k : K) : bool :=
    match dget d k with Some _ => true | None => false end.
End Dict.

(** Membership test `k in list`. *)
Definition lab_mem {K} `{Label K} (k : K) (l : list K) : bool := existsb (lab_eqb k) l.

(** Position of the first occurrence, for label -> position lookups. *)
Fixpoint pos_of {K} `{Label K} (k : K) (l : list K) : option nat :=
  match l with
  | [] => None
  | x :: xs => if lab_eqb x k then Some 0 else option_map S (pos_of k xs)
  end.

(** Item assignment on a list. *)
Fixpoint list_set {A} (l : list A) (n : nat) (v : A) : list A :=
  match l, n with
  | [], _ => []
  | _ :: xs, 0 => v :: xs
  | x :: xs, S m => x :: list_set xs m v
  end.

(** Concrete labels. *)
Lemma ascii_compare_eq a b : Ascii.compare a b = Eq <-> a = b.
Proof.
  unfold Ascii.compare. rewrite N.compare_eq_iff. split.
  - intro E. rewrite <- (ascii_N_embedding a), <- (ascii_N_embedding b), E. reflexivity.
  - now intros ->.
Qed.


Lemma string_leb_trans a b c : String.leb a b = true -> String.leb b c = true -> String.leb a c = true.
Proof.
  unfold String.leb. revert b c.
  induction a as [|x a IH]; intros [|y b] [|z c]; cbn; auto; try discriminate.
  destruct (Ascii.compare x y) eqn:E1; try discriminate;
  destruct (Ascii.compare y z) eqn:E2; try discriminate; intros H1 H2.
  - apply ascii_compare_eq in E1, E2. subst.
    rewrite (proj2 (ascii_compare_eq z z) eq_refl). now apply (IH b).
  - apply ascii_compare_eq in E1. subst. now rewrite E2.
  - apply ascii_compare_eq in E2. subst. now rewrite E1.
  - unfold Ascii.compare in *. rewrite N.compare_lt_iff in E1, E2.
    assert (E : (N_of_ascii x ?= N_of_ascii z)%N = Lt) by (apply N.compare_lt_iff; lia).
    now rewrite E.
Qed.

#[export] Instance label_string : Label string.
Proof.
  refine {| lab_leb := String.leb; lab_eqb := String.eqb |}.
  - apply String.eqb_eq.
  - apply String.leb_total.
  - apply string_leb_trans.
  - apply String.leb_antisym.
Defined.

#[export] Instance label_nat : Label nat.
Proof.
  refine {| lab_leb := Nat.leb; lab_eqb := Nat.eqb |}.
  - apply Nat.eqb_eq.
  - intros a b. rewrite !Nat.leb_le. lia.
  - intros a b c. rewrite !Nat.leb_le. lia.
  - intros a b. rewrite !Nat.leb_le. lia.
Defined.

#[export] Instance label_Z : Label Z.
Proof.
  refine {| lab_leb := Z.leb; lab_eqb := Z.eqb |}.
  - apply Z.eqb_eq.
  - intros a b. rewrite !Z.leb_le. lia.
  - intros a b c. rewrite !Z.leb_le. lia.
  - intros a b. rewrite !Z.leb_le. lia.
Defined.
