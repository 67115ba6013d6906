(** More list lemmas. *)
From Verif Require Import Prelude PreludeFacts.

Lemma Forall2_nth_iff {A B} (P : A -> B -> Prop) l l' :
  Forall2 P l l' <-> length l = length l' /\ forall i x y, nth_error l i = Some x -> nth_error l' i = Some y -> P x y.
Proof.
  split.
  - intro F. split; [eapply Forall2_len; eauto|]. induction F as [|a b l l' Hab F IH]; intros [|i] x y A1 B1; cbn in *; try discriminate; [congruence|eauto].
  - revert l'. induction l as [|a l IH]; intros [|b l'] [L H]; try discriminate; constructor.
    + now apply (H 0%nat).
    + apply IH. split; [now injection L|]. intros i x y. apply (H (S i)).
Qed.
Lemma nth_error_seq n i : (i < n)%nat -> nth_error (seq 0 n) i = Some i.
Proof. intro H. rewrite (nth_error_nth' _ 0%nat) by now rewrite seq_length. now rewrite seq_nth. Qed.
Lemma mapM_seq {B} (f : nat -> result B) n ys :
  mapM f (seq 0 n) = Ok ys <-> length ys = n /\ forall i, (i < n)%nat -> exists y, nth_error ys i = Some y /\ f i = Ok y.
Proof.
  rewrite mapM_ok_iff, Forall2_nth_iff, seq_length. split.
  - intros [L H]. split; [easy|]. intros i Hi. destruct (nth_error ys i) as [y|] eqn:E; [|apply nth_error_None in E; lia]. exists y. split; [easy|].
    apply (H i); [now apply nth_error_seq|easy].
  - intros [L H]. split; [easy|]. intros i x y Hx Hy. assert (Hi : (i < n)%nat) by (rewrite <- (seq_length n 0); apply nth_error_Some; congruence).
    rewrite nth_error_seq in Hx by easy. injection Hx as <-. destruct (H i Hi) as (y' & A1 & A2). congruence.
Qed.
Lemma mapM_err_first {A B} (f : A -> result B) a l e : f a = Err e -> mapM f (a :: l) = Err e.
Proof. intro H. cbn. now rewrite H. Qed.
Lemma filter_le_length {A} (f : A -> bool) l : (length (filter f l) <= length l)%nat.
Proof. induction l as [|x l IH]; cbn; [lia|]. destruct (f x); cbn; lia. Qed.
Lemma nth_error_firstn {A} (l : list A) : forall n k, (k < n)%nat -> nth_error (firstn n l) k = nth_error l k.
Proof. induction l as [|x l IH]; intros [|n] [|k] H; try lia; try reflexivity. cbn. apply IH. lia. Qed.
Lemma nth_error_skipn {A} (l : list A) : forall n k, nth_error (skipn n l) k = nth_error l (n + k).
Proof. induction l as [|x l IH]; intros [|n] k; try reflexivity; cbn; [now destruct k|apply IH]. Qed.
