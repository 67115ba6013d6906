(** What it means for a call to keep its hands off existing objects. *)
From Coq Require Import List.
From Verif Require Import Prelude RealBase M_hope M_heap.
Import ListNotations.

(** Every object that existed before still holds the value it had. *)
Definition untouched {V} (before after : list V) : Prop :=
  forall i v, nth_error before i = Some v -> nth_error after i = Some v.
(** [r] is an object made during the call (so no argument, and nothing reachable before, is it) and it holds [v]. *)
Definition fresh_with {V} (before after : list V) (r : nat) (v : V) : Prop :=
  length before <= r /\ nth_error after r = Some v.
(** A call that returned [out] with the store [after] computed [value] without side effects: it raises exactly when [value] is an
    exception, the same one; otherwise it returns a new object holding that value; either way nothing older has changed. *)
Definition clean_call {V} (before after : list V) (out : result nat) (value : result V) : Prop :=
  untouched before after /\
  match value with
  | Ok v => exists r, out = Ok r /\ fresh_with before after r v
  | Err e => out = Err e
  end.

(** In the store [h], object [r] holds what the call computes from what its arguments hold in that same store. *)
Definition explains (h : list table) (c : call) (r : nat) : Prop :=
  match c with
  | FlagQc d f level => exists vd vf, nth_error h d = Some vd /\ nth_error h f = Some vf /\ nth_error h r = Some (flag_qc vd vf level)
  | NullQc d => exists vd, nth_error h d = Some vd /\ nth_error h r = Some (null_qc vd)
  | InterpNan d limit => exists vd vr, nth_error h d = Some vd /\ interp_nan vd limit = Ok vr /\ nth_error h r = Some vr
  end.
