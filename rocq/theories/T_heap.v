(** Property theorems. Arguments are left unchanged: functions that assign in place do so on copies
    Proofs are in the X_ file of the same name. *)
From Coq Require Import String List Lia Lra.
From Verif Require Import Prelude PreludeFacts RealBase M_field_remap M_cmv M_signal_plant M_hope M_heap Spec_heap.
Local Open Scope R_scope.
From Verif Require Import X_heap.

(** C131. flag_qc: whatever the two tables hold, and even if both arguments are the same object, the call returns a new object with the
   cleaned values and leaves every existing object as it was. *)
Theorem C131_flag_qc_clean :
  forall h d f level vd vf,
  nth_error h d = Some vd -> nth_error h f = Some vf ->
  clean_call h (snd (flag_qc_prog d f level h)) (fst (flag_qc_prog d f level h)) (Ok (flag_qc vd vf level)).
Proof. exact (@flag_qc_clean). Qed.
Print Assumptions C131_flag_qc_clean.

(** C131. null_qc likewise. *)
Theorem C131_null_qc_clean :
  forall h d vd,
  nth_error h d = Some vd ->
  clean_call h (snd (null_qc_prog d h)) (fst (null_qc_prog d h)) (Ok (null_qc vd)).
Proof. exact (@null_qc_clean). Qed.
Print Assumptions C131_null_qc_clean.

(** C131. interp_nan: the loop that stores the columns one by one gives the table of all interpolated columns, in a new object; when a
   column raises, the same exception leaves every existing object as it was, although some columns have been stored already. *)
Theorem C131_interp_nan_clean :
  forall h d limit vd,
  nth_error h d = Some vd ->
  clean_call h (snd (interp_nan_prog d limit h)) (fst (interp_nan_prog d limit h)) (interp_nan vd limit).
Proof. exact (@interp_nan_clean). Qed.
Print Assumptions C131_interp_nan_clean.

(** C131. A whole session of cleaning calls, of any length and on any objects including earlier results: nothing that exists at any
   time is ever changed, every successful call has made an object of its own, and at the end that object still holds what the call
   computes from what its arguments hold at the end. So the order of calls on the same data does not matter. *)
Theorem C131_session_clean :
  forall cs h rs h',
  run_calls cs h = (rs, h') ->
  untouched h h' /\ length rs = length cs /\
  (forall k r, nth_error rs k = Some (Ok r) ->
     (length h <= r)%nat /\ exists c, nth_error cs k = Some c /\ explains h' c r) /\
  (forall j k r, nth_error rs j = Some (Ok r) -> nth_error rs k = Some (Ok r) -> j = k).
Proof. exact (@session_clean). Qed.
Print Assumptions C131_session_clean.

(** C131. remap_positions: every value is read from the table as it was passed in, whatever has been assigned to the copy so far (so
   swaps and cycles work); the result is a new object, and also after a KeyError in the middle nothing older has changed. *)
Theorem C131_remap_positions_clean :
  forall (K C A : Type) (LK : Label K) (LC : Label C) (h : list (M_field_remap.table K C A))
    (d : nat) (remap : list (K * K)) (columns : option (list C)) vd,
  nth_error h d = Some vd ->
  clean_call h (snd (remap_positions_prog d remap columns h)) (fst (remap_positions_prog d remap columns h))
    (remap_positions vd remap columns).
Proof. exact (@remap_positions_clean). Qed.
Print Assumptions C131_remap_positions_clean.

(** C131. The table assign_positions returns is the remapped site plan, a new object; the site plan itself is left alone. *)
Theorem C131_assign_out_clean :
  forall (K C A : Type) (LK : Label K) (LC : Label C) (h : list (M_field_remap.table K C A))
    (d : nat) (remap : list (K * K)) vd,
  nth_error h d = Some vd ->
  clean_call h (snd (assign_out_prog d remap h)) (fst (assign_out_prog d remap h)) (remap_positions vd remap None).
Proof. exact (@assign_out_clean). Qed.
Print Assumptions C131_assign_out_clean.

(** C131. get_1d_plant subtracts the reference from the centers and fills the plant in place, but on objects of its own: the array of
   centers passed in keeps its values, the plant and its axis are two new objects with the values of get_1d_plant, and a call that
   raises changes nothing either. *)
Theorem C131_get_1d_plant_clean :
  forall h c ref_center width shape dx xmax vc out h',
  nth_error h c = Some vc ->
  get_1d_plant_prog c ref_center width shape dx xmax h = (out, h') ->
  untouched h h' /\
  match get_1d_plant vc ref_center width shape dx xmax with
  | Ok (plant, x_vec) => exists p x, out = Ok (p, x) /\ p <> x /\ fresh_with h h' p plant /\ fresh_with h h' x (map Some x_vec)
  | Err e => out = Err e
  end.
Proof. exact (@get_1d_plant_clean). Qed.
Print Assumptions C131_get_1d_plant_clean.

(** C131. cleanfreq is the exception: it changes the one object passed in (to the values of cleanfreq) and no other, and makes none. *)
Theorem C131_cleanfreq_in_place :
  forall (L V : Type) (h : list (list (option L * V))) (s : nat) sig new_sig,
  nth_error h s = Some sig -> cleanfreq sig = Ok (tt, new_sig) ->
  exists h', cleanfreq_prog s h = (Ok tt, h') /\ length h' = length h /\ nth_error h' s = Some new_sig /\
    forall i, i <> s -> nth_error h' i = nth_error h i.
Proof. exact (@cleanfreq_in_place). Qed.
Print Assumptions C131_cleanfreq_in_place.

(** C131. So "no call changes its arguments" is false of the whole library: after cleanfreq a user's own series has lost a label. *)
Theorem C131_arguments_refuted :
  ~ (forall (L V : Type) (h : list (list (option L * V))) (s : nat), untouched h (snd (cleanfreq_prog s h))).
Proof. exact (@arguments_refuted). Qed.
Print Assumptions C131_arguments_refuted.

(** C131. A session of four calls: the original is cleaned by its hidden values, then by flags (itself), then the second result is
   cleaned again, then the original once more with the same outcome as the first time. *)
Example C131_session_example :
  run_calls [NullQc 0%nat; FlagQc 0%nat 0%nat 2; NullQc 2%nat; NullQc 0%nat] [demo_table]
  = ([Ok 1%nat; Ok 2%nat; Ok 3%nat; Ok 4%nat],
     [demo_table; [[None; Some 5]]; [[Some (-999); None]]; [[None; None]]; [[None; Some 5]]]).
Proof. exact (@session_example). Qed.

(** C131. Swapping two rows: each gets the other's value although the first assignment has already been made. *)
Example C131_remap_example :
  remap_positions_prog 0%nat [(1, 2); (2, 1)]%nat None [mkTable [7%nat] [(1%nat, [Some 10%nat]); (2%nat, [Some 20%nat])]]
  = (Ok 1%nat, [mkTable [7%nat] [(1%nat, [Some 10%nat]); (2%nat, [Some 20%nat])];
                mkTable [7%nat] [(1%nat, [Some 20%nat]); (2%nat, [Some 10%nat])]]).
Proof. exact (@remap_example). Qed.

