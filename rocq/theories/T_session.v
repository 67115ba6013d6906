(** Property theorems. Numpy's error handling across calls (C129).
    Proofs are in the X_ file of the same name. *)
From Coq Require Import String.
From Verif Require Import Prelude PreludeFacts RealBase Fl RealStat M_cmv M_cloudfield M_session Spec_session.
Local Open Scope R_scope.
From Verif Require Import X_session.

(** C129. After any session, division by zero and invalid operations are handled as the last caller's setting or compute_cmv call says (a call
    with known names means 'ignore', also when it fails later), overflow and underflow as the caller says. Blocks, averaged_tf and refused calls
    leave nothing behind. *)
Theorem C129_error_handling_after :
  forall e l,
  last_set sets_divide l (e_divide e) (e_divide (snd (session e l))) /\ last_set sets_invalid l (e_invalid e) (e_invalid (snd (session e l))) /\
  last_set sets_over l (e_over e) (e_over (snd (session e l))) /\ last_set sets_under l (e_under e) (e_under (snd (session e l))).
Proof. exact (@error_handling_after). Qed.
Print Assumptions C129_error_handling_after.

(** C129. A caller who wraps the calls in a block of np.errstate gets the error handling back as it was. *)
Theorem C129_wrapped_calls :
  forall e s calls, snd (session e [Block s calls]) = e.
Proof. exact (@wrapped_calls). Qed.
Print Assumptions C129_wrapped_calls.

(** C129. compute_cmv and averaged_tf give the same result, without warnings, under every error handling, also where division by zero is to raise. *)
Theorem C129_protected_calls :
  forall e m b rest bins,
  fst (session e [Cmv m b rest]) = [Value false (if accepted m b then rmap (speeds m) rest else Err ValueError)] /\
  fst (session e [Tf bins]) = [Value false (Ok (coherence bins))].
Proof. exact (@protected_calls). Qed.
Print Assumptions C129_protected_calls.

(** C129. The weights for a variability score call attention to themselves exactly at the ends of the scale. A score strictly between 0 and
    180 gives neither warning nor exception under any error handling; at 0 and at 180 a division by zero is reported, above 180 an
    invalid operation: as a warning together with the value, or as FloatingPointError, as the session has it. *)
Theorem C129_weights_events :
  forall e scales vs,
  Forall (fun s => 0 < s) scales ->
  (vs < 0 -> fst (session e [Weights scales vs]) = [Value false (Err ValueError)]) /\
  (0 < vs < 180 -> fst (session e [Weights scales vs]) = [Value false (calc_vs_weights scales vs)]) /\
  (vs = 0 \/ vs = 180 -> e_divide e = Raise -> fst (session e [Weights scales vs]) = [FPE]) /\
  (vs = 0 \/ vs = 180 -> e_divide e = Warn -> e_invalid e <> Raise ->
     fst (session e [Weights scales vs]) = [Value true (calc_vs_weights scales vs)]) /\
  (180 < vs -> e_invalid e = Raise -> fst (session e [Weights scales vs]) = [FPE]) /\
  (180 < vs -> e_invalid e = Warn -> e_divide e <> Raise ->
     fst (session e [Weights scales vs]) = [Value true (calc_vs_weights scales vs)]).
Proof. exact (@weights_events). Qed.
Print Assumptions C129_weights_events.

(** C129. Unless someone asks for exceptions, the values that calls return do not depend on the error handling or on the calls made before. *)
Theorem C129_calm_values :
  forall l e, Forall calm l -> e_divide e <> Raise -> e_invalid e <> Raise ->
  map value (fst (session e l)) = map Some (flat_map plain l).
Proof. exact (@calm_values). Qed.
Print Assumptions C129_calm_values.

(** C129. With exceptions asked for, what a call returns depends on the calls before: the weights for a score of 180 raise FloatingPointError,
    and no longer do so once compute_cmv has been called, even if that call failed. *)
Theorem C129_history_refuted :
  forall scales, (forall s, In s scales -> 0 < s) -> forall rest, exists v,
  fst (session strict [Weights scales 180; Cmv "jamaly" "xcorr" rest; Weights scales 180]) = [FPE; v; Value false (calc_vs_weights scales 180)].
Proof. exact (@history_refuted). Qed.
Print Assumptions C129_history_refuted.

(** C129. A caller who asks for exceptions, computes weights inside a block, calls compute_cmv twice (once with an unknown method) and then sets
    the handling of invalid operations again. *)
Example C129_session_example :
  let l := [SetErr (Settings (Some Raise) (Some Warn) None (Some Raise)); Block (Settings (Some Warn) None None None) [Cmv "gagne" "tf" (Err KeyError)];
            Cmv "other" "tf" (Ok []); Cmv "Jamaly" "TF" (Ok [(10, 0); (0, 0); (6, 3)]); SetErr (Settings None None None (Some Warn))]%string in
  session (Errs Warn Warn Ignore Warn) l =
    ([Value false (Err KeyError); Value false (Err ValueError); Value false (Ok [Pinf; Nan; Fin (6 / 3)])], Errs Ignore Warn Ignore Warn).
Proof. exact (@session_example). Qed.

