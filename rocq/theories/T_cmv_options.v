(** Property theorems. cmv.py _validate_method_options: validation, defaults and aliasing.
    Proofs are in the X_ file of the same name. *)
From Coq Require Import String.
From Verif Require Import Prelude PreludeFacts RealBase Fl RealStat M_spatial M_cmv Spec_spatial Spec_cmv P_cmv.
Local Open Scope R_scope.
From Verif Require Import X_cmv_options.

(** C15. Rejection exactly for unknown methods or unknown option keys, always with ValueError. *)
Theorem C15_options_validated :
  forall (m : string) (d : opts),
  (validate_method_options m (Some d) = Err ValueError <-> ~ known_method m \/ exists k, key_in d k /\ documented_default m k = None) /\
  ((exists d', validate_method_options m (Some d) = Ok d') <-> known_method m /\ admissible m d) /\
  validate_method_options m None = validate_method_options m (Some []).
Proof. exact (@options_validated). Qed.
Print Assumptions C15_options_validated.

(** C15. Effective options: the caller's value where given, the documented default elsewhere, and no other key. *)
Theorem C15_options_effective :
  forall (m : string) (d d' : opts) (k : string),
  validate_method_options m (Some d) = Ok d' ->
  dget d' k = match dget d k with Some v => Some v | None => option_map Fin (documented_default m k) end /\
  (key_in d' k <-> documented_default m k <> None).
Proof. exact (@options_effective). Qed.
Print Assumptions C15_options_effective.

(** C15. compute_cmv uses exactly that validation (method names are case-insensitive): it succeeds
    only with a known method and admissible options, and reports the options in effect. *)
Theorem C15_cmv_options :
  forall (K : Type) (HK : Label K) dx dt ms lsq ts (pos : list (K * (R * R))) ref m d bk v t w d',
  compute_cmv dx dt ms lsq ts pos ref m (Some d) bk = Ok ((v, t, w), d') ->
  known_method (lower m) /\ admissible (lower m) d /\
  forall k, dget d' k = match dget d k with Some x => Some x | None => option_map Fin (documented_default (lower m) k) end.
Proof. exact (@cmv_options). Qed.
Print Assumptions C15_cmv_options.

(** C15. An unknown method is a ValueError whatever the other arguments. *)
Theorem C15_cmv_unknown_method :
  forall (K : Type) (HK : Label K) dx dt ms lsq ts (pos : list (K * (R * R))) ref m o bk,
  ~ known_method (lower m) -> compute_cmv dx dt ms lsq ts pos ref m o bk = Err ValueError.
Proof. exact (@cmv_unknown_method). Qed.
Print Assumptions C15_cmv_unknown_method.

(** C15. Case of the method and backend names is irrelevant. *)
Theorem C15_cmv_case_insensitive :
  forall (K : Type) (HK : Label K) dx dt ms lsq ts (pos : list (K * (R * R))) ref m o bk,
  compute_cmv dx dt ms lsq ts pos ref m o bk = compute_cmv dx dt ms lsq ts pos ref (lower m) o (lower bk).
Proof. exact (@cmv_case_insensitive). Qed.
Print Assumptions C15_cmv_case_insensitive.

Example C15_options_example :
  validate_method_options "gagne" (Some [("mincorr"%string, Fin 0.5)]) = Err ValueError /\
  validate_method_options "jamaly" (Some [("mincorr"%string, Fin 0.5)]) =
    Ok [("mincorr"%string, Fin 0.5); ("minvelocity"%string, Fin 0); ("maxvelocity"%string, Fin 70);
        ("var_s_lim"%string, Fin 0.05); ("ktlim"%string, Fin 0.4)] /\
  validate_method_options "Jamaly" (Some []) = Err ValueError /\ lower "JAMALY" = "jamaly"%string.
Proof. exact (@options_example). Qed.

(** C16. Re-using the dictionary with one method: every call is accepted and the dictionary is as after the first call. *)
Theorem C16_reuse_same_method :
  forall (m : string) (n : nat) (d d' : opts),
  validate_method_options m (Some d) = Ok d' ->
  history (repeat m (S n)) d = (repeat true (S n), d').
Proof. exact (@reuse_same_method). Qed.
Print Assumptions C16_reuse_same_method.

(** C16. No sequence of calls ever changes a value the dictionary already has. *)
Theorem C16_history_preserves_values :
  forall (ms : list string) (d : opts) (k : string) (v : fl),
  dget d k = Some v -> dget (snd (history ms d)) k = Some v.
Proof. exact (@history_preserves_values). Qed.
Print Assumptions C16_history_preserves_values.

(** C16. After an accepted 'jamaly' call, every later 'gagne' call on the same dictionary is
    rejected with ValueError, whatever calls come before, between or after. *)
Theorem C16_jamaly_then_gagne_rejected :
  forall (before between after : list string) (d : opts) (d' : opts),
  validate_method_options "jamaly" (Some (snd (history before d))) = Ok d' ->
  let calls := before ++ "jamaly"%string :: between ++ "gagne"%string :: after in
  nth_error (fst (history calls d)) (length before) = Some true /\
  nth_error (fst (history calls d)) (length before + 1 + length between) = Some false /\
  validate_method_options "gagne" (Some (snd (history (before ++ "jamaly"%string :: between) d))) = Err ValueError.
Proof. exact (@jamaly_then_gagne_rejected). Qed.
Print Assumptions C16_jamaly_then_gagne_rejected.

(** C16. A dictionary accepted for 'gagne' stays accepted for both methods after any number of 'gagne' calls. *)
Theorem C16_gagne_keeps_acceptance :
  forall (n : nat) (d d' : opts),
  validate_method_options "gagne" (Some d) = Ok d' ->
  let d1 := snd (history (repeat "gagne"%string n) d) in
  (exists e, validate_method_options "gagne" (Some d1) = Ok e) /\
  (exists e, validate_method_options "jamaly" (Some d1) = Ok e).
Proof. exact (@gagne_keeps_acceptance). Qed.
Print Assumptions C16_gagne_keeps_acceptance.

(** C16. The same through compute_cmv: the dictionary a successful 'jamaly' call leaves behind makes
    every later 'gagne' call fail. *)
Theorem C16_cmv_jamaly_then_gagne :
  forall (K : Type) (HK : Label K) dx dt ms lsq ts (pos : list (K * (R * R))) ref m d bk r d'
    dx2 dt2 ms2 lsq2 ts2 (pos2 : list (K * (R * R))) ref2 m2 bk2,
  lower m = "jamaly"%string -> lower m2 = "gagne"%string ->
  compute_cmv dx dt ms lsq ts pos ref m (Some d) bk = Ok (r, d') ->
  exists e, compute_cmv dx2 dt2 ms2 lsq2 ts2 pos2 ref2 m2 (Some d') bk2 = Err e.
Proof. exact (@cmv_jamaly_then_gagne). Qed.
Print Assumptions C16_cmv_jamaly_then_gagne.

Example C16_history_example :
  fst (history ["gagne"; "gagne"; "jamaly"; "gagne"; "jamaly"]%string []) = [true; true; true; false; true].
Proof. exact (@history_example). Qed.

