(** Vocabulary for sessions: which steps set the error handling, and what they yield whatever it is. *)
From Coq Require Import String.
From Verif Require Import Prelude RealBase Fl RealStat M_cmv M_cloudfield M_session.
Local Open Scope R_scope.

(** The names compute_cmv knows, in any case. *)
Definition known (method backend : string) : Prop :=
  (lower method = "jamaly" \/ lower method = "gagne")%string /\ (lower backend = "xcorr" \/ lower backend = "tf")%string.
(** The step leaves division by zero, or invalid operations, handled as [m] for the rest of the session. *)
Definition sets_divide (s : step) (m : mode) : Prop :=
  match s with SetErr s => s_divide s = Some m | Cmv me b _ => known me b /\ m = Ignore | _ => False end.
Definition sets_invalid (s : step) (m : mode) : Prop :=
  match s with SetErr s => s_invalid s = Some m | Cmv me b _ => known me b /\ m = Ignore | _ => False end.
(** Only the caller does so for overflow and underflow. *)
Definition sets_over (s : step) (m : mode) : Prop := match s with SetErr s => s_over s = Some m | _ => False end.
Definition sets_under (s : step) (m : mode) : Prop := match s with SetErr s => s_under s = Some m | _ => False end.
(** [m] is what the last step that [sets] anything has set, [m0] if there is none. *)
Definition last_set (sets : step -> mode -> Prop) (l : list step) (m0 m : mode) : Prop :=
  (m = m0 /\ forall s x, In s l -> ~ sets s x) \/
  exists pre s post, l = pre ++ s :: post /\ sets s m /\ forall s' x, In s' post -> ~ sets s' x.

(** The session nowhere asks for an exception on division by zero or invalid operations. *)
Definition lenient (s : settings) : Prop := s_divide s <> Some Raise /\ s_invalid s <> Some Raise.
Inductive calm : step -> Prop :=
| calm_set s : lenient s -> calm (SetErr s)
| calm_block s body : lenient s -> Forall calm body -> calm (Block s body)
| calm_cmv m b r : calm (Cmv m b r)
| calm_tf l : calm (Tf l)
| calm_weights sc vs : calm (Weights sc vs).
(** The values of the calls when error handling plays no part, in order. *)
Definition speeds (method : string) (pairs : list (R * R)) : list fl :=
  if String.eqb (lower method) "jamaly" then map (fun p => fdiv (Fin (fst p)) (Fin (snd p))) pairs else [].
Definition coherence (bins : list (R * R * R)) : list fl := map (fun b => let '(c, x, y) := b in fdiv (Fin (c ^ 2)) (Fin (x * y))) bins.
Fixpoint plain (s : step) : list (result (list fl)) :=
  match s with
  | SetErr _ => []
  | Block _ body => flat_map plain body
  | Cmv m b rest => [if accepted m b then rmap (speeds m) rest else Err ValueError]
  | Tf bins => [Ok (coherence bins)]
  | Weights scales vs => [calc_vs_weights scales vs]
  end.
Definition value {A} (o : outcome A) : option A := match o with Value _ v => Some v | FPE => None end.
