(** Model of numpy's error handling across calls: cmv.py:225-226 sets it for the whole session, signalproc.py:314 only for a block,
    cloudfield.py:98-100 runs under whatever is set. No proofs here. *)
From Coq Require Import String.
From Verif Require Import Prelude RealBase Fl RealStat M_cmv M_cloudfield.
Local Open Scope R_scope.

(** np.seterr: what numpy does on a floating point event. Simplification: the modes 'call', 'print' and 'log', which also go on with the
    value, are taken as 'warn'. *)
Inductive mode : Type := Ignore | Warn | Raise.
Record errs : Type := Errs { e_divide : mode; e_over : mode; e_under : mode; e_invalid : mode }.
(** The keyword arguments of np.seterr and np.errstate. *)
Record settings : Type := Settings { s_divide : option mode; s_over : option mode; s_under : option mode; s_invalid : option mode }.
Definition seterr (s : settings) (e : errs) : errs :=
  let pick (o : option mode) (m : mode) := match o with Some m => m | None => m end in
  Errs (pick (s_divide s) (e_divide e)) (pick (s_over s) (e_over e)) (pick (s_under s) (e_under e)) (pick (s_invalid s) (e_invalid e)).

(** The result of numpy operations: the value and whether a warning was shown, or FloatingPointError. *)
Inductive outcome (A : Type) : Type := Value (warned : bool) (v : A) | FPE.
Arguments Value {A} warned v.
Arguments FPE {A}.
Definition obind {A B} (o : outcome A) (f : A -> outcome B) : outcome B :=
  match o with FPE => FPE | Value w v => match f v with FPE => FPE | Value w' v' => Value (w || w') v' end end.
Fixpoint omap {A B} (f : A -> outcome B) (l : list A) : outcome (list B) :=
  match l with [] => Value false [] | a :: r => obind (f a) (fun b => obind (omap f r) (fun bs => Value false (b :: bs))) end.
Definition signal {A} (m : mode) (v : A) : outcome A :=
  match m with Ignore => Value false v | Warn => Value true v | Raise => FPE end.
(** Division: x/0 with x finite and not 0 is a division by zero, 0/0 and inf/inf are invalid. *)
Definition np_div (e : errs) (a b : fl) : outcome fl :=
  match a, b with
  | Fin x, Fin y => if Reqb y 0 then (if Reqb x 0 then signal (e_invalid e) Nan else signal (e_divide e) (sgn_inf x)) else Value false (Fin (x / y))
  | (Pinf | Ninf), (Pinf | Ninf) => signal (e_invalid e) Nan
  | _, _ => Value false (fdiv a b)
  end.
(** np.log *)
Definition np_log (e : errs) (x : R) : outcome fl :=
  if Rltb 0 x then Value false (Fin (ln x)) else if Reqb x 0 then signal (e_divide e) Ninf else signal (e_invalid e) Nan.

(** cloudfield.py:98-99 1/VS1, VS1 = -log(1 - vs/180)/0.6; for vs = 0, VS1 is -0. *)
Definition np_exponent (e : errs) (vs : R) : outcome fl :=
  obind (np_log e (1 - vs / 180)) (fun l =>
    if Reqb vs 0 then signal (e_divide e) Ninf else np_div e (Fin 1) (fdiv (fopp l) (Fin (6 / 10)))).
(** cloudfield.py:78-100 _calc_vs_weights. Simplification: scales are positive, and no power or sum over- or underflows. *)
Definition np_vs_weights (e : errs) (scales : list R) (vs : R) : outcome (result (list fl)) :=
  if Rltb vs 0 then Value false (Err ValueError)
  else obind (np_exponent e vs) (fun p =>
         let weight := map (fun s => np_pow s p) scales in
         obind (omap (fun w => np_div e w (fsum weight)) weight) (fun l => Value false (Ok l))).

(** signalproc.py:314-316, the coherence of averaged_tf: |csd|^2 / (psdxx psdyy) at each frequency, given (|csd|, psdxx, psdyy). *)
Definition block : settings := Settings (Some Ignore) None None (Some Ignore).
Definition np_coherence (e : errs) (bins : list (R * R * R)) : outcome (list fl) :=
  omap (fun b => let '(c, x, y) := b in np_div (seterr block e) (Fin (c ^ 2)) (Fin (x * y))) bins.

(** cmv.py:217-226 the checks of the arguments, then the two np.seterr; cmv.py:580 the speeds of the pairs, with
    jamaly only. [rest] stands for what lies between: an exception, or the (distance, delay) of the pairs. *)
Definition accepted (method backend : string) : bool :=
  (String.eqb (lower method) "jamaly" || String.eqb (lower method) "gagne") && (String.eqb (lower backend) "xcorr" || String.eqb (lower backend) "tf").
Definition np_cmv (e : errs) (method backend : string) (rest : result (list (R * R))) : outcome (result (list fl)) * errs :=
  if negb (accepted method backend) then (Value false (Err ValueError), e)
  else let e := seterr (Settings (Some Ignore) None None None) e in
       let e := seterr (Settings None None None (Some Ignore)) e in
       (match rest with
        | Err x => Value false (Err x)
        | Ok pairs => if negb (String.eqb (lower method) "jamaly") then Value false (Ok []) else
                      obind (omap (fun p => np_div e (Fin (fst p)) (Fin (snd p))) pairs) (fun l => Value false (Ok l))
        end, e).

(** What happens in a session. The caller sets the error handling, opens blocks with their own error handling (with np.errstate(...)) and
    calls the library, catching every exception. *)
Inductive step : Type :=
| SetErr (s : settings)
| Block (s : settings) (body : list step)
| Cmv (method backend : string) (rest : result (list (R * R)))
| Tf (bins : list (R * R * R))
| Weights (scales : list R) (vs : R).
(** What the caller sees, and the error handling afterwards. *)
Fixpoint run_step (e : errs) (s : step) : list (outcome (result (list fl))) * errs :=
  match s with
  | SetErr s => ([], seterr s e)
  | Block s body =>
    let fix run (e : errs) (l : list step) : list (outcome (result (list fl))) * errs :=
      match l with
      | [] => ([], e)
      | s :: l => let (o, e) := run_step e s in let (os, e) := run e l in (o ++ os, e)
      end in
    (fst (run (seterr s e) body), e)
  | Cmv m b rest => let (o, e) := np_cmv e m b rest in ([o], e)
  | Tf bins => ([obind (np_coherence e bins) (fun l => Value false (Ok l))], e)
  | Weights scales vs => ([np_vs_weights e scales vs], e)
  end.
Fixpoint session (e : errs) (l : list step) : list (outcome (result (list fl))) * errs :=
  match l with
  | [] => ([], e)
  | s :: l => let (o, e) := run_step e s in let (os, e) := session e l in (o ++ os, e)
  end.
