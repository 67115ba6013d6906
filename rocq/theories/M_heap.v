(** Model of functions that assign in place, on a store of objects: src/solarspatialtools/dataio/hope_campaign.py (flag_qc, null_qc,
    interp_nan), field.py (remap_positions, the end of assign_positions) and signalproc.py (get_1d_plant, cleanfreq).
    The other models compute values; here an argument is a reference to an object, two arguments may be the same object, and every
    assignment changes the object it names. No proofs in this file. *)
From Coq Require Import String List.
From Verif Require Import Prelude RealBase M_field_remap M_cmv M_signal_plant M_hope.
Import ListNotations.
Local Open Scope R_scope.

(** ** Objects *)
(** The store: object number i holds the i-th value. A program returns a value or raises, and leaves a store behind in both cases.
    Simplification: objects are never freed. *)
Definition ref : Type := nat.
Definition prog (V A : Type) : Type := list V -> result A * list V.
Definition ret {V A} (a : A) : prog V A := fun h => (Ok a, h).
Definition seqp {V A B} (p : prog V A) (q : A -> prog V B) : prog V B :=
  fun h => match p h with (Ok a, h') => q a h' | (Err e, h') => (Err e, h') end.
Notation "x <- p ;; q" := (seqp p (fun x => q)) (at level 100, p at next level, right associativity).
(** A new object *)
Definition new {V} (v : V) : prog V ref := fun h => (Ok (length h), h ++ [v]).
(** The value of an object; references to no object do not occur in Python (OtherError). *)
Definition get {V} (r : ref) : prog V V := fun h => (match nth_error h r with Some v => Ok v | None => Err OtherError end, h).
(** Assignment to (part of) an object: the object gets the value [v]. *)
Definition put {V} (r : ref) (v : V) : prog V unit := fun h => (Ok tt, list_set h r v).
(** obj.copy() *)
Definition copy {V} (r : ref) : prog V ref := v <- get r ;; new v.
Definition lift {V A} (x : result A) : prog V A := fun h => (x, h).
(** for x in l: body *)
Fixpoint for_each {V X} (l : list X) (body : X -> prog V unit) : prog V unit :=
  match l with [] => ret tt | x :: l' => _ <- body x ;; for_each l' body end.

(** ** hope_campaign.py *)
(** hope_campaign.py:135-137 flag_qc: copy, assign NaN where the flag reaches the level, return the copy. *)
Definition flag_qc_prog (data flag : ref) (level : R) : prog table ref :=
  datanew <- copy data ;;
  f <- get flag ;;
  v <- get datanew ;;
  _ <- put datanew (flag_qc v f level) ;;
  ret datanew.
(** hope_campaign.py:155-157 null_qc *)
Definition null_qc_prog (data : ref) : prog table ref :=
  datanew <- copy data ;;
  v <- get datanew ;;
  _ <- put datanew (null_qc v) ;;
  ret datanew.
(** hope_campaign.py:181-196, one turn of the loop: read column j of datanew, compute, store it back. The table is held by columns. *)
Definition interp_turn (datanew : ref) (limit : nat) (j : nat) : prog table unit :=
  v <- get datanew ;;
  c <- lift (interp_column limit (nth j v [])) ;;
  put datanew (list_set v j c).
(** hope_campaign.py:179-198 interp_nan *)
Definition interp_nan_prog (data : ref) (limit : nat) : prog table ref :=
  datanew <- copy data ;;
  v <- get datanew ;;
  _ <- for_each (seq 0 (length v)) (interp_turn datanew limit) ;;
  ret datanew.

(** A cleaning call of a user's session, on objects of that session. *)
Inductive call : Type := FlagQc (data flag : ref) (level : R) | NullQc (data : ref) | InterpNan (data : ref) (limit : nat).
Definition call_args (c : call) : list ref :=
  match c with FlagQc d f _ => [d; f] | NullQc d => [d] | InterpNan d _ => [d] end.
(** Passing an object that does not exist yet fails before the call (NameError, here OtherError). *)
Definition run_call (c : call) : prog table ref :=
  fun h =>
    if forallb (fun r => Nat.ltb r (length h)) (call_args c) then
      match c with
      | FlagQc d f level => flag_qc_prog d f level h
      | NullQc d => null_qc_prog d h
      | InterpNan d limit => interp_nan_prog d limit h
      end
    else (Err OtherError, h).
(** A session: calls one after the other, each result (or exception) kept. *)
Fixpoint run_calls (cs : list call) (h : list table) : list (result ref) * list table :=
  match cs with
  | [] => ([], h)
  | c :: cs' => let '(r, h1) := run_call c h in let '(rs, h2) := run_calls cs' h1 in (r :: rs, h2)
  end.

(** ** field.py *)
Section Remap.
  Context {K C A : Type} `{Label K} `{Label C}.
  (** field.py:259: the value is read from the argument, the assignment goes to the copy. *)
  Definition remap_turn (data data_fix : ref) (item : K * K) (c : C) : prog (M_field_remap.table K C A) unit :=
    d <- get data ;;
    v <- lift (t_read d c (snd item)) ;;
    x <- get data_fix ;;
    put data_fix (t_write x (fst item) c v).
  (** field.py:252-260 remap_positions *)
  Definition remap_positions_prog (data : ref) (remap : list (K * K)) (columns : option (list C))
    : prog (M_field_remap.table K C A) ref :=
    d <- get data ;;
    let cols := match columns with None => t_cols d | Some cs => cs end in
    data_fix <- copy data ;;
    _ <- for_each remap (fun item => for_each cols (remap_turn data data_fix item)) ;;
    ret data_fix.
  (** field.py:426-430, the end of assign_positions, with the remap list it has found *)
  Definition assign_out_prog (original : ref) (remap : list (K * K)) : prog (M_field_remap.table K C A) ref :=
    data_out <- copy original ;; remap_positions_prog data_out remap None.
End Remap.

(** ** signalproc.py *)
Definition place (shape : string) (w : R) (xs : list R) (plant : list (option R)) (c : option R) : list (option R) :=
  if String.eqb shape "square" then place_square w xs plant c
  else if String.eqb shape "triangle" then place_triangle w xs plant c
  else place_gaussian w xs plant c.
(** signalproc.py:943-955, one turn: the plant is changed in place. *)
Definition place_turn (shape : string) (w : R) (xs : list R) (plant : ref) (c : option R) : prog (list (option R)) unit :=
  p <- get plant ;; put plant (place shape w xs p c).
(** signalproc.py:924-959 get_1d_plant: the centers are copied (np.array, then flatten) before the in-place subtraction; returns the
    plant and the position axis as new objects. *)
Definition get_1d_plant_prog (centers : ref) (ref_center : R) (width : option R) (shape : string) (dx xmax : R)
  : prog (list (option R)) (ref * ref) :=
  let w := match width with None => dx | Some w => w end in
  arr <- copy centers ;;
  flat <- copy arr ;;
  v <- get flat ;;
  _ <- put flat (map (option_map (fun c => c - ref_center)) v) ;;
  xs <- lift (arange (half_floor (- xmax)) (half_floor xmax) dx) ;;
  x_vec <- new (map Some xs) ;;
  plant <- new (map (fun _ => Some 0) xs) ;;
  cs <- get flat ;;
  if (String.eqb (lower shape) "square" || String.eqb (lower shape) "triangle" || String.eqb (lower shape) "gaussian")%bool
  then _ <- for_each cs (place_turn (lower shape) w xs plant) ;; ret (plant, x_vec)
  else lift (Err ValueError).
(** signalproc.py:1148-1150 cleanfreq: the index of the argument itself is replaced; nothing is returned. *)
Definition cleanfreq_prog {L V} (sig : ref) : prog (list (option L * V)) unit :=
  v <- get sig ;;
  r <- lift (cleanfreq v) ;;
  put sig (snd r).
