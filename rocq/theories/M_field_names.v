(** Combiner names in the reassignment demos: the inverter's name is read off the combiner's name. No proofs in this file. *)
From Coq Require Import String Ascii.
From Verif Require Import Prelude RealBase Fl M_field_remap M_field_loop M_field_reassign.
Local Open Scope string_scope.

(** Python's s.split(c) for a single character: never empty. *)
Fixpoint py_split (c : ascii) (s : string) : list string :=
  match s with
  | EmptyString => [""]
  | String d s' => if Ascii.eqb d c then "" :: py_split c s'
                   else match py_split c s' with w :: ws => String d w :: ws | [] => [String d ""] end
  end.
(** nm.split('-')[1]: field_demo_full_process.py:36 and 135, field_reassignment_demo.py:31 *)
Definition inverter_of (nm : string) : result string :=
  match nth_error (py_split "-" nm) 1 with Some w => Ok w | None => Err IndexError end.
(** The same once it is known not to fail. *)
Definition inverter_name (nm : string) : string := match inverter_of nm with Ok w => w | Err _ => "" end.

(** field_demo_full_process.py:35-37 then 66-168: the inverter names of all combiners are read before the loop starts. *)
Definition named_process lsa mean_pred (pos_utm : table string string R) : result (floop (K := string) * list string) :=
  let! _ := mapM inverter_of (t_index pos_utm) in
  field_process inverter_name lsa mean_pred pos_utm.

(** field_reassignment_demo.py:31 refs *)
Definition named_refs (ids : list string) (invs : list string) : result (list string) :=
  let! _ := mapM inverter_of ids in
  Ok (inverter_refs inverter_name ids invs).
(** field_reassignment_demo.py:31-100 *)
Definition named_demo lsa predict (pos_utm : table string string R) (invs : list string) : result (reassigned (K := string)) :=
  let! refs := named_refs (t_index pos_utm) invs in
  reassign_demo lsa predict pos_utm refs.
