(** Model of reading one column out of the tables averaged_tf returns: tf[name] and coh[name] of the pandas DataFrames
    built at src/solarspatialtools/signalproc.py:323-324, whose columns are named at 289-294.
    pandas answers a label that occurs once with a Series, one that occurs several times with a DataFrame of all
    of them, in table order, and one that does not occur with KeyError.
    Simplification: the transfer function and the coherence table have the same column names (both are given the
    list [cols]), so one selection stands for both. *)
From Coq Require Import String.
From Verif Require Import Prelude.

(** What df[name] is: one column or a table of several. *)
Inductive picked (A : Type) := OneColumn (c : A) | Columns (cs : list A).
Arguments OneColumn {A} _.
Arguments Columns {A} _.

(** df[name] on a table given as named columns (signalproc.py:323-324, read by a caller). *)
Definition pick {A} (name : string) (cols : list (string * A)) : result (picked A) :=
  match map snd (filter (fun c => String.eqb (fst c) name) cols) with
  | [] => Err KeyError
  | [c] => Ok (OneColumn c)
  | cs => Ok (Columns cs)
  end.
