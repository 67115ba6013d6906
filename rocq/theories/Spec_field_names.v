(** Independent vocabulary for combiner names. *)
From Coq Require Import String Ascii.
Local Open Scope string_scope.

Definition no_hyphen (s : string) : Prop := forall i, String.get i s <> Some "-"%char.
(** [inv] stands between the first and the second hyphen of [nm] (or after the only one). *)
Definition names_inverter (nm inv : string) : Prop :=
  exists a, no_hyphen a /\ no_hyphen inv /\ (nm = a ++ "-" ++ inv \/ exists rest, nm = a ++ "-" ++ inv ++ "-" ++ rest).
