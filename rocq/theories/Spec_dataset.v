(** Independent vocabulary: spelling without regard to case. *)
From Coq Require Import String Ascii.

Definition small_letters : string := "abcdefghijklmnopqrstuvwxyz".
Definition capital_letters : string := "ABCDEFGHIJKLMNOPQRSTUVWXYZ".
(** The same character, or a small letter against its capital. *)
Definition same_letter (c d : ascii) : Prop :=
  c = d \/ exists i, String.get i small_letters = Some c /\ String.get i capital_letters = Some d.
(** [s] spells the capitalised word [t], each letter large or small. *)
Fixpoint spells (s t : string) : Prop :=
  match s, t with
  | EmptyString, EmptyString => True
  | String c s', String d t' => same_letter c d /\ spells s' t'
  | _, _ => False
  end.
(** A character in small print: a capital becomes its small letter, anything else stays. *)
Definition small_print (c d : ascii) : Prop :=
  (exists i, String.get i capital_letters = Some c /\ String.get i small_letters = Some d) \/
  ((forall i, String.get i capital_letters <> Some c) /\ d = c).
(** [t] is [s] in small print. *)
Fixpoint in_small_print (s t : string) : Prop :=
  match s, t with
  | EmptyString, EmptyString => True
  | String c s', String d t' => small_print c d /\ in_small_print s' t'
  | _, _ => False
  end.
