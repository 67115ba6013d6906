(** Vocabulary for layout tables with named columns. *)
From Coq Require Import String.
From Verif Require Import Prelude RealBase Fl M_field_cols.
Local Open Scope R_scope.

(** A table of the given sites with columns E and N. *)
Definition east_north {K} (sites : list (K * (R * R))) : layout K :=
  mkLayout ["E"; "N"]%string (map (fun s => (fst s, [fst (snd s); snd (snd s)])) sites).
(** The same sites with the two columns in the other order. *)
Definition north_east {K} (sites : list (K * (R * R))) : layout K :=
  mkLayout ["N"; "E"]%string (map (fun s => (fst s, [snd (snd s); fst (snd s)])) sites).
(** The same sites with further columns [more] after E and N; the cells of a site are [extra]. *)
Definition with_columns {K} (more : list string) (extra : K -> list R) (sites : list (K * (R * R))) : layout K :=
  mkLayout ("E" :: "N" :: more)%string (map (fun s => (fst s, fst (snd s) :: snd (snd s) :: extra (fst s))) sites).
(** A position moved by a vector. *)
Definition moved (p : fl * fl) (d : R * R) : fl * fl := (fadd (fst p) (Fin (fst d)), fadd (snd p) (Fin (snd d))).
