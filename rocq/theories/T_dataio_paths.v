(** Property theorems. ensurepath creates exactly what is missing.
    Proofs are in the X_ file of the same name. *)
From Coq Require Import String.
From Verif Require Import Prelude PreludeFacts M_paths Spec_paths.
From Verif Require Import X_dataio_paths.

(** C92. Success: nothing happens if something is already there (file or directory); otherwise exactly the missing directories on
    the way to it are created, outermost first, and nothing else changes. *)
Theorem C92_ensurepath_creates :
  forall (t : tree) (p : path), well_formed t ->
  (kind_of t p <> None -> ensurepath t p = ([], Ok tt)) /\
  (kind_of t p = None -> (forall q, strictly_above q p -> kind_of t q <> Some File) ->
   exists ops, ensurepath t p = (ops, Ok tt) /\ NoDup ops /\
     (forall q, In q ops <-> above q p /\ kind_of t q = None) /\
     (forall i j qi qj, nth_error ops i = Some qi -> nth_error ops j = Some qj -> (i < j)%nat -> strictly_above qi qj) /\
     (forall q, above q p -> kind_of (made ops t) q = Some Folder) /\
     (forall q, ~ above q p -> kind_of (made ops t) q = kind_of t q)).
Proof. exact (@ensurepath_creates). Qed.
Print Assumptions C92_ensurepath_creates.

(** C92. A file on the way: an error, and nothing is created. *)
Theorem C92_ensurepath_blocked :
  forall (t : tree) (p : path), well_formed t -> kind_of t p = None ->
  (exists q, strictly_above q p /\ kind_of t q = Some File) -> ensurepath t p = ([], Err OtherError).
Proof. exact (@ensurepath_blocked). Qed.
Print Assumptions C92_ensurepath_blocked.

(** C92. A crash after any number of creations leaves a well-formed tree, from which a second call completes the rest; after success a
    second call does nothing. *)
Theorem C92_ensurepath_resume :
  forall (t : tree) (p : path) ops n, well_formed t -> ensurepath t p = (ops, Ok tt) ->
  well_formed (made (firstn n ops) t) /\ ensurepath (made (firstn n ops) t) p = (skipn n ops, Ok tt).
Proof. exact (@ensurepath_resume). Qed.
Print Assumptions C92_ensurepath_resume.

(** C92. Refuted: that afterwards the path is a usable directory. A file at the path itself is accepted silently. *)
Theorem C92_ensurepath_file_refuted :
  exists (t : tree) (p : path), well_formed t /\ ensurepath t p = ([], Ok tt) /\ kind_of t p = Some File.
Proof. exact (@ensurepath_file_refuted). Qed.
Print Assumptions C92_ensurepath_file_refuted.

(** C92. data/hope below an existing directory. *)
Example C92_ensurepath_example :
  let t := [(["data"%string], Folder); (["notes"%string], File)] in
  well_formed t /\ ensurepath t ["raw"; "hope"; "data"]%string = ([["hope"; "data"]; ["raw"; "hope"; "data"]]%string, Ok tt) /\
  ensurepath t ["x"; "notes"]%string = ([], Err OtherError).
Proof. exact (@ensurepath_example). Qed.

