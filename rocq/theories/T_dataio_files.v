(** Property theorems. Directory listings and downloads.
    Proofs are in the X_ file of the same name. *)
From Coq Require Import String Ascii Permutation Sorted.
From Verif Require Import Prelude PreludeFacts P_list M_iotools Spec_dataio.
From Verif Require Import X_dataio_files.

(** C80. Exactly the entries with the requested extension are returned; all of them when no extension is requested. *)
Theorem C80_files_members :
  forall listing ext sort name,
  In name (getfiles listing ext sort) <-> In name listing /\ match ext with None => True | Some e => extension name e end.
Proof. exact (@files_members). Qed.
Print Assumptions C80_files_members.

(** C80. Every name has exactly one extension, so no entry is matched by two different requests. *)
Theorem C80_files_one_extension :
  forall name, exists e, extension name e /\ forall e', extension name e' -> e' = e.
Proof. exact (@files_one_extension). Qed.
Print Assumptions C80_files_one_extension.

(** C80. Each entry comes back as often as it is listed, so exactly once in a real directory. *)
Theorem C80_files_once :
  forall listing ext sort, NoDup listing -> NoDup (getfiles listing ext sort).
Proof. exact (@files_once). Qed.
Print Assumptions C80_files_once.

(** C80. A sorted result is in ascending order. *)
Theorem C80_files_ascending :
  forall listing ext, StronglySorted (fun a b => String.leb a b = true) (getfiles listing ext true).
Proof. exact (@files_ascending). Qed.
Print Assumptions C80_files_ascending.

(** C80. A sorted result does not depend on the order in which the directory is listed. *)
Theorem C80_files_order_free :
  forall listing listing' ext,
  Permutation listing listing' -> getfiles listing ext true = getfiles listing' ext true.
Proof. exact (@files_order_free). Qed.
Print Assumptions C80_files_order_free.

(** C80. An unsorted result keeps the order of the listing. *)
Theorem C80_files_unsorted :
  forall listing listing' ext,
  getfiles (listing ++ listing') ext false = getfiles listing ext false ++ getfiles listing' ext false /\
  getfiles listing None false = listing.
Proof. exact (@files_unsorted). Qed.
Print Assumptions C80_files_unsorted.

(** C80. A hidden file has no extension and a double extension is its last part. *)
Example C80_files_ex :
  getfiles ["b.csv"; ".csv"; "a.tar.csv"; "csv"; "c.nc"; "c.csv.bak"]%string (Some ".csv"%string) true = ["a.tar.csv"; "b.csv"]%string /\
  extension "a.tar.csv" ".csv" /\ extension ".csv" "".
Proof. exact (@files_ex). Qed.

