(** Property theorems. Downloads: completion, resumption and the crash window.
    Proofs are in the X_ file of the same name. *)
From Coq Require Import String Ascii Permutation Sorted.
From Verif Require Import Prelude PreludeFacts P_list M_iotools Spec_dataio X_dataio_files.
From Verif Require Import X_dataio_wget.

(** C81. A run succeeds exactly when every line asks for a file that is there, was asked for before, or can be downloaded. *)
Theorem C81_wget_ok :
  forall {B} (w : @web B) lines fs, snd (wget_fromurl w lines fs) = Ok tt <-> servable w lines (dget fs).
Proof. exact (@wget_ok). Qed.
Print Assumptions C81_wget_ok.

(** C81. A run that succeeds leaves every file that was there as it was and every other listed file with the whole content of the
    first URL listed under its name, and creates nothing else. *)
Theorem C81_wget_complete :
  forall {B} (w : @web B) lines fs ops,
  wget_fromurl w lines fs = (ops, Ok tt) -> forall name, served w lines (dget fs) name (dget (apply_ops ops fs) name).
Proof. exact (@wget_complete). Qed.
Print Assumptions C81_wget_complete.

(** C81. After a run that succeeds, every line's file is there and running again performs no operation, whatever is served then. *)
Theorem C81_wget_again :
  forall {B} (w w' : @web B) lines fs ops,
  wget_fromurl w lines fs = (ops, Ok tt) ->
  (forall line, In line lines -> exists url name, asks_for line url name /\ dget (apply_ops ops fs) name <> None) /\
  wget_fromurl w' lines (apply_ops ops fs) = ([], Ok tt).
Proof. exact (@wget_again). Qed.
Print Assumptions C81_wget_again.

(** C81. At no point of any history of runs, whatever is served and wherever each run is stopped, is a file overwritten that was there;
    in particular a truncated file is never repaired. *)
Theorem C81_wget_never_overwrites :
  forall {B} (history : list (@web B * list string * nat)) fs name blocks,
  dget fs name = Some blocks ->
  dget (fold_left (fun fs '(w, lines, k) => apply_ops (firstn k (fst (wget_fromurl w lines fs))) fs) history fs) name = Some blocks.
Proof. exact (@wget_never_overwrites). Qed.
Print Assumptions C81_wget_never_overwrites.

(** C81. Wherever a run stops, each file that was not there is still absent or holds an initial part of what its first URL serves,
    and at most one file is incomplete. *)
Theorem C81_wget_crash :
  forall {B} (w : @web B) lines fs k, exists incomplete, forall name,
  dget fs name = None ->
  let found := dget (apply_ops (firstn k (fst (wget_fromurl w lines fs))) fs) name in
  found = None \/ exists url blocks full, first_ask lines name url /\ w url = Some (blocks, full) /\
    (found = Some blocks /\ full = true \/ name = incomplete /\ exists j, found = Some (firstn j blocks)).
Proof. exact (@wget_crash). Qed.
Print Assumptions C81_wget_crash.

(** C81. Stopping between two lines loses nothing: the second run does exactly what the first had left to do. *)
Theorem C81_wget_resume :
  forall {B} (w : @web B) lines1 lines2 fs ops,
  wget_fromurl w lines1 fs = (ops, Ok tt) ->
  let rest := wget_fromurl w (lines1 ++ lines2) (apply_ops ops fs) in
  wget_fromurl w (lines1 ++ lines2) fs = (ops ++ fst rest, snd rest).
Proof. exact (@wget_resume). Qed.
Print Assumptions C81_wget_resume.

(** C81. The failure of a run: a blank line raises IndexError; an unnamed or unavailable file raises the download's error. *)
Theorem C81_wget_fails :
  forall {B} (w : @web B) lines1 line lines2 fs ops,
  wget_fromurl w lines1 fs = (ops, Ok tt) ->
  (blank_line line -> wget_fromurl w (lines1 ++ line :: lines2) fs = (ops, Err IndexError)) /\
  (forall url name, asks_for line url name -> dget (apply_ops ops fs) name = None ->
     (name = EmptyString \/ w url = None -> wget_fromurl w (lines1 ++ line :: lines2) fs = (ops, Err OtherError)) /\
     (forall blocks, name <> EmptyString -> w url = Some (blocks, false) ->
        snd (wget_fromurl w (lines1 ++ line :: lines2) fs) = Err OtherError /\
        dget (apply_ops (fst (wget_fromurl w (lines1 ++ line :: lines2) fs)) fs) name = Some blocks)).
Proof. exact (@wget_fails). Qed.
Print Assumptions C81_wget_fails.

(** C81. The truncated file: there is a script and a crash point after which every complete re-run reports success, performs nothing and
    leaves half of what is served. *)
Theorem C81_wget_truncated_refuted :
  exists (w : @web nat) lines k,
  let fs := apply_ops (firstn k (fst (wget_fromurl w lines []))) [] in
  wget_fromurl w lines fs = ([], Ok tt) /\ dget fs "a.nc"%string = Some [1] /\
  asks_for (nth 0 lines EmptyString) "http://x/y/a.nc" "a.nc" /\ w "http://x/y/a.nc"%string = Some ([1; 2], true).
Proof. exact (@wget_truncated_refuted). Qed.
Print Assumptions C81_wget_truncated_refuted.

Example C81_wget_ex :
  wget_fromurl demo_web demo_lines [] = ([Create "a.nc"; Append "a.nc" 1; Append "a.nc" 2]%string, Ok tt) /\
  servable demo_web demo_lines (dget []) /\ (wget_fromurl demo_web ("" :: demo_lines) [] = ([], Err IndexError))%string.
Proof. exact (@wget_ex). Qed.

