(** Property theorems. Creating a directory while other processes create directories.
    Proofs are in the X_ file of the same name. *)
From Coq Require Import String.
From Verif Require Import Prelude PreludeFacts M_paths Spec_paths M_paths_race.
From Verif Require Import X_paths_race.

(** C124. Whatever directories others create in between, nothing is lost and only directories on the way to the path, or those of the
    others, appear. If no file is in the way, the directory and all above it exist at the end, and the call returns, or it raises
    FileExistsError; it raises only if the path did not exist at the start and another process has created that very path
    after the check. *)
Theorem C124_ensurepath_race :
  forall env t p r t', well_formed t -> ensurepath_env env t p = (r, t') ->
  (forall q, above q p -> kind_of t q <> Some File) ->
  well_formed t' /\ (forall q k, kind_of t q = Some k -> kind_of t' q = Some k) /\
  (forall q, kind_of t q = None -> kind_of t' q <> None -> kind_of t' q = Some Folder /\ (above q p \/ exists i, In q (env i))) /\
  (forall q, above q p -> kind_of t' q = Some Folder) /\
  (r = Ok tt \/ (r = Err FileExistsError /\ kind_of t p = None /\ exists i, (1 <= i)%nat /\ In p (env i))).
Proof. exact (@ensurepath_race). Qed.
Print Assumptions C124_ensurepath_race.

(** C124. A file in the way: the call fails whatever the others do, and creates nothing. *)
Theorem C124_ensurepath_race_blocked :
  forall env t p r t', well_formed t -> ensurepath_env env t p = (r, t') ->
  (exists q, strictly_above q p /\ kind_of t q = Some File) ->
  r = Err OtherError /\ (forall q, kind_of t q = None -> kind_of t' q <> None -> exists i, In q (env i)).
Proof. exact (@ensurepath_race_blocked). Qed.
Print Assumptions C124_ensurepath_race_blocked.

(** C124. With nobody else at work it is the call of C92. *)
Theorem C124_ensurepath_alone :
  forall t p,
  ensurepath_env (fun _ => []) t p = (snd (ensurepath t p), made (fst (ensurepath t p)) t).
Proof. exact (@ensurepath_alone). Qed.
Print Assumptions C124_ensurepath_alone.

(** C124. The race is always possible: for every missing directory without a file in its way there is an order of events in which the
    call raises FileExistsError although the directory exists at the end. *)
Theorem C124_ensurepath_race_refuted :
  forall t p, well_formed t -> kind_of t p = None -> (forall q, above q p -> kind_of t q <> Some File) ->
  exists env t', ensurepath_env env t p = (Err FileExistsError, t') /\ kind_of t' p = Some Folder.
Proof. exact (@ensurepath_race_refuted). Qed.
Print Assumptions C124_ensurepath_race_refuted.

(** C124. data/hope/2013 is wanted in a tree with data and a file readme. A neighbour who makes data/hope in between does no harm; one who
    makes all of it after the check lets the call raise; below the file readme nothing can be made. *)
Example C124_race_example :
  well_formed demo_tree /\
  ensurepath_env (fun i => match i with 2%nat => [["hope"; "data"]%string] | _ => [] end) demo_tree ["2013"; "hope"; "data"]%string =
    (Ok tt, (["2013"; "hope"; "data"]%string, Folder) :: (["hope"; "data"]%string, Folder) :: demo_tree) /\
  ensurepath_env (fun i => match i with 3%nat => [["hope"; "data"]; ["2013"; "hope"; "data"]]%string | _ => [] end) demo_tree ["2013"; "hope"; "data"]%string =
    (Err FileExistsError, (["2013"; "hope"; "data"]%string, Folder) :: (["hope"; "data"]%string, Folder) :: demo_tree) /\
  ensurepath_env (fun i => match i with 0%nat => [["logs"]%string] | _ => [] end) demo_tree ["x"; "readme"]%string =
    (Err OtherError, (["logs"]%string, Folder) :: demo_tree).
Proof. exact (@race_example). Qed.

