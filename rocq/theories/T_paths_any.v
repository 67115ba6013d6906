(** Property theorems. Creating a directory while other processes create and delete at will (C132).
    Proofs are in the X_ file of the same name. *)
From Coq Require Import String Lia.
From Verif Require Import Prelude PreludeFacts M_paths Spec_paths M_paths_race M_paths_any Spec_paths_any.
From Verif Require Import X_paths_any.

(** C132. Whatever others do to the tree before each of its system calls, ensurepath ends after at most two calls per component and one
    more. It never removes or replaces anything: all it does is to add directories, each missing at that moment and below a
    directory, each on the way to the path, from the outside in, none twice. When it ends, the path exists if it returns and also
    if it raises FileExistsError; and otherwise something above the path is not a directory at that moment. *)
Theorem C132_ensurepath_any_end :
  forall env t p r w, ensurepath_any env t p = (r, w) ->
  calls w <= 2 * length p + 1 /\
  woven env 0 t (rev (own w)) (calls w) (now w) /\
  Forall (fun q => above q p) (own w) /\ inwards (rev (own w)) /\
  match r with
  | Ok _ => kind_of (now w) p <> None
  | Err FileExistsError => kind_of (now w) p <> None
  | Err e => e = OtherError /\ exists q, strictly_above q p /\ kind_of (now w) q <> Some Folder
  end.
Proof. exact (@ensurepath_any_end). Qed.
Print Assumptions C132_ensurepath_any_end.

(** C132. A call that has made a directory and returned has made the path itself, as its last act: it is a directory at the end. *)
Theorem C132_ensurepath_any_made :
  forall env t p r w, ensurepath_any env t p = (r, w) -> r = Ok tt -> own w <> [] ->
  kind_of (now w) p = Some Folder /\ hd_error (own w) = Some p.
Proof. exact (@ensurepath_any_made). Qed.
Print Assumptions C132_ensurepath_any_made.

(** C132. So a directory cannot be made for sure while others delete: with at least two components there is, for every tree, an order of
    events in which the call raises neither FileExistsError nor returns, though no file was ever in the way. With one component there
    is none. *)
Theorem C132_ensurepath_any_refuted :
  (forall t p, 2 <= length p -> fst (ensurepath_any wiped t p) = Err OtherError) /\
  (forall env t c, fst (ensurepath_any env t [c]) <> Err OtherError).
Proof. exact (@ensurepath_any_refuted). Qed.
Print Assumptions C132_ensurepath_any_refuted.

(** C132. With others that only create directories it is the call of C124. *)
Theorem C132_ensurepath_any_creating :
  forall mk t p,
  let w := ensurepath_any (creating mk) t p in (fst w, now (snd w)) = M_paths_race.ensurepath_env mk t p.
Proof. exact (@ensurepath_any_creating). Qed.
Print Assumptions C132_ensurepath_any_creating.

(** C132. Three components are wanted and only the outermost exists; others delete it and make it again while the call runs. The call
    goes through: it makes the two missing directories. *)
Example C132_ensurepath_any_example :
  let env := fun i (t : tree) => match i with 1 => [] | 2 => [(["a"%string], Folder)] | _ => t end in
  ensurepath_any env [(["a"%string], Folder)] ["c"; "b"; "a"]%string
  = (Ok tt, World 5 [["c"; "b"; "a"]%string; ["b"; "a"]%string]
                    [(["c"; "b"; "a"]%string, Folder); (["b"; "a"]%string, Folder); (["a"%string], Folder)]).
Proof. exact (@ensurepath_any_example). Qed.

