(** Model of demos/field_demo_full_process_multithread.py: the reassignment workflow with a pool of worker processes. No proofs
    in this file. The pool is python's multiprocessing.Pool as used by pool.imap with chunksize 1: tasks wait in one queue in
    the order of submission, an idle worker fetches the first one, a finished worker delivers the result (or the exception)
    under the task's number, and the main process takes the results in the order of the numbers, waiting for the next one.
    Workers are processes: a task sees only its arguments. A worker that is killed loses its task and is replaced by an idle
    one. Which worker moves when is decided by the schedule. *)
From Coq Require Import String.
From Verif Require Import Prelude RealBase Fl M_field_remap M_spatial M_cmv M_field_pos M_field_loop.

(** One move: a worker fetches a task, delivers its result or is killed at work; the main process takes the next result. *)
Inductive event : Type := Fetch (w : nat) | Deliver (w : nat) | Kill (w : nat) | Next.

Section Pool.
  Context {A B S : Type}.
  (** The function run by the workers, and what the main process does with each result. *)
  Variable task : A -> result B.
  Variable use : S -> B -> result S.

  (** The main process: waiting for the result of task number [i] with loop variables [s], out of the loop, or stopped by an
      exception. *)
  Inductive mainproc : Type := Waiting (i : nat) (s : S) | Ended (s : S) | Stopped (e : exn).
  Record pool : Type := mkPool {
    p_queue : list (nat * A);
    p_busy : list (nat * (nat * A));
    p_done : list (nat * result B);
    p_main : mainproc }.

  Definition numbered (l : list A) : list (nat * A) := combine (seq 0 (length l)) l.
  (** field_demo_full_process_multithread.py:109-120 Pool() and pool.imap: all tasks submitted, all workers idle. *)
  Definition pool_start (tasks : list A) (s : S) : pool := mkPool (numbered tasks) [] [] (Waiting 0 s).

  Fixpoint job_of {X} (k : nat) (l : list (nat * X)) : option X :=
    match l with [] => None | (j, x) :: r => if Nat.eqb k j then Some x else job_of k r end.
  Definition retire {X} (k : nat) (l : list (nat * X)) : list (nat * X) := filter (fun p => negb (Nat.eqb k (fst p))) l.

  (** field_demo_full_process_multithread.py:118-123: the for loop over pool.imap(...), one pass. [n] is the number of tasks. *)
  Definition main_next (n : nat) (p : pool) : option mainproc :=
    match p_main p with
    | Waiting i s =>
        if Nat.eqb i n then Some (Ended s)
        else match job_of i (p_done p) with
             | Some (Ok b) => match use s b with Ok s' => Some (Waiting (i + 1) s') | Err e => Some (Stopped e) end
             | Some (Err e) => Some (Stopped e)
             | None => None
             end
    | _ => None
    end.

  (** [workers]: number of processes. None: the move is not possible. *)
  Definition pool_step (workers n : nat) (ev : event) (p : pool) : option pool :=
    match ev with
    | Fetch w =>
        match p_queue p with
        | j :: q => if (Nat.ltb w workers && match job_of w (p_busy p) with None => true | Some _ => false end)%bool
                    then Some (mkPool q ((w, j) :: p_busy p) (p_done p) (p_main p)) else None
        | [] => None
        end
    | Deliver w =>
        match job_of w (p_busy p) with
        | Some (i, a) => Some (mkPool (p_queue p) (retire w (p_busy p)) ((i, task a) :: p_done p) (p_main p))
        | None => None
        end
    | Kill w =>
        match job_of w (p_busy p) with
        | Some _ => Some (mkPool (p_queue p) (retire w (p_busy p)) (p_done p) (p_main p))
        | None => None
        end
    | Next => option_map (mkPool (p_queue p) (p_busy p) (p_done p)) (main_next n p)
    end.

  Fixpoint pool_run (workers n : nat) (evs : list event) (p : pool) : option pool :=
    match evs with
    | [] => Some p
    | ev :: evs => match pool_step workers n ev p with Some p' => pool_run workers n evs p' | None => None end
    end.
End Pool.
Arguments Waiting {S}. Arguments Ended {S}. Arguments Stopped {S}.

Section FieldPool.
  Context {K : Type} `{Label K}.
  Variable inv_of : K -> string.
  Variable lsa : nat -> list (list R) -> list nat * list nat.
  Variable delays_tf : K * list (option R) -> list (K * list (option R)) -> result (list fl * list fl).
  Variable sort_values : list (K * fl) -> list (K * fl).
  Variable cmv_of : list (K * list (option R)) -> list (K * (R * R)) -> result (fl * fl).
  Variable pairs : list (list (K * list (option R)) * (R * R) * (list (K * list (option R)) * (R * R))).
  Variables (mode : string) (count : nat).

  (** field_demo_full_process_multithread.py:228-253 multipool_helper: one row per CMV pair. The demo's rows are labelled by
      the pair; labels are distinct. *)
  Definition multipool_helper (args : K * table K string R) : result (K * list (fl * fl)) :=
    let (cmb_id, pos_map) := args in
    let! preds := mapM (fun pr => let '((dfa, va), (dfb, vb)) := pr in
        let! (p, _) := compute_predicted_position delays_tf sort_values cmv_of dfa dfb (layout_sites pos_map) cmb_id
                         (Some (Some va, Some vb)) mode count in
        Ok p) pairs in
    Ok (cmb_id, preds).

  (** field_demo_full_process_multithread.py:106 mean_preds: NaN in every cell. *)
  Definition empty_preds (ids : list K) : list (K * list (option R)) := map (fun k => (k, [None; None])) ids.
  (** mean_preds.loc[cmb_id] = row *)
  Definition loc_set (rows : list (K * list (option R))) (k : K) (row : list (option R)) : list (K * list (option R)) :=
    map (fun r => if lab_eqb k (fst r) then (fst r, row) else r) rows.
  (** field_demo_full_process_multithread.py:123 mean_preds.loc[cmb_id] = cmb_preds.mean(). As in M_field_loop the later
      refusal of an infinite mean is put here. *)
  Definition store_mean (rows : list (K * list (option R))) (r : K * list (fl * fl)) : result (list (K * list (option R))) :=
    let! e := pred_cell (series_mean (map fst (snd r))) in
    let! n := pred_cell (series_mean (map snd (snd r))) in
    Ok (loc_set rows (fst r) [e; n]).

  (** field_demo_full_process_multithread.py:135-153 and 161-171: the rest of a round, given the predictions. The result is the
      new state, the value of changed, and whether the loop goes on. *)
  Definition rest_of_round (pos_utm : table K string R) (st : floop) (preds : table K string R) : result (floop * list K * bool) :=
    let! remap_new := all_assignments inv_of lsa (t_index pos_utm) (l_pos_map st) preds in
    let! remap_new := cascade_remap (l_remap st) remap_new in
    let! pos_upd := remap_positions pos_utm remap_new None in
    let stop := (existsb (remap_eqb remap_new) (l_remaps st) || Nat.leb 10 (length (l_positions st)))%bool in
    Ok (mkFloop (if stop then l_remap st else remap_new) (if stop then l_pos_map st else pos_upd)
                (l_remaps st ++ [remap_new]) (l_positions st ++ [pos_upd]) (l_predictions st ++ [preds]),
        changed remap_new (l_remap st), negb stop).

  (** field_demo_full_process_multithread.py:106-123 the predictions of a round: some schedule of [workers] processes leaves the
      main process in [m]. *)
  Definition pool_preds (workers : nat) (pos_utm pos_map : table K string R) (m : mainproc) : Prop :=
    exists evs p,
      pool_run multipool_helper store_mean workers (length (t_index pos_utm)) evs
        (pool_start (map (fun k => (k, pos_map)) (t_index pos_utm)) (empty_preds (t_index pos_utm))) = Some p /\ p_main p = m.

  (** field_demo_full_process_multithread.py:87-171 the while loop with a new pool in each round:
      [pool_process workers pos_utm st out] says that from [st] some schedules of the rounds lead to the outcome [out]. *)
  Inductive pool_process (workers : nat) (pos_utm : table K string R) : floop -> result (floop * list K) -> Prop :=
  | pool_stopped : forall st e, pool_preds workers pos_utm (l_pos_map st) (Stopped e) -> pool_process workers pos_utm st (Err e)
  | pool_raised : forall st rows e, pool_preds workers pos_utm (l_pos_map st) (Ended rows) ->
      rest_of_round pos_utm st (mkTable ["E"; "N"]%string rows) = Err e -> pool_process workers pos_utm st (Err e)
  | pool_last : forall st rows st' ch, pool_preds workers pos_utm (l_pos_map st) (Ended rows) ->
      rest_of_round pos_utm st (mkTable ["E"; "N"]%string rows) = Ok (st', ch, false) -> pool_process workers pos_utm st (Ok (st', ch))
  | pool_again : forall st rows st' ch out, pool_preds workers pos_utm (l_pos_map st) (Ended rows) ->
      rest_of_round pos_utm st (mkTable ["E"; "N"]%string rows) = Ok (st', ch, true) ->
      pool_process workers pos_utm st' out -> pool_process workers pos_utm st out.
End FieldPool.
