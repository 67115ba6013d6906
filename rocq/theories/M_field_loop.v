(** Model of the reassignment workflow of demos/field_demo_full_process.py (lines 33-37 and 66-168; the same loop stands in
    demos/field_demo_full_process_multithread.py). No proofs in this file. Reading of the data file, progress bars,
    printing and plotting left out. *)
From Coq Require Import String.
From Verif Require Import Prelude RealBase Fl M_field_remap M_spatial M_cmv M_field_pos.

(** Python's [a in b] for strings. *)
Definition py_contains (a b : string) : bool :=
  match String.index 0 a b with Some _ => true | None => false end.

(** Equality of lists of name pairs. *)
Fixpoint remap_eqb {K} `{Label K} (a b : list (K * K)) : bool :=
  match a, b with
  | [], [] => true
  | p :: a, q :: b => lab_eqb (fst p) (fst q) && lab_eqb (snd p) (snd q) && remap_eqb a b
  | _, _ => false
  end.

Section FieldLoop.
  Context {K : Type} `{Label K}.
  (** field_demo_full_process.py:36 nm.split('-')[1]: the inverter's name within a combiner's name. A parameter here;
      M_field_names.v reads it off the name, IndexError included. *)
  Variable inv_of : K -> string.
  Variable lsa : nat -> list (list R) -> list nat * list nat.
  (** The prediction for one combiner given a layout, averaged over the CMV pairs (lines 101-122); None is NaN. *)
  Variable mean_pred : table K string R -> K -> result (option R * option R).

  (** field_demo_full_process.py:36-37 inv_ids: the distinct inverter names, sorted. *)
  Definition inverter_ids (ids : list K) : list string :=
    sort_by lab_leb (nodup string_dec (map inv_of ids)).
  (** field_demo_full_process.py:135 refsub: a substring test, not equality. *)
  Definition refsub (ids : list K) (inv : string) : list K :=
    filter (fun nm => py_contains inv (inv_of nm)) ids.

  (** df.loc[labels] *)
  Definition t_loc (t : table K string R) (ks : list K) : result (table K string R) :=
    let! rows := mapM (fun k => match dget (t_rows t) k with
                                | Some row => Ok (k, row)
                                | None => Err KeyError
                                end) ks in
    Ok (mkTable (t_cols t) rows).

  (** field_demo_full_process.py:97-122 mean_preds *)
  Definition all_preds (ids : list K) (pos_map : table K string R) : result (table K string R) :=
    let! rows := mapM (fun k => let! p := mean_pred pos_map k in Ok (k, [fst p; snd p])) ids in
    Ok (mkTable ["E"; "N"]%string rows).

  (** field_demo_full_process.py:132-140 the assignments of all inverters, one after the other *)
  Definition all_assignments (ids : list K) (pos_map preds : table K string R) : result (list (K * K)) :=
    let! parts := mapM (fun inv =>
        let! orig := t_loc pos_map (refsub ids inv) in
        let! pred := t_loc preds (refsub ids inv) in
        let! (remap_inds, _) := assign_positions lsa orig pred in
        Ok remap_inds) (inverter_ids ids) in
    Ok (concat parts).

  (** field_demo_full_process.py:97-145: one round. *)
  Definition field_round (pos_utm : table K string R) (remap : list (K * K)) (pos_map : table K string R)
    : result (table K string R * list (K * K) * table K string R) :=
    let ids := t_index pos_utm in
    let! preds := all_preds ids pos_map in
    let! remap_new := all_assignments ids pos_map preds in
    let! remap_new := cascade_remap remap remap_new in
    let! pos_upd := remap_positions pos_utm remap_new None in
    Ok (preds, remap_new, pos_upd).

  (** The variables of the loop. *)
  Record floop := mkFloop {
    l_remap : list (K * K);
    l_pos_map : table K string R;
    l_remaps : list (list (K * K));
    l_positions : list (table K string R);
    l_predictions : list (table K string R)
  }.

  (** field_demo_full_process.py:66-78 *)
  Definition loop_start (pos_utm : table K string R) : floop :=
    let remap := map (fun ref => (ref, ref)) (t_index pos_utm) in
    mkFloop remap pos_utm [remap] [pos_utm] [].

  (** field_demo_full_process.py:149 changed: entries compared by position. *)
  Definition changed (remap_new remap : list (K * K)) : list K :=
    map (fun p => fst (fst p))
        (filter (fun p => negb (lab_eqb (fst (fst p)) (fst (snd p)) && lab_eqb (snd (fst p)) (snd (snd p))))
                (combine remap_new remap)).

  (** field_demo_full_process.py:84-168 the while loop; [fuel] bounds the number of rounds. The result is the
      final state and the last value of changed. *)
  Fixpoint rounds (fuel : nat) (pos_utm : table K string R) (st : floop) : result (floop * list K) :=
    match fuel with
    | O => Err OtherError
    | S fuel =>
        let! (preds, remap_new, pos_upd) := field_round pos_utm (l_remap st) (l_pos_map st) in
        let stop := existsb (remap_eqb remap_new) (l_remaps st) || Nat.leb 10 (length (l_positions st)) in
        let st' := mkFloop (if stop then l_remap st else remap_new)
                           (if stop then l_pos_map st else pos_upd)
                           (l_remaps st ++ [remap_new]) (l_positions st ++ [pos_upd]) (l_predictions st ++ [preds]) in
        if stop then Ok (st', changed remap_new (l_remap st)) else rounds fuel pos_utm st'
    end.

  (** The whole process. *)
  Definition field_process (pos_utm : table K string R) : result (floop * list K) :=
    rounds 10 pos_utm (loop_start pos_utm).
End FieldLoop.
Arguments l_remap {K}. Arguments l_pos_map {K}. Arguments l_remaps {K}. Arguments l_positions {K}. Arguments l_predictions {K}.
Arguments mkFloop {K}.

Section PairMean.
  Context {K : Type} `{Label K}.
  Variable delays_tf : K * list (option R) -> list (K * list (option R)) -> result (list fl * list fl).
  Variable sort_values : list (K * fl) -> list (K * fl).
  Variable cmv_of : list (K * list (option R)) -> list (K * (R * R)) -> result (fl * fl).

  (** The layout as compute_predicted_position reads it: the E and N columns. Simplification: E and N are the first
      two columns and hold numbers. *)
  Definition layout_sites (t : table K string R) : list (K * (R * R)) :=
    map (fun r => (fst r, match snd r with Some e :: Some n :: _ => (e, n) | _ => (0, 0)%R end)) (t_rows t).

  (** A mean that is infinite makes linear_sum_assignment refuse the cost matrix (ValueError); the refusal is put here. *)
  Definition pred_cell (x : fl) : result (option R) :=
    match x with Fin r => Ok (Some r) | Nan => Ok None | _ => Err ValueError end.

  (** field_demo_full_process.py:106-122: one prediction per CMV pair, column means skipping NaN. A pair holds the two
      tables and CMVs; [mode] and [n] are the demo's defaults. *)
  Definition pairs_mean (pairs : list (list (K * list (option R)) * (R * R) * (list (K * list (option R)) * (R * R))))
      (mode : string) (n : nat) (pos_map : table K string R) (cmb : K) : result (option R * option R) :=
    let! preds := mapM (fun pr => let '((dfa, va), (dfb, vb)) := pr in
        let! (p, _) := compute_predicted_position delays_tf sort_values cmv_of dfa dfb (layout_sites pos_map) cmb
                         (Some (Some va, Some vb)) mode n in
        Ok p) pairs in
    let! e := pred_cell (series_mean (map fst preds)) in
    let! n := pred_cell (series_mean (map snd preds)) in
    Ok (e, n).
End PairMean.
