(** Model of demos/field_reassignment_demo.py: three rounds of reassignment restricted to the combiners of chosen inverters.
    No proofs in this file. Reading of the data file, printing and plotting left out. *)
From Coq Require Import String.
From Verif Require Import Prelude RealBase Fl M_field_remap M_spatial M_cmv M_field_pos M_field_loop.

Section Reassign.
  Context {K : Type} `{Label K}.
  (** nm.split('-')[1]. A parameter here; M_field_names.v reads it off the name, IndexError included. *)
  Variable inv_of : K -> string.
  Variable lsa : nat -> list (list R) -> list nat * list nat.
  (** The prediction for one combiner given a layout; None is NaN. *)
  Variable predict : table K string R -> K -> result (option R * option R).

  (** field_reassignment_demo.py:31 refs: equality of names here, unlike the whole-plant demo. *)
  Definition inverter_refs (ids : list K) (invs : list string) : list K :=
    filter (fun nm => existsb (String.eqb (inv_of nm)) invs) ids.

  (** field_reassignment_demo.py:42-50, 66-72 and 91-97: predictions for [refs] in the layout [L], and their assignment to the
      locations [refs] have in it. *)
  Definition assign_refs (refs : list K) (L : table K string R) : result (table K string R * list (K * K)) :=
    let! preds := all_preds predict refs L in
    let! orig := t_loc L refs in
    let! (remap_inds, _) := assign_positions lsa orig preds in
    Ok (preds, remap_inds).

  (** What is printed and plotted: predictions and remaps of the three rounds, the two new layouts, and the two answers to
      "Has the remap stayed the same after recalculating?" *)
  Record reassigned := mkReassigned {
    ra_preds : table K string R * table K string R * table K string R;
    ra_remaps : list (K * K) * list (K * K) * list (K * K);
    ra_layouts : table K string R * table K string R;
    ra_same : bool * bool }.

  (** field_reassignment_demo.py:41-100 *)
  Definition reassign_demo (pos_utm : table K string R) (refs : list K) : result reassigned :=
    let! (preds_r0, remap_inds_r0) := assign_refs refs pos_utm in
    let! pos_utm_r1 := remap_positions pos_utm remap_inds_r0 None in
    let! (preds_r1, new_r1) := assign_refs refs pos_utm_r1 in
    let! remap_inds_r1 := cascade_remap remap_inds_r0 new_r1 in
    let! pos_utm_r2 := remap_positions pos_utm remap_inds_r1 None in
    let! (preds_r2, new_r2) := assign_refs refs pos_utm_r2 in
    let! remap_inds_r2 := cascade_remap remap_inds_r1 new_r2 in
    Ok (mkReassigned (preds_r0, preds_r1, preds_r2) (remap_inds_r0, remap_inds_r1, remap_inds_r2) (pos_utm_r1, pos_utm_r2)
          (remap_eqb remap_inds_r1 remap_inds_r0, remap_eqb remap_inds_r2 remap_inds_r1)).
End Reassign.
Arguments mkReassigned {K}. Arguments ra_preds {K}. Arguments ra_remaps {K}. Arguments ra_layouts {K}. Arguments ra_same {K}.

Section OnePair.
  Context {K : Type} `{Label K}.
  Variable delays_tf : K * list (option R) -> list (K * list (option R)) -> result (list fl * list fl).
  Variable sort_values : list (K * fl) -> list (K * fl).
  Variable cmv_of : list (K * list (option R)) -> list (K * (R * R)) -> result (fl * fl).
  (** field_reassignment_demo.py:44-45 with the defaults of compute_predicted_position. As in M_field_loop the later refusal of an
      infinite prediction is put here. *)
  Definition pair_pred (dfa : list (K * list (option R))) (va : R * R) (dfb : list (K * list (option R))) (vb : R * R) (mode : string) (n : nat)
      (L : table K string R) (ref : K) : result (option R * option R) :=
    let! (p, _) := compute_predicted_position delays_tf sort_values cmv_of dfa dfb (layout_sites L) ref (Some (Some va, Some vb)) mode n in
    let! e := pred_cell (fst p) in
    let! n := pred_cell (snd p) in
    Ok (e, n).
End OnePair.
