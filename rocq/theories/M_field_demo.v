(** Model of demos/field_demo.py (the loop over combiners) and of the worked steps of demos/field_demo_detailed.ipynb. No proofs in this file. *)
From Coq Require Import String.
From Verif Require Import Prelude RealBase Fl M_spatial M_cmv M_field_pos.
Local Open Scope R_scope.

(** pos_utm.index[lo:hi] *)
Definition index_slice {A} (lo hi : nat) (l : list A) : list A := firstn (hi - lo) (skipn lo l).

Section FieldDemo.
  Context {K : Type} `{Label K}.
  Variable delays_tf : K * list (option R) -> list (K * list (option R)) -> result (list fl * list fl).
  Variable sort_values : list (K * fl) -> list (K * fl).
  Variable cmv_of : list (K * list (option R)) -> list (K * (R * R)) -> result (fl * fl).

  (** field_demo.py:46 the empty frame: one row per combiner, columns E, N, com-E, com-N, NaN everywhere. *)
  Definition empty_frame (pos_utm : list (K * (R * R))) : list (K * list fl) := map (fun p => (fst p, [Nan; Nan; Nan; Nan])) pos_utm.
  (** df.loc[ref] = row *)
  Definition frame_set (df : list (K * list fl)) (ref : K) (row : list fl) : list (K * list fl) :=
    map (fun r => if lab_eqb ref (fst r) then (fst r, row) else r) df.
  (** field_demo.py:53-64 one turn of the loop. *)
  Definition demo_turn (ts_a ts_b : list (K * list (option R))) (va vb : R * R) (pos_utm : list (K * (R * R))) (df : list (K * list fl)) (ref : K)
    : result (list (K * list fl)) :=
    let! (pos, _) := compute_predicted_position delays_tf sort_values cmv_of ts_a ts_b pos_utm ref (Some (Some va, Some vb)) "preavg" 8 in
    let! rp := lookup pos_utm ref in
    Ok (frame_set df ref [Fin (fst rp); Fin (snd rp); fst pos; snd pos]).
  (** field_demo.py:46-64. The demo has [lo] = 46 and [hi] = 62. *)
  Definition field_demo (lo hi : nat) (ts_a ts_b : list (K * list (option R))) (va vb : R * R) (pos_utm : list (K * (R * R))) : result (list (K * list fl)) :=
    foldM (fun df ref => demo_turn ts_a ts_b va vb pos_utm df ref) (index_slice lo hi (map fst pos_utm)) (empty_frame pos_utm).
  (** field_demo.py:77-79 the red lines: from (E, N) to (com-E, com-N) for every row. *)
  Definition red_lines (df : list (K * list fl)) : list ((fl * fl) * (fl * fl)) :=
    map (fun r => match snd r with [e; n; ce; cn] => ((e, n), (ce, cn)) | _ => ((Nan, Nan), (Nan, Nan)) end) df.

  (** field_demo_detailed.ipynb:253-262 (ninth cell): the points ranked by coherence, as in select_points but without the test for finite values. *)
  Definition worked_points (ndownsel : nat) (d : list (K * ppdata)) : list K :=
    map fst (slice_neg ndownsel (sort_values (map (fun r => (fst r, pp_coh (snd r))) d))).
  (** np.mean(...) * spatial.unit(cmv) *)
  Definition along_cmv (e : fl) (v : R * R) : fl * fl := let '(ux, uy) := unit_vec v in (fmul e ux, fmul e uy).
  (** field_demo_detailed.ipynb:316-318: the intersection, its length, and the position it gives. *)
  Definition worked_end (rp : R * R) (ea eb : fl * fl) : (fl * fl) * fl :=
    match ea, eb with
    | (Fin ax, Fin ay), (Fin bx, Fin by_) =>
        let '(px, py) := intersection1 (ax, ay) (bx, by_) in
        ((fadd px (Fin (fst rp)), fadd py (Fin (snd rp))),
         match px, py with Fin x, Fin y => Fin (magnitude (x, y)) | Nan, _ | _, Nan => Nan | _, _ => Pinf end)
    | _, _ => ((Nan, Nan), Nan)
    end.
  (** field_demo_detailed.ipynb, cells 5, 9 and 11. *)
  Definition worked_steps (ts_a ts_b : list (K * list (option R))) (pos_utm : list (K * (R * R))) (ref : K) (va vb : R * R) (ndownsel : nat)
    : result ((fl * fl) * fl) :=
    let! d1 := pp_case delays_tf ts_a pos_utm ref (Some va) in
    let! d2 := pp_case delays_tf ts_b pos_utm ref (Some vb) in
    let! s1 := loc_rows d1 (worked_points ndownsel d1) in
    let! s2 := loc_rows d2 (worked_points ndownsel d2) in
    let e_a := along_cmv (series_mean (map (fun r => pp_error (snd r)) s1)) va in
    let e_b := along_cmv (series_mean (map (fun r => pp_error (snd r)) s2)) vb in
    let! rp := lookup pos_utm ref in
    Ok (worked_end rp e_a e_b).
End FieldDemo.
