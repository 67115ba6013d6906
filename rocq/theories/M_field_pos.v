(** Model of src/solarspatialtools/field.py: compute_predicted_position. No proofs in this file. Numbers are exact reals with IEEE specials ([fl]).
    The transfer-function delays (signalproc.compute_delays_tf) and pandas' sort_values are
    parameters: no stability is assumed of the sort. Row labels are unique. *)
From Coq Require Import String.
From Verif Require Import Prelude RealBase Fl RealStat M_spatial M_cmv.
Local Open Scope R_scope.

(** np.mean of a Series: NaN entries are skipped, NaN when nothing is left. *)
Definition fsum (l : list fl) : fl := fold_right fadd (Fin 0) l.
Definition series_mean (l : list fl) : fl :=
  let l := filter (fun a => negb (is_nan a)) l in
  match l with [] => Nan | _ => fdiv (fsum l) (Fin (INR (List.length l))) end.

(** l[-n:-1]; note that -0 is 0 *)
Definition slice_neg {A} (n : nat) (l : list A) : list A :=
  let start := if Nat.eqb n 0 then 0%nat else (List.length l - n)%nat in
  skipn start (firstn (List.length l - 1) l).

(** field.py:116-121, one row of pos_data *)
Record ppdata : Type := mkPP { pp_plan : fl; pp_delay_dist : fl; pp_error : fl; pp_delay : fl; pp_coh : fl }.

(** A CMV [Vx, Vy]; [None] stands for a vector with NaN components. *)
Definition cmv_vec := option (R * R).
Definition vec_magnitude (v : cmv_vec) : fl := match v with Some v => Fin (magnitude v) | None => Nan end.
Definition project_on (vecs : list (R * R)) (v : cmv_vec) : list fl :=
  match v with Some v => project_vectors vecs v | None => map (fun _ => Nan) vecs end.

Section Predict.
  Context {K : Type} `{Label K}.
  (** compute_delays_tf(reference signal, all signals): delay and mean coherence per column *)
  Variable delays_tf : K * list (option R) -> list (K * list (option R)) -> result (list fl * list fl).
  (** Series.sort_values() on (label, value) pairs *)
  Variable sort_values : list (K * fl) -> list (K * fl).
  (** compute_cmv(df, pos_utm, method='jamaly') *)
  Variable cmv_of : list (K * list (option R)) -> list (K * (R * R)) -> result (fl * fl).

  (** field.py:96-123, the data frame for one CMV. delay_dist is an array and is matched with the
      rows of pos_utm by position. Simplification: pos_utm has exactly the columns E, N in this
      order. *)
  Definition pp_case (df : list (K * list (option R))) (pos_utm : list (K * (R * R))) (ref : K) (cld_vec : cmv_vec)
    : result (list (K * ppdata)) :=
    let! sig := lookup df ref in
    let! (delay, coh) := delays_tf (ref, sig) df in
    let delay_dist := map (fun d => fmul (fopp d) (vec_magnitude cld_vec)) delay in
    let! rp := lookup pos_utm ref in
    let! vecs := compute_vectors (map (fun p => fst (snd p)) pos_utm) (map (fun p => snd (snd p)) pos_utm) [fst rp; snd rp] in
    let plan := project_on (map (fun v => (- fst v, - snd v)) vecs) cld_vec in
    if negb (Nat.eqb (List.length delay_dist) (List.length plan) && Nat.eqb (List.length coh) (List.length plan)) then Err ValueError else
    Ok (combine (map fst pos_utm)
          (map (fun x => let '(pl, dd, d, c) := x in mkPP pl dd (fsub dd pl) d c)
             (combine (combine (combine plan delay_dist) delay) coh))).

  (** field.py:125-156: labels of the selected points for each of the two CMVs. *)
  Definition select_points (pos_utm : list (K * (R * R))) (ref : K) (mode : string) (ndownsel : nat)
      (d1 d2 : list (K * ppdata)) : result (list K * list K) :=
    let coh d := map (fun r => (fst r, pp_coh (snd r))) d in
    if String.eqb mode "coherence" || String.eqb mode "preavg" then
      let pick d := map fst (slice_neg ndownsel (sort_values (filter (fun r => is_finite (snd r)) (coh d)))) in
      Ok (pick d1, pick d2)
    else if String.eqb mode "global_coherence" then
      let truecoh := map (fun x => (fst (fst x), fadd (fmul (snd (fst x)) (snd (fst x))) (fmul (snd (snd x)) (snd (snd x))))) (combine (coh d1) (coh d2)) in
      let ix := map fst (slice_neg ndownsel (sort_values truecoh)) in Ok (ix, ix)
    else if String.eqb mode "distance" then
      let! rp := lookup pos_utm ref in
      let sep := map (fun p => (fst p, Fin (magnitude (fst (snd p) - fst rp, snd (snd p) - snd rp)))) pos_utm in
      let ix := map fst (firstn ndownsel (sort_values sep)) in Ok (ix, ix)
    else if String.eqb mode "all" then Ok (map fst pos_utm, map fst pos_utm)
    else Err ValueError.

  (** combined.loc[ix] *)
  Definition loc_rows (d : list (K * ppdata)) (ix : list K) : result (list (K * ppdata)) :=
    mapM (fun k => let! r := lookup d k in Ok (k, r)) ix.

  (** field.py:157-168: vectors of signed length e along the CMVs, their intersection, shifted to the
      reference point. A NaN mean or CMV makes every entry NaN. *)
  Definition pp_position (rp : R * R) (e_a e_b : fl) (va vb : cmv_vec) : fl * fl :=
    match e_a, e_b, va, vb with
    | Fin ea, Fin eb, Some va, Some vb =>
        let '(px, py) := intersection1 (pol2rect ea (snd (rect2pol (fst va) (snd va))))
                                       (pol2rect eb (snd (rect2pol (fst vb) (snd vb)))) in
        (fadd px (Fin (fst rp)), fadd py (Fin (snd rp)))
    | _, _, _, _ => (Nan, Nan)
    end.

  (** field.py:13-170 compute_predicted_position for two data frames. [cld_vecs = None] computes the
      CMVs first (an infinite speed or direction is treated like NaN). *)
  Definition compute_predicted_position (df1 df2 : list (K * list (option R))) (pos_utm : list (K * (R * R))) (ref : K)
      (cld_vecs : option (cmv_vec * cmv_vec)) (mode : string) (ndownsel : nat)
    : result ((fl * fl) * (list (K * ppdata) * list (K * ppdata))) :=
    let as_vec (p : fl * fl) := match p with (Fin s, Fin t) => Some (pol2rect s t) | _ => None end in
    let! (va, vb) :=
      match cld_vecs with
      | Some vs => Ok vs
      | None => let! a := cmv_of df1 pos_utm in let! b := cmv_of df2 pos_utm in Ok (as_vec a, as_vec b)
      end in
    let! d1 := pp_case df1 pos_utm ref va in
    let! d2 := pp_case df2 pos_utm ref vb in
    let! (ix1, ix2) := select_points pos_utm ref mode ndownsel d1 d2 in
    let! s1 := loc_rows d1 ix1 in
    let! s2 := loc_rows d2 ix2 in
    let e_a := series_mean (map (fun r => pp_error (snd r)) s1) in
    let e_b := series_mean (map (fun r => pp_error (snd r)) s2) in
    let! rp := lookup pos_utm ref in
    Ok (pp_position rp e_a e_b va vb, (s1, s2)).
End Predict.
