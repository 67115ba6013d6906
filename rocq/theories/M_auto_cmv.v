(** Model of the selection of cloud-motion vectors in the demos: demos/automate_cmv_demo.py (lines 39-112, the hours to look
    at, their CMVs, the quality filter and the final choice) and demos/field_demo_full_process.py:57-64 (the pairs of CMVs).
    No proofs in this file. Reading of the data file, the clear-sky model, the 95th percentile column, printing and plotting
    left out. *)
From Coq Require Import String.
From Verif Require Import Prelude RealBase Fl RealStat M_spatial M_cmv.
Local Open Scope R_scope.

(** automate_cmv_demo.py:63, 81 a row of cmvs: cld_spd, cld_dir_rad, ngood, r_corr; the columns not read again are left out. *)
Notation cmv_row := (fl * fl * nat * fl)%type.
Definition cr_spd (r : cmv_row) : fl := fst (fst (fst r)).
Definition cr_dir (r : cmv_row) : fl := snd (fst (fst r)).
Definition cr_ngood (r : cmv_row) : nat := snd (fst r).
Definition cr_rcorr (r : cmv_row) : fl := snd r.
Section AutoCmv.
  (** The hours, named by their time stamps, and the sensors. *)
  Context {H K : Type} `{Label H}.
  (** Series.sort_values(ascending=False) on (label, value) pairs; no stability is assumed. *)
  Variable sort_desc : list (H * fl) -> list (H * fl).
  (** compute_cmv(kt_hour, pos_utm, method='jamaly', options={'minvelocity': 1}) on the data of an hour *)
  Variable cmv_of_hour : H -> result (fl * fl * windspeed K).
  Variable lsa : nat -> list (list R) -> list nat * list nat.
  Variable shgo : (R -> R) -> R -> R.

  (** automate_cmv_demo.py:52 vs.median(axis=1): NaN scores are skipped. Simplification: no score is infinite. *)
  Definition hour_score (scores : list (option R)) : fl := nan_reduce median (present scores).
  (** automate_cmv_demo.py:51-53 *)
  Definition variable_hours (vs : list (H * list (option R))) (n_var : nat) : list H :=
    map fst (firstn n_var (sort_desc (map (fun r => (fst r, hour_score (snd r))) vs))).

  (** automate_cmv_demo.py:67-81, one hour: the row and the flag. method_data is None after a run with fewer than two passing
      pairs, and None['ngood'] is a TypeError; the entries exist for jamaly only. *)
  Definition hour_cmv (date : H) : result (H * cmv_row * Flag) :=
    let! (cld_spd, cld_dir, dat) := cmv_of_hour date in
    match w_fit dat with
    | None => Err TypeError
    | Some f =>
        match w_method_data f with
        | None => Err KeyError
        | Some j => Ok (date, (cld_spd, cld_dir, j_ngood j, j_rcorr j), w_flag dat)
        end
    end.

  (** automate_cmv_demo.py:99-104: row.index(row.Index) is the position of the first field of the row among its own fields, so
      always 0. *)
  Definition bad_row (ngood_min : nat) (rval_min : R) (flags : list Flag) (r : cmv_row) : bool :=
    if Nat.ltb (cr_ngood r) ngood_min then true
    else if fltb (cr_rcorr r) (Fin rval_min) then true
    else negb (is_good (nth 0 flags GOOD)).
  (** automate_cmv_demo.py:95-108 bad_inds and drop. Simplification: the hours are distinct (they are the labels of a resampled
      table). *)
  Definition kept_rows (ngood_min : nat) (rval_min : R) (rows : list (H * cmv_row)) (flags : list Flag) : list (H * cmv_row) :=
    filter (fun r => negb (bad_row ngood_min rval_min flags (snd r))) rows.

  (** automate_cmv_demo.py:113-114: pol2rect and optimum_subset; a speed that is not finite gives NaN unit vectors, which
      linear_sum_assignment rejects. *)
  Definition diverse (n : nat) (kept : list (H * cmv_row)) : result (list nat) :=
    let finite r := (is_finite (cr_spd (snd r)) && is_finite (cr_dir (snd r)))%bool in
    let vec r := match cr_spd (snd r), cr_dir (snd r) with Fin s, Fin t => pol2rect s t | _, _ => (0, 0) end in
    if Nat.eqb n 0 then Err ZeroDivisionError
    else if forallb finite kept then optimum_subset lsa shgo (map (fun r => fst (vec r)) kept) (map (fun r => snd (vec r)) kept) n
    else Err ValueError.

  (** automate_cmv_demo.py:41-115: the kept rows and the chosen ones (cmvs.iloc[indices]). The demo's constants are
      n_var = 20, ngood_min = 200, rval_min = 0.85, n = 5. Simplification: at least one hour. *)
  Definition auto_select (n_var ngood_min : nat) (rval_min : R) (n : nat) (vs : list (H * list (option R)))
    : result (list (H * cmv_row) * list (H * cmv_row)) :=
    let! done := mapM hour_cmv (variable_hours vs n_var) in
    let kept := kept_rows ngood_min rval_min (map fst done) (map snd done) in
    let! indices := diverse n kept in
    let! chosen := mapM (fun i => match nth_error kept i with Some r => Ok r | None => Err IndexError end) indices in
    Ok (kept, chosen).
End AutoCmv.

(** numpy.rad2deg(numpy.arccos(numpy.dot(unit(a), unit(b)))); NaN if a vector is zero. *)
Definition angle_between (a b : R * R) : fl :=
  match unit_vec a, unit_vec b with
  | (Fin ax, Fin ay), (Fin bx, Fin by_) => Fin (acos (dot (ax, ay) (bx, by_)) * 180 / PI)
  | _, _ => Nan
  end.
(** itertools.combinations(keys, 2) *)
Fixpoint combinations2 {A} (l : list A) : list (A * A) :=
  match l with [] => [] | x :: l => map (fun y => (x, y)) l ++ combinations2 l end.
(** field_demo_full_process.py:57-64: pairs are dropped unless min_ang_sep < angle < 180 - min_ang_sep. *)
Definition cmv_pairs {A} (min_ang_sep : R) (cmvs : list (A * (R * R))) : list ((A * (R * R)) * (A * (R * R))) :=
  filter (fun p => let ang := angle_between (snd (fst p)) (snd (snd p)) in
                   (fltb (Fin min_ang_sep) ang && fltb ang (Fin (180 - min_ang_sep)))%bool)
         (combinations2 cmvs).
