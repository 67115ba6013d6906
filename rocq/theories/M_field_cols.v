(** src/solarspatialtools/field.py compute_predicted_position with the columns of the layout table made explicit: the
    planned distances read the columns called 'E' and 'N', the separations and the final shift read the columns by their
    place. No proofs in this file. *)
From Coq Require Import String.
From Verif Require Import Prelude RealBase Fl RealStat M_spatial M_cmv M_field_pos.
Local Open Scope R_scope.

(** pos_utm: column names, and for each row label one number per column. Simplification: column names and row labels are
    distinct and no cell is missing. *)
Record layout (K : Type) : Type := mkLayout { l_cols : list string; l_rows : list (K * list R) }.
Arguments mkLayout {K}.
Arguments l_cols {K}.
Arguments l_rows {K}.

(** The place of a column; KeyError if there is none of that name. *)
Fixpoint col_place (c : string) (cols : list string) : result nat :=
  match cols with
  | [] => Err KeyError
  | d :: cols => if String.eqb d c then Ok 0%nat else rmap S (col_place c cols)
  end.

(** field.py:108-109 pos_utm['E'] and pos_utm['N'] *)
Definition by_name {K} (p : layout K) : result (list (K * (R * R))) :=
  let! e := col_place "E" (l_cols p) in
  let! n := col_place "N" (l_cols p) in
  Ok (map (fun r => (fst r, (nth e (snd r) 0, nth n (snd r) 0))) (l_rows p)).

(** field.py:143-145 spatial.magnitude(row - reference row) reads .iloc[0] and .iloc[1] of the row. *)
Definition by_place {K} (p : layout K) : list (K * (R * R)) :=
  map (fun r => (fst r, (nth 0 (snd r) 0, nth 1 (snd r) 0))) (l_rows p).

Section Cols.
  Context {K : Type} `{Label K}.
  Variable delays_tf : K * list (option R) -> list (K * list (option R)) -> result (list fl * list fl).
  Variable sort_values : list (K * fl) -> list (K * fl).
  (** compute_cmv(df, pos_utm, method='jamaly') is handed the whole table *)
  Variable cmv_of : list (K * list (option R)) -> layout K -> result (fl * fl).

  (** field.py:96-123; the delays are computed before the columns are looked up. *)
  Definition pp_case_cols (df : list (K * list (option R))) (pos_utm : layout K) (ref : K) (cld_vec : cmv_vec)
    : result (list (K * ppdata)) :=
    match by_name pos_utm with
    | Ok named => pp_case delays_tf df named ref cld_vec
    | Err e => let! sig := lookup df ref in let! _ := delays_tf (ref, sig) df in Err e
    end.

  (** field.py:168 pos + pos_utm.loc[ref].values: a 1 x 2 array plus one number per column. *)
  Definition shift_by_row (rp : list R) (e_a e_b : fl) (va vb : cmv_vec) : result (fl * fl) :=
    match rp with
    | [a; b] => Ok (pp_position (a, b) e_a e_b va vb)
    | [a] => Ok (pp_position (a, a) e_a e_b va vb)
    | _ => Err ValueError
    end.

  (** field.py:13-170 compute_predicted_position for two data frames, as in M_field_pos.v but for the columns. *)
  Definition predicted_cols (df1 df2 : list (K * list (option R))) (pos_utm : layout K) (ref : K)
      (cld_vecs : option (cmv_vec * cmv_vec)) (mode : string) (ndownsel : nat)
    : result ((fl * fl) * (list (K * ppdata) * list (K * ppdata))) :=
    let as_vec (p : fl * fl) := match p with (Fin s, Fin t) => Some (pol2rect s t) | _ => None end in
    let! (va, vb) :=
      match cld_vecs with
      | Some vs => Ok vs
      | None => let! a := cmv_of df1 pos_utm in let! b := cmv_of df2 pos_utm in Ok (as_vec a, as_vec b)
      end in
    let! d1 := pp_case_cols df1 pos_utm ref va in
    let! d2 := pp_case_cols df2 pos_utm ref vb in
    let! (ix1, ix2) := select_points sort_values (by_place pos_utm) ref mode ndownsel d1 d2 in
    let! s1 := loc_rows d1 ix1 in
    let! s2 := loc_rows d2 ix2 in
    let e_a := series_mean (map (fun r => pp_error (snd r)) s1) in
    let e_b := series_mean (map (fun r => pp_error (snd r)) s2) in
    let! rp := lookup (l_rows pos_utm) ref in
    let! pos := shift_by_row rp e_a e_b va vb in
    Ok (pos, (s1, s2)).
End Cols.
