(** Model of src/solarspatialtools/field.py: remap_positions, cascade_remap,
    assign_positions. No proofs in this file. *)
From Verif Require Import Prelude RealBase.

(** A pandas DataFrame with unique row labels [K], column names [C] and cells that
    are numbers or NaN ([None]). Rows are stored in index order; each row lists its
    cells in column order. Simplification: duplicate labels are excluded by the
    well-formedness predicate used in the theorems. *)
Record table (K C A : Type) := mkTable {
  t_cols : list C;
  t_rows : list (K * list (option A))
}.
Arguments mkTable {K C A}.
Arguments t_cols {K C A}.
Arguments t_rows {K C A}.

Section Table.
  Context {K C A : Type} `{Label K} `{Label C}.

  Definition t_index (t : table K C A) : list K := map fst (t_rows t).

  (** df[c][k]: KeyError when the column or the row label is unknown. *)
  Definition t_read (t : table K C A) (c : C) (k : K) : result (option A) :=
    match pos_of c (t_cols t) with
    | None => Err KeyError
    | Some n =>
        match dget (t_rows t) k with
        | None => Err KeyError
        | Some row => match nth_error row n with Some v => Ok v | None => Err KeyError end
        end
    end.

  (** df.loc[k, c] = v for an existing column c: overwrite the cell, or, when the row
      label is new, enlarge the frame by a row of NaN holding v in column c. *)
  Definition t_write (t : table K C A) (k : K) (c : C) (v : option A) : table K C A :=
    match pos_of c (t_cols t) with
    | None => t
    | Some n =>
        let row := match dget (t_rows t) k with
                   | Some row => row
                   | None => map (fun _ => None) (t_cols t)
                   end in
        mkTable (t_cols t) (dset (t_rows t) k (list_set row n v))
    end.

  (** field.py:257-259, the inner loop body: every read is from [data], every write
      goes to the copy [fix_]. *)
  Definition remap_cell (data : table K C A) (item : K * K) (fix_ : table K C A) (c : C)
    : result (table K C A) :=
    let! v := t_read data c (snd item) in Ok (t_write fix_ (fst item) c v).

  (** field.py:219-260 remap_positions. [columns = None] is the default. *)
  Definition remap_positions (data : table K C A) (remap : list (K * K)) (columns : option (list C))
    : result (table K C A) :=
    let cols := match columns with None => t_cols data | Some cs => cs end in
    foldM (fun fx item => foldM (remap_cell data item) cols fx) remap data.
End Table.

(** field.py:263-316 cascade_remap: G[key] = A[B[key]] for key in A, then sort by key. *)
Definition cascade_remap {K} `{Label K} (remap1 remap2 : list (K * K)) : result (list (K * K)) :=
  let A := dict_of remap1 in
  let B := dict_of remap2 in
  let! G := foldM (fun G key =>
                     match dget B key with
                     | None => Err KeyError
                     | Some b => match dget A b with
                                 | None => Err KeyError
                                 | Some a => Ok (dset G key a)
                                 end
                     end) (dkeys A) [] in
  Ok (sort_by (fun p q => lab_leb (fst p) (fst q)) G).

Section Assign.
  Context {K C : Type} `{Label K} `{Label C}.

  (** scipy.optimize.linear_sum_assignment on a finite matrix given by rows, with its
      number of columns: returns (row_ind, col_ind). External, hence arbitrary here. *)
  Variable lsa : nat -> list (list R) -> list nat * list nat.

  (** The first two cells of a row (values[:, 0], values[:, 1]); NaN stays None.
      The default is never used: see [narrow]. *)
  Definition row_xy (row : list (option R)) : option R * option R :=
    (nth 0 row None, nth 1 row None).

  (** values[:, 1] (and with no column values[:, 0]) raises IndexError on a frame with fewer than two columns.
      Simplification: the number of columns is read off the rows, so an empty frame never raises. *)
  Definition narrow (t : table K C R) : bool := existsb (fun r => Nat.ltb (length (snd r)) 2) (t_rows t).

  (** field.py:414-415: distance between a plan position and a predicted position. *)
  Definition cost (p q : option R * option R) : option R :=
    match p, q with
    | (Some e1, Some n1), (Some e2, Some n2) => Some (sqrt ((e1 - e2) ^ 2 + (n1 - n2) ^ 2))
    | _, _ => None
    end%R.

  (** field.py:406-416: the cost matrix, rows = plan, columns = predictions. The loops
      run over range(len(E_plan)) in both directions: with fewer predictions than plan
      rows E_delay[j] raises IndexError, with more predictions the extra columns keep
      the value 0 they were initialised with. *)
  Definition cost_matrix (plan pred : list (option R * option R)) : result (list (list (option R))) :=
    let n := length plan in
    let m := length pred in
    if Nat.ltb m n then Err IndexError
    else Ok (map (fun p => map (cost p) (firstn n pred) ++ repeat (Some 0%R) (m - n)) plan).

  (** linear_sum_assignment raises ValueError when the matrix has NaN entries. *)
  Fixpoint all_some {A} (l : list (option A)) : option (list A) :=
    match l with
    | [] => Some []
    | Some x :: r => option_map (cons x) (all_some r)
    | None :: _ => None
    end.

  (** index[array_of_positions]: IndexError when a position is out of range. *)
  Definition take_pos {A} (l : list A) (ix : list nat) : result (list A) :=
    mapM (fun i => match nth_error l i with Some x => Ok x | None => Err IndexError end) ix.

  (** field.py:402-424: the branch without NaN predictions. *)
  Definition assign_good (original predicted : table K C R) : result (list (K * K)) :=
    if narrow original || narrow predicted then Err IndexError else
    let plan := map (fun r => row_xy (snd r)) (t_rows original) in
    let pred := map (fun r => row_xy (snd r)) (t_rows predicted) in
    let! M := cost_matrix plan pred in
    match all_some (map all_some M) with
    | None => Err ValueError
    | Some MR =>
        let '(row_ind, col_ind) := lsa (length pred) MR in
        let! ks := take_pos (t_index original) col_ind in
        let! vs := take_pos (t_index original) row_ind in
        Ok (sort_by (fun p q => lab_leb (fst p) (fst q)) (combine ks vs))
    end.

  (** np.any(np.isnan(row)) over every column of the row. *)
  Definition row_has_nan (row : list (option R)) : bool :=
    existsb (fun v => match v with None => true | Some _ => false end) row.

  (** field.py:379-400: the branch with NaN predictions. *)
  Definition assign_nan (original predicted : table K C R) : result (list (K * K)) :=
    (* sub_pred = predicted_pos.dropna() *)
    let sub_pred := mkTable (t_cols predicted)
                            (filter (fun r => negb (row_has_nan (snd r))) (t_rows predicted)) in
    (* sub_orig = original_pos.loc[sub_pred.index] *)
    let! rows := mapM (fun k => match dget (t_rows original) k with
                                | Some row => Ok (k, row)
                                | None => Err KeyError
                                end) (t_index sub_pred) in
    let sub_orig := mkTable (t_cols original) rows in
    let! subremap := assign_good sub_orig sub_pred in
    let! _discarded := remap_positions sub_orig subremap None in
    let! parts := mapM (fun k =>
                          match dget (t_rows predicted) k with
                          | None => Err KeyError
                          | Some row =>
                              if row_has_nan row then Ok [(k, k)]
                              else Ok (filter (fun p => lab_eqb (fst p) k) subremap)
                          end) (t_index original) in
    Ok (concat parts).

  (** field.py:319-430 assign_positions. The recursive call on the NaN-free subset
      always takes the NaN-free branch, so it is inlined as [assign_good] followed by
      the remapped frame that the recursive call computes and line 387 discards. *)
  Definition assign_positions (original predicted : table K C R)
    : result (list (K * K) * table K C R) :=
    let! remap :=
      if existsb (fun r => row_has_nan (snd r)) (t_rows predicted)
      then assign_nan original predicted
      else assign_good original predicted in
    let! data_out := remap_positions original remap None in
    Ok (remap, data_out).
End Assign.
