(** Model of dataio/hope_campaign.py and dataio/nrcan_data.py. *)
From Coq Require Import String Ascii.
From Verif Require Import Prelude RealBase M_iotools.
Local Open Scope R_scope.

(** A table of values, row by row; None is NaN. *)
Definition table : Type := list (list (option R)).
(** datanew[mask] = np.nan *)
Definition blank (mask : bool) (v : option R) : option R := if mask then None else v.
(** hope_campaign.py:116-137 flag_qc. Simplification: data and flag have the same rows and columns (M_clean.v has the alignment
    by label); a NaN flag compares false. *)
Definition flag_qc (data flag : table) (level : R) : table :=
  map2 (map2 (fun v f => blank (match f with Some x => Rleb level x | None => false end) v)) data flag.
(** hope_campaign.py:140-157 null_qc *)
Definition null_qc (data : table) : table :=
  map (map (fun v => blank (match v with Some x => Rltb x (-100) | None => false end) v)) data.

(** Last present value at or before position i (searching down), with its position. *)
Fixpoint prev_valid (l : list (option R)) (i : nat) : option (nat * R) :=
  match nth_error l i with
  | Some (Some v) => Some (i, v)
  | _ => match i with O => None | S j => prev_valid l j end
  end.
(** First present value at or after position i. *)
Fixpoint next_valid_from (l : list (option R)) (i : nat) : option (nat * R) :=
  match l with
  | [] => None
  | Some v :: _ => Some (i, v)
  | None :: r => next_valid_from r (S i)
  end.
Definition next_valid (l : list (option R)) (i : nat) : option (nat * R) := next_valid_from (skipn i l) i.
(** pandas Series.interpolate(limit, limit_area='inside'): linear in position, at most [limit] consecutive values after a present one,
    only between present values. *)
Definition interpolate (limit : nat) (l : list (option R)) : list (option R) :=
  map (fun i =>
         match nth_error l i with
         | Some (Some v) => Some v
         | _ => match prev_valid l i, next_valid l i with
                | Some (p, a), Some (q, b) =>
                    if (i - p <=? limit)%nat then Some (a + (b - a) * (INR (i - p) / INR (q - p))) else None
                | _, _ => None
                end
         end) (seq 0 (length l)).
(** np.isnan(s).rolling(f'{limit}s').mean() > (limit-1)/limit on a 1 Hz index: the window holds the last [limit] samples, fewer at
    the start. *)
Definition rolling_blank (limit : nat) (l : list (option R)) : list bool :=
  map (fun i =>
         let w := skipn (S i - limit) (firstn (S i) l) in
         let missing := length (filter (fun v => match v with None => true | Some _ => false end) w) in
         Rltb (INR (limit - 1) / INR limit) (INR missing / INR (length w))) (seq 0 (length l)).
(** hope_campaign.py:183-196, one column. Python's [:-2*limit] is empty for columns shorter than that; a mask of another length than
    the column raises ValueError. *)
Definition interp_column (limit : nat) (l : list (option R)) : result (list (option R)) :=
  if (limit =? 0)%nat then Err ValueError
  else
    let d := interpolate limit l in
    let blanks := rolling_blank limit d in
    let front := firstn (length blanks - 2 * limit) blanks in
    let back := skipn (2 * limit) blanks in
    let mask := repeat false limit ++ map2 orb front back ++ repeat false limit in
    if (length mask =? length l)%nat then Ok (map2 (fun b v => blank b v) mask d) else Err ValueError.
(** hope_campaign.py:160-198 interp_nan: columns in order. Simplification: 1 Hz index without gaps in the time stamps
    (M_clean.v has arbitrary stamps). *)
Definition interp_nan (columns : list (list (option R))) (limit : nat) : result (list (list (option R))) :=
  mapM (interp_column limit) columns.

(** ** HDF files *)
(** How an interruptible program ends. *)
Inductive ending : Type := Finished | Raised (e : exn) | Crashed.
Section H5.
  (** Station tables, column labels, rows. *)
  Context {T K W : Type} `{Label K}.
  Record frame : Type := Frame { columns : list K; rows : list W }.
  Record h5 : Type := H5 { h_latlon : option T; h_data : option frame; h_flag : option frame }.
  (** The target: None when the file does not exist. *)
  Definition target : Type := option h5.
  (** Writes to the target, and exceptions raised between them. Simplification: each write is atomic. *)
  Inductive h5op : Type := Remove | PutLatlon (t : T) | AppendData (f : frame) | AppendFlag (f : frame) | Raise (e : exn).
  Definition contents (t : target) : h5 := match t with Some h => h | None => H5 None None None end.
  Definition same_columns (a b : list K) : bool :=
    (length a =? length b)%nat && forallb (fun p => lab_eqb (fst p) (snd p)) (combine a b).
  (** DataFrame.to_hdf(append=True): creates the key, or appends rows to a table with the same columns, otherwise ValueError. *)
  Definition append_frame (old : option frame) (f : frame) : result (option frame) :=
    match old with
    | None => Ok (Some f)
    | Some g => if same_columns (columns g) (columns f) then Ok (Some (Frame (columns g) (rows g ++ rows f))) else Err ValueError
    end.
  Definition h5_step (t : target) (o : h5op) : result target :=
    let h := contents t in
    match o with
    | Remove => Ok None
    | PutLatlon l => Ok (Some (H5 (Some l) (h_data h) (h_flag h)))
    | AppendData f => let! d := append_frame (h_data h) f in Ok (Some (H5 (h_latlon h) d (h_flag h)))
    | AppendFlag f => let! d := append_frame (h_flag h) f in Ok (Some (H5 (h_latlon h) (h_data h) d))
    | Raise e => Err e
    end.
  (** At most [k] operations, then a crash; an operation that raises leaves the file as it was and stops. *)
  Fixpoint h5_run (k : nat) (ops : list h5op) (t : target) : target * ending :=
    match ops, k with
    | [], _ => (t, Finished)
    | _, O => (t, Crashed)
    | o :: r, S k' => match h5_step t o with
                      | Ok t' => h5_run k' r t'
                      | Err e => (t, Raised e)
                      end
    end.
  (** hope_campaign.py:201-264 parse_file is an argument: data, flag and station table of one netCDF file, or an exception. *)
  Variable parse_file : string -> result (frame * frame * T).
  (** hope_campaign.py:313-323 the writes for the files in order. *)
  Definition file_ops (files : list string) : list h5op :=
    concat (map (fun p => match parse_file (snd p) with
                          | Err e => [Raise e]
                          | Ok (data, flag, latlon) =>
                              (if (fst p =? 0)%nat then [PutLatlon latlon] else []) ++ [AppendData data; AppendFlag flag]
                          end)
                (combine (seq 0 (length files)) files)).
  (** hope_campaign.py:267-323 dataset_to_h5, interrupted after [k] operations. [listing] is the directory. *)
  Definition dataset_to_h5 (k : nat) (listing : list string) (t : target) (overwrite : bool) : target * ending :=
    let files := getfiles listing (Some ".nc"%string) true in
    match t with
    | Some _ => if overwrite then h5_run k (Remove :: file_ops files) t else (t, Raised ValueError)
    | None => h5_run k (file_ops files) t
    end.
  (** hope_campaign.py:357-373 _main, the -h5 option: on ValueError ask the user, whose answer is [yes]. The second attempt may be
      interrupted after [k2] operations. *)
  Definition main_makeh5 (k k2 : nat) (yes : bool) (listing : list string) (t : target) : target * ending :=
    match dataset_to_h5 k listing t false with
    | (t', Raised ValueError) => if yes then dataset_to_h5 k2 listing t' true else (t', Finished)
    | r => r
    end.
End H5.
Arguments h5op : clear implicits.
Arguments h5 : clear implicits.
Arguments target : clear implicits.
Arguments frame : clear implicits.

(** A frame of measurements: time stamp and one value per column. *)
Definition series_frame (K : Type) : Type := frame K (Z * list (option R)).
(** Column j of a frame, and a frame from its columns. *)
Definition column {K} (f : series_frame K) (j : nat) : list (option R) := map (fun r => nth j (snd r) None) (rows f).
Definition of_columns {K} (f : series_frame K) (cols : list (list (option R))) : series_frame K :=
  Frame (columns f) (map (fun p => (fst (snd p), map (fun c => nth (fst p) c None) cols)) (combine (seq 0 (length (rows f))) (rows f))).
Definition set_values {K} (f : series_frame K) (t : table) : series_frame K := Frame (columns f) (map2 (fun r v => (fst r, v)) (rows f) t).
(** hope_campaign.py:384-392 the quality control step of _main; the option is matched case-sensitively. *)
Definition main_qc_step {K} (qc : string) (data flag : series_frame K) : result (series_frame K) :=
  if String.eqb qc "interp" then
    let d := set_values data (null_qc (map snd (rows data))) in
    let! cols := interp_nan (map (column d) (seq 0 (length (columns d)))) 5 in
    Ok (of_columns d cols)
  else if String.eqb qc "null" then Ok (set_values data (null_qc (map snd (rows data))))
  else if String.eqb qc "flag" then Ok (set_values data (flag_qc (map snd (rows data)) (map snd (rows flag)) 2))
  else Err ValueError.
(** hope_campaign.py:375-401 _main, the -q option: read the source, clean, write the target, interrupted after [k] operations.
    A missing source or key raises. *)
Definition main_qc {T K} `{Label K} (k : nat) (yes : bool) (qc : string) (src tgt : target T K (Z * list (option R)))
  : target T K (Z * list (option R)) * ending :=
  match src with
  | Some (H5 (Some latlon) (Some data) (Some flag)) =>
    match main_qc_step qc data flag with
    | Err e => (tgt, Raised e)
    | Ok d =>
      let writes := [AppendData d; AppendFlag flag; PutLatlon latlon] in
      match tgt with
      | Some _ => if yes then h5_run k (Remove :: writes) tgt else (tgt, Finished)
      | None => h5_run k writes tgt
      end
    end
  | _ => (tgt, Raised OtherError)
  end.
