(** Model of dataio/nrcan_data.py process_files. *)
From Coq Require Import String Ascii.
From Verif Require Import Prelude RealBase M_iotools M_hope.
Local Open Scope Z_scope.

(** `s in text` *)
Fixpoint starts_with (p l : list ascii) : bool :=
  match p, l with
  | [], _ => true
  | a :: p', b :: l' => Ascii.eqb a b && starts_with p' l'
  | _ :: _, [] => false
  end.
Fixpoint contains (p l : list ascii) : bool :=
  starts_with p l || match l with [] => false | _ :: r => contains p r end.
(** str.split(c) for one character: the pieces between the separators. *)
Fixpoint pieces (c : ascii) (l : list ascii) : list (list ascii) :=
  match l with
  | [] => [[]]
  | x :: r => if Ascii.eqb x c then [] :: pieces c r
              else match pieces c r with w :: ws => (x :: w) :: ws | [] => [[x]] end
  end.

(** nrcan_data.py:137-138 the station file is skipped *)
Definition is_latlon (file : string) : bool := contains (chars "latlon") (chars file) && contains (chars ".csv") (chars file).
(** nrcan_data.py:150 the column label, the second '_' separated piece of the stem; IndexError without it *)
Definition column_of (file : string) : result string :=
  match nth_error (pieces "_" (chars (fst (splitext file)))) 1 with
  | Some w => Ok (text w)
  | None => Err IndexError
  end.

(** nrcan_data.py:158, 173 resample("10ms").ffill() of samples (time in ns, value) with strictly increasing times (see
    [in_order] below). Labels are the multiples of 10 ms from the first stamp's bin to the last stamp's bin, each with
    the last sample at or before it. pandas has a shortcut when the sampling already has that frequency: three or more samples exactly
    10 ms apart keep their values and only their stamps are moved to the bin labels. *)
Definition step : Z := 10000000.
Definition bin (t : Z) : Z := t / step * step.
Fixpoint evenly (ts : list Z) : bool :=
  match ts with
  | a :: ((b :: _) as r) => (b - a =? step) && evenly r
  | _ => true
  end.
Definition last_at {V} (l : list (Z * option V)) (t : Z) : option V :=
  fold_left (fun acc p => if fst p <=? t then snd p else acc) l None.
Definition resample {V} (l : list (Z * option V)) : list (Z * option V) :=
  match l with
  | [] => []
  | p :: _ =>
    if (3 <=? length l)%nat && evenly (map fst l) then map (fun q => (bin (fst q), snd q)) l
    else
      let first := bin (fst p) in
      let last := bin (fst (List.last l p)) in
      map (fun i => let t := first + Z.of_nat i * step in (t, last_at l t)) (seq 0 (Z.to_nat ((last - first) / step + 1)))
  end.

(** nrcan_data.py:161-165, 176-180 the first sensor gives the time base, later sensors are aligned to it. *)
Definition lookup {V} (l : list (Z * option V)) (t : Z) : option V :=
  match find (fun p => fst p =? t) l with Some p => snd p | None => None end.
Definition add_sensor {V} (acc : option (list string * list (Z * list (option V)))) (col : string) (l : list (Z * option V))
  : list string * list (Z * list (option V)) :=
  match acc with
  | None => ([col], map (fun p => (fst p, [snd p])) l)
  | Some (cols, rs) => (cols ++ [col], map (fun r => (fst r, snd r ++ [lookup l (fst r)])) rs)
  end.

(** A sensor file as read: time, global horizontal and global tilted irradiance; reading may raise. *)
Definition samples : Type := list (Z * (option R * option R)).
Definition ghi (s : samples) : list (Z * option R) := map (fun p => (fst p, fst (snd p))) s.
Definition gti (s : samples) : list (Z * option R) := map (fun p => (fst p, snd (snd p))) s.
(** nrcan_data.py:158, 173: resample first sorts the rows by time (pandas Grouper, a stable sort); its reindexing then refuses
    repeated stamps with a ValueError. Stamps are present (simplification: an unreadable time is not modelled). *)
Fixpoint stamps_rise (ts : list Z) : bool :=
  match ts with
  | a :: ((b :: _) as r) => (a <? b) && stamps_rise r
  | _ => true
  end.
Definition in_order (s : samples) : result samples :=
  let s := sort_by (fun a b => fst a <=? fst b) s in
  if stamps_rise (map fst s) then Ok s else Err ValueError.
(** nrcan_data.py:136-180 the loop over files *)
Definition table_of : Type := list string * list (Z * list (option R)).
Definition process_file (read : string -> result samples) (acc : option (table_of * table_of)) (file : string)
  : result (option (table_of * table_of)) :=
  if is_latlon file then Ok acc
  else
    let! s := read file in
    let! col := column_of file in
    let! s := in_order s in
    Ok (Some (add_sensor (option_map fst acc) col (resample (ghi s)), add_sensor (option_map snd acc) col (resample (gti s)))).
(** nrcan_data.py:106-185 process_files, interrupted after [k] operations on the target, whose 'data_tilt' key takes the place of
    the flag table. Without sensor files the names data_ghi and data_gti are unbound when they are written. *)
Definition process_files {T} (k : nat) (read : string -> result samples) (latlon : T) (listing : list string)
  (t : target T string (Z * list (option R))) : target T string (Z * list (option R)) * ending :=
  match foldM (process_file read) (getfiles listing (Some ".csv"%string) true) None with
  | Err e => (t, Raised e)
  | Ok None => h5_run k [PutLatlon latlon; Raise OtherError] t
  | Ok (Some ((c1, r1), (c2, r2))) => h5_run k [PutLatlon latlon; AppendData (Frame c1 r1); AppendFlag (Frame c2 r2)] t
  end.
