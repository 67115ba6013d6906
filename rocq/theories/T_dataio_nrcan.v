(** Property theorems. NRCAN conversion: columns, common time base, repeated runs, and the 10 ms resampling.
    Proofs are in the X_ file of the same name. *)
From Coq Require Import String Ascii Reals Lra Sorting.Sorted Sorting.Permutation.
From Verif Require Import Prelude PreludeFacts P_list RealBase M_iotools M_hope M_nrcan Spec_dataio X_dataio_files X_dataio_clean X_dataio_h5.
Local Open Scope Z_scope.
From Verif Require Import X_dataio_nrcan.

(** C83. A file name is taken as a sensor's unless it contains both 'latlon' and '.csv'; the sensor's label is the part of the stem between
    its first underscore and the next, and a stem without underscore raises IndexError. *)
Theorem C83_nrcan_names :
  forall file stem e w, file = (stem ++ e)%string -> extension file e ->
  (is_latlon file = true <-> includes file "latlon" /\ includes file ".csv") /\
  (column_of file = Ok w <-> second_piece stem w) /\
  (lacks "_" stem -> column_of file = Err IndexError).
Proof. exact (@nrcan_names). Qed.
Print Assumptions C83_nrcan_names.

(** C86. Irregular samples: the labels are the multiples of 10 ms from the one at or before the first sample to the one at or before
    the last, and each holds the value of the latest sample at or before it, missing when there is none. *)
Theorem C86_resample_value :
  forall {V} (l : list (Z * option V)) first last,
  hd_error l = Some first -> nth_error l (length l - 1) = Some last -> fst first <= fst last ->
  ((length l < 3)%nat \/ ~ every_ten_ms (map fst l)) ->
  (forall t v, In (t, v) (resample l) <-> on_grid t /\ fst first < t + ten_ms /\ t <= fst last /\ latest l t v) /\
  every_ten_ms (map fst (resample l)).
Proof. exact (@resample_value). Qed.
Print Assumptions C86_resample_value.

(** C86. Three or more samples already exactly 10 ms apart keep their values; only their stamps move down to multiples of 10 ms. *)
Theorem C86_resample_regular :
  forall {V} (l : list (Z * option V)), (3 <= length l)%nat -> every_ten_ms (map fst l) ->
  length (resample l) = length l /\
  forall i t v, nth_error l i = Some (t, v) -> exists t', nth_error (resample l) i = Some (t', v) /\ on_grid t' /\ t' <= t < t' + ten_ms.
Proof. exact (@resample_regular). Qed.
Print Assumptions C86_resample_regular.

(** C86. So the rule "a label holds the last measurement up to it" fails there: the label before an off-grid sample gets its value. *)
Theorem C86_resample_lookahead_refuted :
  exists (l : list (Z * option R)) t v, In (t, v) (resample l) /\ ~ latest l t v.
Proof. exact (@resample_lookahead_refuted). Qed.
Print Assumptions C86_resample_lookahead_refuted.

Example C86_resample_ex :
  resample [(5000000, Some 1%R); (31000000, Some 2%R)] = [(0, None); (10000000, Some 1%R); (20000000, Some 1%R); (30000000, Some 1%R)].
Proof. exact (@resample_ex). Qed.

(** C83. One column per sensor file in name order, labelled by the sensor, on the resampled time base of the first sensor, for horizontal
    and for tilted irradiance. A fresh target holds these tables and the stations; a target with the same columns gets the rows appended
    and its stations replaced, whatever the order of the rows in the files; with other columns ValueError is raised after the stations were replaced. *)
Theorem C83_nrcan_value :
  forall {T} read (latlon : T) listing r s c sensor,
  let sensors := filter (fun f => negb (is_latlon f)) (getfiles listing (Some ".csv"%string) true) in
  In sensor sensors -> (forall f, In f sensors -> read f = Ok (r f) /\ in_time_order (r f) (s f) /\ column_of f = Ok (c f)) ->
  exists g t, joined (map (fun f => resample (ghi (s f))) sensors) g /\ joined (map (fun f => resample (gti (s f))) sensors) t /\
  forall k, (3 <= k)%nat ->
    process_files k read latlon listing None = (Some (H5 (Some latlon) (Some (Frame (map c sensors) g)) (Some (Frame (map c sensors) t))), Finished) /\
    (forall old D F, process_files k read latlon listing (Some (H5 old (Some (Frame (map c sensors) D)) (Some (Frame (map c sensors) F)))) =
       (Some (H5 (Some latlon) (Some (Frame (map c sensors) (D ++ g))) (Some (Frame (map c sensors) (F ++ t)))), Finished)) /\
    (forall old cols D F, cols <> map c sensors ->
       process_files k read latlon listing (Some (H5 old (Some (Frame cols D)) F)) = (Some (H5 (Some latlon) (Some (Frame cols D)) F), Raised ValueError)).
Proof. exact (@nrcan_value). Qed.
Print Assumptions C83_nrcan_value.

(** C83. Running it n + 1 times on the same input stores n + 1 copies of every row. *)
Theorem C83_nrcan_repeats :
  forall {T} read (latlon : T) listing r s c sensor n,
  let sensors := filter (fun f => negb (is_latlon f)) (getfiles listing (Some ".csv"%string) true) in
  In sensor sensors -> (forall f, In f sensors -> read f = Ok (r f) /\ in_time_order (r f) (s f) /\ column_of f = Ok (c f)) ->
  exists g t, fst (process_files 3 read latlon listing None) = Some (H5 (Some latlon) (Some (Frame (map c sensors) g)) (Some (Frame (map c sensors) t))) /\
  Nat.iter (S n) (fun target => fst (process_files 3 read latlon listing target)) None =
    Some (H5 (Some latlon) (Some (Frame (map c sensors) (concat (repeat g (S n))))) (Some (Frame (map c sensors) (concat (repeat t (S n)))))).
Proof. exact (@nrcan_repeats). Qed.
Print Assumptions C83_nrcan_repeats.

(** C83. Failures: an unreadable or unlabelled sensor file, or one with a repeated stamp, stops the run before anything is written, with the error of the first bad file
    in name order; without sensor files the stations are written before the run fails. *)
Theorem C83_nrcan_errors :
  forall {T} k read (latlon : T) listing old,
  (forall files1 bad files2 r s c, getfiles listing (Some ".csv"%string) true = files1 ++ bad :: files2 ->
     (forall f, In f files1 -> is_latlon f = false -> read f = Ok (r f) /\ in_time_order (r f) (s f) /\ column_of f = Ok (c f)) -> is_latlon bad = false ->
     (forall e, read bad = Err e -> process_files k read latlon listing old = (old, Raised e)) /\
     (forall x e, read bad = Ok x -> column_of bad = Err e -> process_files k read latlon listing old = (old, Raised e)) /\
     (forall x c, read bad = Ok x -> column_of bad = Ok c -> ~ NoDup (map fst x) -> process_files k read latlon listing old = (old, Raised ValueError))) /\
  ((forall f, In f (getfiles listing (Some ".csv"%string) true) -> is_latlon f = true) -> (2 <= k)%nat ->
     process_files k read latlon listing old = (Some (H5 (Some latlon) (h_data (contents old)) (h_flag (contents old))), Raised OtherError)).
Proof. exact (@nrcan_errors). Qed.
Print Assumptions C83_nrcan_errors.

Example C83_nrcan_ex :
  let read := fun f => if String.eqb f "d_s1.csv" then Ok [(20000000, (Some 3%R, None)); (0, (Some 1%R, Some 2%R))] else Ok [(10000000, (Some 5%R, Some 6%R))] in
  process_files 3 read tt ["d_s2.csv"; "latlon.csv"; "d_s1.csv"]%string None =
    (Some (H5 (Some tt)
      (Some (Frame ["s1"; "s2"]%string [(0, [Some 1%R; None]); (10000000, [Some 1%R; Some 5%R]); (20000000, [Some 3%R; None])]))
      (Some (Frame ["s1"; "s2"]%string [(0, [Some 2%R; None]); (10000000, [Some 2%R; Some 6%R]); (20000000, [None; None])]))), Finished).
Proof. exact (@nrcan_ex). Qed.

