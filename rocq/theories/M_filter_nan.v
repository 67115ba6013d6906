(** Model of src/solarspatialtools/signalproc.py apply_filter (1006-1044) and interp_tf (329-379) with missing values in the record
    and in the filter, and with tables in place of a Series. M_signal_plant.apply_filter is the case without missing values
    (theorem C123_filter_plain). [None] is NaN. No proofs here. *)
From Coq Require String.
From Verif Require Import Prelude RealBase Fl Dft Phase M_signal_corr M_signal_tf M_signal_plant.
From Coquelicot Require Import Complex.
Local Open Scope R_scope.

(** scipy interp1d with NaN among the ordinates: the value is NaN as soon as one end of the segment is (slope times distance plus
    left end), even at a node. *)
Definition interp1d_nan (xs : list R) (ys : list (option R)) (x : R) : result (option R) :=
  if (Rltb x (nth 0 xs 0) || Rltb (nth (length xs - 1) xs 0) x)%bool then Err ValueError
  else
    let i := seg_of xs x in
    Ok (match nth (i - 1) ys None, nth i ys None with
        | Some y0, Some y1 => Some ((y1 - y0) / (nth i xs 0 - nth (i - 1) xs 0) * (x - nth (i - 1) xs 0) + y0)
        | _, _ => None
        end).

(** signalproc.py:349-375, one column, at one frequency: magnitude and unwrapped phase apart; the unwrapped phase is NaN from the
    first NaN onwards. *)
Definition interp_tf_nan_at (rows : list (R * option C)) (f : R) : result (option C) :=
  let s := sort_by (fun p q => Rleb (fst p) (fst q)) rows in
  let xs := map fst s in
  let! mag := interp1d_nan xs (map (fun p => option_map Cmod (snd p)) s) f in
  let! ph := interp1d_nan xs (unwrap_nan (map (fun p => option_map angle (snd p)) s)) f in
  Ok (match mag, ph with Some m, Some p => Some (Cmult (RtoC m) (cis p)) | _, _ => None end).

(** The values of a list without NaN. *)
Fixpoint all_present {A} (l : list (option A)) : option (list A) :=
  match l with
  | [] => Some []
  | Some x :: r => option_map (cons x) (all_present r)
  | None :: _ => None
  end.

(** signalproc.py:1027-1044 on a Series with step [dt]: one NaN among the samples makes every bin of the transform NaN, one NaN
    among the interpolated filter values makes every sample of the inverse transform NaN. *)
Definition apply_filter_nan (dt : R) (sig : list (option R)) (filt : list (R * option C)) : result (list (option R)) :=
  let n := length sig in
  if Nat.ltb n 2 then Err IndexError
  else if Reqb dt 0 then Err ZeroDivisionError
  else
    let f_vec := fftfreq n dt in
    match filt with
    | [] => Err ValueError
    | _ =>
      if Rltb (Rmax_of (map fst filt)) (Rmax_of f_vec) then Err ValueError
      else
        let! interp_filt := mapM (interp_tf_nan_at filt) f_vec in
        match all_present sig, all_present interp_filt with
        | Some x, Some h =>
            let input_fft := map (fun z => Cdiv (Cmult z (RtoC 2)) (RtoC (INR n))) (fft (map RtoC x)) in
            let filtered_fft := map2 Cmult input_fft h in
            Ok (map Some (map fst (ifft (map (fun z => Cdiv (Cmult z (RtoC (INR n))) (RtoC 2)) filtered_fft))))
        | _, _ => Ok (repeat None n)
        end
    end.

(** The record: a Series, or a DataFrame of [m] columns; the filter: a Series, or a DataFrame over the given frequencies. *)
Inductive record_in := OneRecord (sig : list (option R)) | RecordTable (n m : nat).
Inductive filter_in := OneFilter (rows : list (R * option C)) | FilterTable (rows : list (R * list (option C))).
(** signalproc.py:1027-1044 with tables. A DataFrame is transformed along its rows (np.fft.fft works on the last axis) over
    fftfreq of the number of columns, and the product of the n x m array with the interpolated Series is refused by pandas
    ("Data must be 1-dimensional"). A filter table is refused where the array meets the frame, or, with as many columns as
    samples, where pd.Series receives a two-dimensional array. *)
Definition apply_filter_obj (dt : R) (sig : record_in) (filt : filter_in) : result (list (option R)) :=
  match sig, filt with
  | OneRecord x, OneFilter rows => apply_filter_nan dt x rows
  | OneRecord x, FilterTable _ =>
      if Nat.ltb (length x) 2 then Err IndexError else if Reqb dt 0 then Err ZeroDivisionError else Err ValueError
  | RecordTable n m, _ =>
      if Nat.ltb n 2 then Err IndexError
      else if Nat.eqb m 0 then Err ValueError
      else if Reqb dt 0 then Err ZeroDivisionError else Err ValueError
  end.

(** signalproc.py:929-930: centers = np.array(centers).flatten(); centers -= ref_center. Whole-number centers make an integer
    array, from which only a whole number can be subtracted in place (numpy: UFuncTypeError, a TypeError). An empty list is a
    float array. *)
Inductive number := WholeNo (z : Z) | FloatNo (r : R).
Definition value_of (a : number) : R := match a with WholeNo z => IZR z | FloatNo r => r end.
Definition is_whole (a : number) : bool := match a with WholeNo _ => true | FloatNo _ => false end.
Definition shift_centers (centers : list number) (ref : number) : result (list (option R)) :=
  if (negb (Nat.eqb (length centers) 0) && forallb is_whole centers && negb (is_whole ref))%bool then Err TypeError
  else Ok (map (fun c => Some (value_of c - value_of ref)) centers).
(** signalproc.py:883-959 get_1d_plant with the kinds of numbers in sight. *)
Definition get_1d_plant_num (centers : list number) (ref : number) (width : option R) (shape : String.string) (dx xmax : R)
  : result (list (option R) * list R) :=
  let! c := shift_centers centers ref in get_1d_plant c 0 width shape dx xmax.
