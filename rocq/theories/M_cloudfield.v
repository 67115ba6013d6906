(** Model of synthirrad/cloudfield.py. Fields are lists of rows. Arithmetic is exact; [fl] is used wherever a
    division can produce infinities or NaN. *)
From Verif Require Import Prelude RealBase Fl RealStat M_stats.
Local Open Scope R_scope.

(** np.linspace(0, 1, n) *)
Definition linspace01 (n : nat) : list R := map (fun i => INR i / INR (n - 1)) (seq 0 n).
(** An r by c array from its entries. *)
Definition build {A} (r c : nat) (f : nat -> nat -> A) : list (list A) := map (fun i => map (f i) (seq 0 c)) (seq 0 r).
Definition get2 (m : list (list R)) (i j : nat) : R := nth j (nth i m []) 0.
Definition n_cols {A} (m : list (list A)) : nat := match m with [] => 0%nat | r :: _ => length r end.

(** scipy RegularGridInterpolator: interval of [v] in the increasing grid [g], never beyond the last but one point. *)
Definition grid_index (g : list R) (v : R) : nat :=
  Nat.min (length (filter (fun x => Rleb x v) g) - 1) (length g - 2).
(** Position inside that interval, 0 to 1. *)
Definition grid_frac (g : list R) (v : R) : R :=
  let i := grid_index g v in (v - nth i g 0) / (nth (i + 1) g 0 - nth i g 0).
(** Bilinear interpolation of the table [m] on the grid x, y. *)
Definition bilinear (x y : list R) (m : list (list R)) (u v : R) : R :=
  let i := grid_index x u in let j := grid_index y v in
  let s := grid_frac x u in let t := grid_frac y v in
  get2 m i j * (1 - s) * (1 - t) + get2 m i (j + 1) * (1 - s) * t +
  get2 m (i + 1) j * s * (1 - t) + get2 m (i + 1) (j + 1) * s * t.
(** cloudfield.py:38-41 np.repeat of singleton dimensions. *)
Definition repeat_rows {A} (m : list (list A)) : list (list A) := match m with [r] => [r; r] | _ => m end.
Definition repeat_cols {A} (m : list (list A)) : list (list A) :=
  if Nat.eqb (n_cols m) 1 then map (fun r => match r with [a] => [a; a] | _ => r end) m else m.

Section Draws.
  (** np.random.rand(a, b) at the k-th call; the generator's state is the call number. *)
  Variable rnd : nat -> nat -> nat -> list (list R).

  (** cloudfield.py:12-75 _random_at_scale. Simplification: plotting left out; final sizes are not negative. *)
  Definition random_at_scale (k : nat) (rand_size : Z * Z) (final_size : nat * nat) : list (list R) * list (list R) :=
    let random := rnd k (Z.to_nat (Z.max (fst rand_size) 1)) (Z.to_nat (Z.max (snd rand_size) 1)) in
    let random := repeat_cols (repeat_rows random) in
    let x := linspace01 (length random) in
    let y := linspace01 (n_cols random) in
    let xnew := linspace01 (fst final_size) in
    let ynew := linspace01 (snd final_size) in
    (random, map (fun u => map (fun v => bilinear x y random u v) ynew) xnew).

  (** cloudfield.py:154-156 int(size * 2.0**(-scale+1)) *)
  Definition coarse (n : nat) (scale : R) : Z := Z.of_nat (Rfloor (INR n * Rpower 2 (- scale + 1))).
  (** cloudfield.py:151-158 the weighted sum; the k-th call draws for the first scale. *)
  Fixpoint stack_sum (k : nat) (sw : list (R * R)) (size : nat * nat) (field : list (list R)) : list (list R) :=
    match sw with
    | [] => field
    | (scale, weight) :: rest =>
      let i_field := snd (random_at_scale k (coarse (fst size) scale, coarse (snd size) scale) size) in
      stack_sum (S k) rest size (map2 (map2 (fun a b => a + b * weight)) field i_field)
    end.
  (** cloudfield.py:122-171 _stack_random_field *)
  Definition stack_random_field (k : nat) (weights scales : list R) (size : nat * nat) (normalize : bool) : result (list (list R)) :=
    if negb (Nat.eqb (length weights) (length scales)) then Err ValueError
    else
      let field := stack_sum k (combine scales weights) size (build (fst size) (snd size) (fun _ _ => 0)) in
      if normalize then
        match concat field with
        | [] => Err ValueError
        | _ =>
          let field := map (map (fun v => v - Rmin_of (concat field))) field in
          let top := Rmax_of (concat field) in
          if Reqb top 0 then Err AssertionError
          else Ok (map (map (fun v => v / top)) field)
        end
      else Ok field.
End Draws.

(** scales ** p elementwise, for scales that are not negative; 1 ** nan is 1. *)
Definition np_pow (s : R) (p : fl) : fl :=
  match p with
  | Fin p => if Rltb 0 s then Fin (Rpower s p) else if Rltb 0 p then Fin 0 else if Reqb p 0 then Fin 1 else Pinf
  | Pinf => if Rltb 1 s then Pinf else if Rltb s 1 then Fin 0 else Fin 1
  | Ninf => if Rltb 1 s then Fin 0 else if Rltb s 1 then Pinf else Fin 1
  | Nan => if Reqb s 1 then Fin 1 else Nan
  end.
(** np.sum *)
Definition fsum (l : list fl) : fl := fold_right fadd (Fin 0) l.
(** cloudfield.py:98-99: 1/VS1 with VS1 = -log(1 - vs/180)/0.6. At vs = 0 the logarithm is +0, VS1 is -0 and its
    reciprocal -inf; at vs = 180 VS1 is inf; beyond, NaN. *)
Definition vs_exponent (vs : R) : fl :=
  if Reqb vs 0 then Ninf
  else if Rltb vs 180 then Fin (1 / (- ln (1 - vs / 180) / (6 / 10)))
  else if Reqb vs 180 then Fin 0 else Nan.
(** cloudfield.py:78-100 _calc_vs_weights *)
Definition calc_vs_weights (scales : list R) (vs : R) : result (list fl) :=
  if Rltb vs 0 then Err ValueError
  else let weight := map (fun s => np_pow s (vs_exponent vs)) scales in
       Ok (map (fun w => fdiv w (fsum weight)) weight).
(** cloudfield.py:103-119 _calc_wavelet_weights *)
Definition calc_wavelet_weights (waves : list (list (option R))) : list fl :=
  let scales := map (fun w => nanmean (map (option_map (fun v => v ^ 2)) w)) waves in
  map (fun s => fdiv s (fsum scales)) scales.

(** np.isclose(a, b, rtol=1e-3), atol 1e-8 *)
Definition isclose (a b : R) : bool := Rleb (Rabs (a - b)) (1 / 100000000 + 1 / 1000 * Rabs b).
(** cloudfield.py:174-216 _calc_clear_mask. The quantile of an empty field raises IndexError; with clear_frac 0 an
    empty field gives 0/0, which is close to nothing. *)
Definition calc_clear_mask (field : list (list R)) (clear_frac : R) : result (list (list R)) :=
  if Rltb 1 clear_frac || Rltb clear_frac 0 then Err ValueError
  else
    match concat field with
    | [] => if Reqb clear_frac 0 then Err AssertionError else Err IndexError
    | _ =>
      let mask := if Reqb clear_frac 0 then map (map (fun _ => 0)) field
                  else let quant := quantile clear_frac (concat field) in
                       map (map (fun v => if Rltb quant v then 0 else 1)) field in
      if isclose clear_frac (Rsum (concat mask) / INR (length (concat field))) then Ok mask else Err AssertionError
    end.

(** scipy.ndimage mode 'reflect': index k of an axis of length n, mirrored at the edges with the edge repeated. *)
Definition reflect (n : nat) (k : Z) : nat :=
  let m := (k mod (2 * Z.of_nat n))%Z in
  if (m <? Z.of_nat n)%Z then Z.to_nat m else Z.to_nat (2 * Z.of_nat n - 1 - m).
(** scipy.ndimage.correlate1d along rows (axis 0) and along columns (axis 1): weights for offsets lo, lo+1, ... *)
Definition correlate0 (lo : Z) (w : list R) (m : list (list R)) : list (list R) :=
  build (length m) (n_cols m) (fun i j =>
    Rsum (map (fun p => snd p * get2 m (reflect (length m) (Z.of_nat i + lo + Z.of_nat (fst p))) j) (combine (seq 0 (length w)) w))).
Definition correlate1 (lo : Z) (w : list R) (m : list (list R)) : list (list R) :=
  build (length m) (n_cols m) (fun i j =>
    Rsum (map (fun p => snd p * get2 m i (reflect (n_cols m) (Z.of_nat j + lo + Z.of_nat (fst p)))) (combine (seq 0 (length w)) w))).
(** scipy.ndimage.sobel: difference along the axis, [1 2 1] smoothing along the other. *)
Definition sobel0 (m : list (list R)) : list (list R) := correlate1 (-1) [1; 2; 1] (correlate0 (-1) [-1; 0; 1] m).
Definition sobel1 (m : list (list R)) : list (list R) := correlate0 (-1) [1; 2; 1] (correlate1 (-1) [-1; 0; 1] m).
(** scipy.ndimage.uniform_filter: running mean over [size] entries along each axis; sizes 0 and 1 do nothing. *)
Definition uniform_filter (size : nat) (m : list (list R)) : list (list R) :=
  if (size <=? 1)%nat then m
  else let w := repeat (1 / INR size) size in
       let lo := (- Z.of_nat (size / 2))%Z in
       correlate1 lo w (correlate0 lo w m).
(** cloudfield.py:219-263 _find_edges. The maximum of an empty array raises ValueError. *)
Definition find_edges (base_mask : list (list R)) (size : nat) (threshold : R) : result (list (list R) * list (list bool)) :=
  let edges := map2 (map2 (fun a b => Rabs (a ^ 2 + b ^ 2))) (sobel0 base_mask) (sobel1 base_mask) in
  let smoothed := map (map (fun v => if Rltb v (1 / 100000) then 0 else v)) (uniform_filter size edges) in
  match concat smoothed with
  | [] => Err ValueError
  | _ => let top := Rmax_of (concat smoothed) in
         Ok (edges, map (map (fun v => fltb (Fin threshold) (fdiv (Fin v) (Fin top)))) smoothed)
  end.

(** A pixel: field value, clear mask, edge mask. Simplification: the three arrays have one shape, and the edge mask is
    boolean or not negative (so the two forms of cloud_mask in lines 313-319 agree). *)
Record pixel : Type := Pixel { px_v : R; px_clear : R; px_edge : R }.
Definition pixels (field clear edge : list (list R)) : list (list pixel) :=
  map2 (map2 (fun a f => f a)) edge (map2 (map2 (fun v c e => Pixel v c e)) field clear).
Definition is_edge (p : pixel) : bool := Rltb 0 (px_edge p).
Definition is_clear (p : pixel) : bool := Rltb 0 (px_clear p).
Definition is_cloud (p : pixel) : bool := negb (is_clear p || is_edge p).
(** field[clear_mask == 0] *)
Definition unclear_values (px : list (list pixel)) : list R := map px_v (filter (fun p => Reqb (px_clear p) 0) (concat px)).
(** np.min, np.max: NaN wins. *)
Definition fmin2 (a b : fl) : fl := if is_nan a then a else if is_nan b then b else if fltb b a then b else a.
Definition fmax2 (a b : fl) : fl := if is_nan a then a else if is_nan b then b else if fltb a b then b else a.
Definition fmin_of (l : list fl) : fl := match l with [] => Nan | a :: r => fold_left fmin2 r a end.
Definition fmax_of (l : list fl) : fl := match l with [] => Nan | a :: r => fold_left fmax2 r a end.
(** np.mean *)
Definition fmean (l : list fl) : fl := fdiv (fsum l) (Fin (INR (length l))).

(** np.quantile refuses (ValueError) a fraction outside [0, 1], before it looks at the data. *)
Definition bad_quantile (q : R) : bool := Rltb q 0 || Rltb 1 q.

(** cloudfield.py:305-309: 1 - v (1 - kt1pct)/field_max, clipped to [0, 1]. *)
Definition lave_base (kt1pct field_max v : R) : fl :=
  let c := fsub (Fin 1) (fdiv (Fin (v * (1 - kt1pct))) (Fin field_max)) in
  let c := if fltb (Fin 1) c then Fin 1 else c in
  if fltb c (Fin 0) then Fin 0 else c.
(** cloudfield.py:266-372 _scale_field_lave *)
Definition scale_field_lave (px : list (list pixel)) (ktmean ktmax kt1pct max_quant : R) : result (list (list fl)) :=
  if bad_quantile max_quant then Err ValueError else
  match unclear_values px with
  | [] => Err IndexError
  | _ =>
    let field_max := quantile max_quant (unclear_values px) in
    let base p := lave_base kt1pct field_max (px_v p) in
    let all := map base (concat px) in
    let lo := fmin_of all in let hi := fmax_of all in
    let ce p := fadd (Fin 1) (fmul (fdiv (fsub (base p) lo) (fsub hi lo)) (Fin (ktmax - 1))) in
    let tgtsum := INR (length (concat px)) * ktmean in
    let diff_sum := fsub (Fin (tgtsum - Rsum (map px_clear (concat px))))
                         (fsum (map ce (filter (fun p => is_edge p && Reqb (px_clear p) 0) (concat px)))) in
    let clouds := filter is_cloud (concat px) in
    let tgt_cloud_mean := fdiv diff_sum (Fin (INR (length clouds))) in
    let current_cloud_mean := fmean (map base clouds) in
    let clouds4 p := if fltb (Fin 0) diff_sum then fmul (fdiv tgt_cloud_mean current_cloud_mean) (base p) else base p in
    Ok (map (map (fun p => if is_clear p then Fin 1 else if is_edge p then ce p else clouds4 p)) px)
  end.

(** cloudfield.py:415-423: fraction of the range, reflected at 1 and then at 0, optionally flipped. *)
Definition basic_frac (flip : bool) (field_min field_max v : R) : fl :=
  let c := fdiv (Fin (v - field_min)) (Fin (field_max - field_min)) in
  let c := if fltb (Fin 1) c then fsub (Fin 2) c else c in
  let c := if fltb c (Fin 0) then fopp c else c in
  if flip then fsub (Fin 1) c else c.
(** cloudfield.py:374-476 _scale_field_basic. The printed warning is not modelled. *)
Definition scale_field_basic (px : list (list pixel)) (ktmean ktmax kt1pct quant : R) (flip : bool) (cs_smoothing : option R)
  : result (list (list fl)) :=
  if bad_quantile quant then Err ValueError else
  match unclear_values px with
  | [] => Err IndexError
  | _ =>
    let field_max := quantile quant (unclear_values px) in
    let field_min := quantile (1 - quant) (unclear_values px) in
    let fr p := basic_frac flip field_min field_max (px_v p) in
    let ce p := fadd (fmul (fr p) (Fin (ktmax - 1))) (Fin 1) in
    let clear p := match cs_smoothing with
                   | Some c => fadd (fmul (fr p) (Fin (1 - c))) (Fin c)
                   | None => Fin 1
                   end in
    let placed p := if is_clear p then clear p else if is_edge p then ce p else Fin 0 in
    let clouds := filter is_cloud (concat px) in
    let tgtsum := INR (length (concat px)) * ktmean in
    let baseline := kt1pct * INR (length clouds) in
    let target := fsub (fsub (Fin tgtsum) (fsum (map placed (concat px)))) (Fin baseline) in
    let current := fsum (map fr clouds) in
    let cloud p := if fltb (Fin 0) target && fltb target current && fltb (Fin baseline) current
                   then fadd (fdiv (fmul (fr p) target) current) (Fin kt1pct)
                   else fadd (fmul (fr p) (Fin (1 - kt1pct))) (Fin kt1pct) in
    Ok (map (map (fun p => if is_cloud p then cloud p else placed p)) px)
  end.

(** Python's slice start:stop (step 1) on a list of length n. *)
Definition slice_bound (n : nat) (k : Z) : nat :=
  if (k <? 0)%Z then Z.to_nat (k + Z.of_nat n) else Nat.min (Z.to_nat k) n.
Definition py_slice {A} (l : list A) (start stop : Z) : list A :=
  let a := slice_bound (length l) start in let b := slice_bound (length l) stop in firstn (b - a) (skipn a l).
(** int() of a real: truncation towards zero. *)
Definition py_trunc (x : R) : Z := if Rltb x 0 then (- Int_part (- x))%Z else Int_part x.
(** cloudfield.py:541-569 get_positional_ts. pixres is ignored by the code. Simplification: a field without rows has no
    columns. *)
Definition get_positional_ts (pos : R * R) (field : list (list R)) (cloud_speed duration : R) : result (list R) :=
  if Reqb cloud_speed 0 then Err ZeroDivisionError
  else
    let x := py_trunc (fst pos / cloud_speed) in
    let y := py_trunc (snd pos / cloud_speed) in
    let c := Z.of_nat (n_cols field) in
    if ((y <? - c) || (c <=? y))%Z then Err IndexError
    else let col := Z.to_nat (if (y <? 0)%Z then y + c else y) in
         Ok (map (fun row => nth col row 0) (py_slice field x (x + py_trunc duration + 1))).

(** What get_timeseries_stats returns. *)
Record ts_stats : Type := TsStats
  { st_mean : fl; st_pct : fl; st_max : fl; st_clear : fl; st_vs : fl; st_weights : list fl; st_scales : list Z }.
Section Wavelet.
  (** pvlib.scaling._compute_wavelet: one row per time scale, the last one the steady mode, and the time scales. *)
  Variable wavelet : tser -> list (list (option R)) * list R.
  (** cloudfield.py:478-538 get_timeseries_stats. ktstd and ktmin are computed and dropped. *)
  Definition get_timeseries_stats (kt : tser) (clear_threshold : R) : result ts_stats :=
    let v := values kt in
    let n_clear := length (filter (fun o => match o with Some x => Rltb clear_threshold x | None => false end) v) in
    let! vs := variability_score kt 1 true false in
    let (waves, tm) := wavelet kt in
    Ok (TsStats (nanmean v) (nan_reduce (quantile (1 / 100)) (present v)) (nanmax v)
          (fdiv (Fin (INR n_clear)) (Fin (INR (length v))))
          (fmul vs (Fin 10000))
          (calc_wavelet_weights (removelast waves))
          (map (fun i => Z.of_nat i + 1)%Z (seq 0 (length (removelast tm))))).
End Wavelet.

Definition as_number (b : bool) : R := if b then 1 else 0.
Inductive scaling_method : Type := Original | Basic | OtherScaling.
(** cloudfield.py:573-622 cloudfield_timeseries; the first half of the draws makes the clouds, the second the mask. *)
Definition cloudfield_timeseries (rnd : nat -> nat -> nat -> list (list R)) (weights scales : list R) (size : nat * nat)
    (frac_clear ktmean ktmax kt1pct : R) (scaling : scaling_method) (edgesmoothing : nat) : result (list (list fl)) :=
  let! cfield := stack_random_field rnd 0 weights scales size false in
  let! field := stack_random_field rnd (length scales) weights scales size false in
  let! clear_mask := calc_clear_mask field frac_clear in
  let! (edges, smoothed) := find_edges clear_mask edgesmoothing 0 in
  match scaling with
  | Original => scale_field_lave (pixels cfield clear_mask edges) ktmean ktmax kt1pct (99 / 100)
  | Basic => scale_field_basic (pixels cfield clear_mask (map (map as_number) smoothed)) ktmean ktmax kt1pct (999 / 1000) false None
  | OtherScaling => Err ValueError
  end.
