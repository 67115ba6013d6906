(** Model of demos/synthetic_clouds_demo.py: sensor series read from a synthetic cloud field. *)
From Verif Require Import Prelude RealBase Fl M_spatial M_cloudfield.
Local Open Scope R_scope.

(** values - np.min(values): synthetic_clouds_demo.py:55, 149-150 *)
Definition from_zero (l : list R) : list R := map (fun v => v - Rmin_of l) l.
(** int(np.ceil(x)): synthetic_clouds_demo.py:113-114 *)
Definition int_ceil (x : R) : Z := (- Int_part (- x))%Z.

(** synthetic_clouds_demo.py:105-106 np.abs(np.max(..) - np.min(..)) *)
Definition extent_of (l : list R) : R := Rabs (Rmax_of l - Rmin_of l).

(** synthetic_clouds_demo.py:156-162, one turn of the loop: [x], [y] are the sensor's positions in seconds, [xmax] the largest x. The sample
    must be as long as the index of the frame it is stored in. Simplification: a field without rows has no columns. *)
Definition sensor_series (field : list (list fl)) (xmax t_extent : R) (n_times : nat) (x y : R) : result (list fl) :=
  let x0 := py_trunc (xmax - x) in
  let y0 := py_trunc y in
  let c := Z.of_nat (n_cols field) in
  if ((y0 <? - c) || (c <=? y0))%Z then Err IndexError
  else
    let col := Z.to_nat (if (y0 <? 0)%Z then y0 + c else y0) in
    let s := map (fun row => nth col row Nan) (py_slice field x0 (x0 + py_trunc t_extent + 1)) in
    if Nat.eqb (length s) n_times then Ok s else Err ValueError.

(** synthetic_clouds_demo.py:54-55, 105-114, 132, 149-162. [gen] is the call of cloudfield_timeseries at 132 for a given size, [pos] the labelled
    (E, N) positions, [twin] the times in seconds. Plotting and printing left out. Simplification: labels are distinct and the cloud
    speed is positive. *)
Definition clouds_demo {K} (gen : nat * nat -> result (list (list fl))) (pos : list (K * (R * R))) (cld_spd cld_dir : R) (twin : list R)
  : result (list (K * list fl)) :=
  match pos with
  | [] => Err ValueError
  | _ =>
      let rot := map (fun p => rotate_vector (snd p) (- cld_dir)) pos in
      let xs := from_zero (map fst rot) in
      let ys := from_zero (map snd rot) in
      if Nat.ltb (length twin) 2 then Err IndexError
      else
        let t_extent := Rmax_of twin - Rmin_of twin in
        let xt_size := int_ceil (extent_of xs / cld_spd + t_extent) in
        let yt_size := int_ceil (extent_of ys / cld_spd) in
        let! field := gen (Z.to_nat xt_size, Z.to_nat yt_size) in
        let xpos := map (fun v => v / cld_spd) (from_zero xs) in
        let ypos := map (fun v => v / cld_spd) (from_zero ys) in
        mapM (fun r => let! s := sensor_series field (Rmax_of xpos) t_extent (length twin) (fst (snd r)) (snd (snd r)) in Ok (fst r, s))
             (combine (map fst pos) (combine xpos ypos))
  end.
