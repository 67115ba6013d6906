(** binary64 model of the sizes that the code obtains by truncating a product or a quotient. No proofs here.
    Every arithmetic operation is rounded to nearest even (M_spatial_float.v); no overflow at these magnitudes. *)
From Flocq Require Import Core.
From Verif Require Import Prelude RealBase M_spatial M_spatial_float M_signal_plant.
Local Open Scope R_scope.

(** signalproc.py:208-209, 299-300: noverlap = int(nperseg * overlap). *)
Definition noverlap_b64 (nperseg : Z) (overlap : R) : Z := py_int (b64 (IZR nperseg * overlap)).
(** synthirrad/cloudfield.py:565-566: int(tgt_position / cloud_speed), one coordinate. *)
Definition pixel_b64 (position speed : R) : Z := py_int (b64 (position / speed)).
(** synthirrad/cloudfield.py:154-156: prop = 2.0**(-scale+1), int(size * prop), for a whole-number scale (the power of two is
    exact in binary64). *)
Definition layer_b64 (size scale : Z) : Z := py_int (b64 (IZR size * bpow radix2 (- scale + 1))).
(** visualization/vis_tools.py:77-79: lim = (int(xymax/binwidth) + 1) * binwidth with binwidth = 0.25. *)
Definition hist_lim_b64 (xymax : R) : R := b64 (IZR (py_int (b64 (xymax / (1 / 4))) + 1) * (1 / 4)).
(** np.arange(start, stop, step) in binary64: ceil((stop - start)/step) entries; the second is start + step and the others are
    start + i * ((start + step) - start). *)
Definition arange_b64 (start stop step : R) : list R :=
  let second := b64 (start + step) in
  let delta := b64 (second - start) in
  map (fun i => match i with O => start | 1%nat => second | _ => b64 (start + b64 (INR i * delta)) end)
      (seq 0 (ceil_nat (b64 (b64 (stop - start) / step)))).
(** vis_tools.py:81: np.arange(-lim, lim + binwidth, binwidth) *)
Definition hist_edges_b64 (xymax : R) : list R :=
  let lim := hist_lim_b64 xymax in arange_b64 (- lim) (b64 (lim + 1 / 4)) (1 / 4).
(** synthirrad/copula.py:447: np.arange(-2, 2, 0.01); the literal 0.01 is the nearest binary64 number. *)
Definition csi_grid_b64 : list R := arange_b64 (-2) 2 (b64 (1 / 100)).
