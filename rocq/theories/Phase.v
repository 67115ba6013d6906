(** numpy/scipy primitives on complex phases used by signalproc.py: np.angle, np.unwrap,
    scipy.interpolate.interp1d(kind='linear') and np.interp. Exact real arithmetic. *)
From Verif Require Import Prelude RealBase Fl.
From Coquelicot Require Import Complex.
Local Open Scope R_scope.

(** np.angle(z): the argument in (-pi, pi]; 0 for z = 0. Signed zeros are not modelled. *)
Definition angle (z : C) : R :=
  if Req_EM_T (Cmod z) 0 then 0
  else if Rle_dec 0 (snd z) then acos (fst z / Cmod z) else - acos (fst z / Cmod z).

(** np.mod(d + pi, 2 pi) - pi, in [-pi, pi) *)
Definition wrap_pi (d : R) : R := d - 2 * PI * IZR (Int_part ((d + PI) / (2 * PI))).
(** The correction np.unwrap adds after a jump of [d] (period 2 pi, default discont):
    none below half a period, otherwise the wrapped jump minus the jump; the boundary value -pi is
    taken as +pi for a rising jump. *)
Definition jump_fix (d : R) : R :=
  if Rlt_dec (Rabs d) PI then 0
  else (if Req_EM_T (wrap_pi d) (- PI) then (if Rlt_dec 0 d then PI else wrap_pi d) else wrap_pi d) - d.
(** np.unwrap: p[0], then p[i] + the accumulated corrections. *)
Fixpoint unwrap_from (prev corr : R) (l : list R) : list R :=
  match l with
  | [] => []
  | q :: r => let c := corr + jump_fix (q - prev) in (q + c) :: unwrap_from q c r
  end.
Definition unwrap (l : list R) : list R := match l with [] => [] | p :: r => p :: unwrap_from p 0 r end.
(** np.unwrap with NaN entries ([None]): the accumulated correction is NaN from the first NaN onwards. *)
Fixpoint unwrap_from_nan (prev corr : R) (l : list (option R)) : list (option R) :=
  match l with
  | [] => []
  | Some q :: r => let c := corr + jump_fix (q - prev) in Some (q + c) :: unwrap_from_nan q c r
  | None :: r => map (fun _ => None) (None :: r)
  end.
Definition unwrap_nan (l : list (option R)) : list (option R) :=
  match l with
  | [] => []
  | Some p :: r => Some p :: unwrap_from_nan p 0 r
  | None :: r => map (fun _ => None) (None :: r)
  end.

(** interp1d(xs, ys)(x) on sorted xs with at least two nodes: the segment is found with
    searchsorted(xs, x) clipped to 1 .. len-1; ValueError outside [xs[0], xs[-1]]. *)
Definition seg_of (xs : list R) (x : R) : nat :=
  Nat.min (Nat.max 1 (length (filter (fun t => Rltb t x) xs))) (length xs - 1).
Definition lerp_at (xs ys : list R) (i : nat) (x : R) : R :=
  let x0 := nth (i - 1) xs 0 in let x1 := nth i xs 0 in
  let y0 := nth (i - 1) ys 0 in let y1 := nth i ys 0 in
  (y1 - y0) / (x1 - x0) * (x - x0) + y0.
Definition interp1d (xs ys : list R) (x : R) : result R :=
  if (Rltb x (nth 0 xs 0) || Rltb (nth (length xs - 1) xs 0) x)%bool then Err ValueError
  else Ok (lerp_at xs ys (seg_of xs x) x).

(** np.interp(x, xp, fp, left=nan, right=nan) for increasing xp: NaN outside, fp[j] at a node xp[j],
    else linear on the segment [xp[j], xp[j+1]) holding x. The query may be NaN ([None]). *)
Fixpoint np_interp_from (xp : list R) (fp : list fl) (x : R) : fl :=
  match xp, fp with
  | [x0], f0 :: _ => if Reqb x x0 then f0 else Nan
  | x0 :: ((x1 :: _) as xp'), f0 :: ((f1 :: _) as fp') =>
      if Rltb x x0 then Nan
      else if Reqb x x0 then f0
      else if Rltb x x1 then fadd (fmul (fdiv (fsub f1 f0) (Fin (x1 - x0))) (Fin (x - x0))) f0
      else np_interp_from xp' fp' x
  | _, _ => Nan
  end.
Definition np_interp (x : option R) (xp : list R) (fp : list fl) : fl :=
  match x with None => Nan | Some x => np_interp_from xp fp x end.
