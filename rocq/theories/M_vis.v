(** Model of src/solarspatialtools/visualization/vis_tools.py scatter_hist: the limits and the histogram counts.
    Drawing itself is not modelled. [None] is NaN; no infinities. *)
From Verif Require Import Prelude RealBase RealStat M_signal_plant.
Local Open Scope R_scope.

(** np.max(np.abs(v)): NaN if any value is, ValueError when empty. *)
Definition np_absmax (v : list (option R)) : result (option R) :=
  match v with
  | [] => Err ValueError
  | _ => Ok (if existsb (fun o => match o with None => true | Some _ => false end) v then None
             else Some (Rmaxl 0 (map Rabs (present v))))
  end.
(** Python max(a, b): b only if b > a, so a NaN in second place is ignored. *)
Definition py_max (a b : option R) : option R :=
  match a, b with
  | Some a, Some b => if Rltb a b then Some b else Some a
  | _, _ => a
  end.
(** vis_tools.py:74-79: lim = (int(xymax / binwidth) + 1) * binwidth; int(NaN) is a ValueError. *)
Definition scatter_bins (x y : list (option R)) : result (list R) :=
  if negb (Nat.eqb (length x) (length y)) then Err ValueError
  else
    let! mx := np_absmax x in
    let! my := np_absmax y in
    match py_max mx my with
    | None => Err ValueError
    | Some m =>
      let w := 1 / 4 in
      let lim := (IZR (Int_part (m / w)) + 1) * w in
      arange (- lim) (lim + w) w
    end.
(** np.histogram with given edges: intervals closed on the left, the last one on both sides; NaN is in none. *)
Fixpoint hist_counts (edges : list R) (v : list (option R)) : list nat :=
  match edges with
  | a :: (b :: r) as rest =>
    length (filter (fun o => match o with
                             | None => false
                             | Some x => (Rleb a x && match r with [] => Rleb x b | _ => Rltb x b end)%bool
                             end) v) :: hist_counts rest v
  | _ => []
  end.
(** vis_tools.py:56-82 scatter_hist: bin edges and the counts of both histograms. *)
Definition scatter_hist (x y : list (option R)) : result (list R * (list nat * list nat)) :=
  let! bins := scatter_bins x y in Ok (bins, (hist_counts bins x, hist_counts bins y)).
