(** Model of src/solarspatialtools/stats.py calc_quantile (309-404) on an index with a time zone. M_stats.calc_quantile is the case
    of an index without one. Instants are numbers of nanoseconds; [local i] is what the clock of the zone shows at instant [i]:
    (day number, time of day); [locate st] is the instant at which it shows [st], or None when it never does (clocks put forward)
    or does so twice (clocks put back), where tz_localize raises. [strict] tells how pandas slices an index with a time zone by
    plain dates: since version 2 it refuses (TypeError), before it read the date in the zone of the index. No proofs here. *)
From Coq Require Import String.
From Verif Require Import Prelude RealBase Fl M_spatial M_stats.
Local Open Scope R_scope.

Section Zone.
  Variable strict : bool.
  Variable local : Z -> Z * Z.
  Variable locate : Z * Z -> option Z.

  (** The rows by what the clock shows (ts.index.date, ts.index.time; stats.py:351-366). *)
  Definition clock_rows (rows : list (Z * option R)) : list qrow := map (fun r => (local (fst r), snd r)) rows.
  (** stats.py:364 one bound of ts[date_start:date_end]: midnight of the date. *)
  Definition bound (d : Z) : result Z :=
    if strict then Err TypeError else match locate (d, 0%Z) with Some i => Ok i | None => Err OtherError end.
  (** stats.py:364 *)
  Definition window_tz (rows : list (Z * option R)) (d0 d1 : Z) : result (list qrow) :=
    let! a := bound d0 in
    let! b := bound d1 in
    Ok (clock_rows (filter (fun r => ((a <=? fst r) && (fst r <=? b))%Z) rows)).
  (** stats.py:354-390; [wide]: a frame with other than one column, which fails at 369. *)
  Fixpoint loop_tz (wide : bool) (rows : list (Z * option R)) (n : Z) (q : R) (end_day : Z) (days : list Z) (out : list qrow)
    : result (list qrow) :=
    match days with
    | [] => Ok out
    | d :: ds =>
      let date_end := (d + n)%Z in
      if (end_day <? date_end)%Z then Ok out
      else let! w := window_tz rows d date_end in
           if wide then Err ValueError
           else let! p := window_quantile q date_end w in loop_tz wide rows n q end_day ds (out ++ p)
    end.
  (** stats.py:392 tz_localize *)
  Definition localize (out : list qrow) : result (list (Z * option R)) :=
    mapM (fun r => match locate (fst r) with Some i => Ok (i, snd r) | None => Err OtherError end) out.
  Definition at_instant (out : list (Z * option R)) (i : Z) : option R :=
    match find (fun r => (fst r =? i)%Z) out with Some r => snd r | None => None end.
  (** stats.py:309-404 *)
  Definition calc_quantile_tz (rows : list (Z * option R)) (nm : ts_name) (n : Z) (q : R)
    : result (string * list (Z * option R)) :=
    match rev rows with
    | [] => Err IndexError
    | last :: _ =>
      let wide := match nm with FrameCols ([] | _ :: _ :: _) => true | _ => false end in
      let! out := loop_tz wide rows n q (fst (local (fst last))) (uniq (map (fun r => fst (local (fst r))) rows)) [] in
      let! loc := localize out in
      let! name := quant_name nm in
      Ok (name, map (fun r => (fst r, at_instant loc (fst r))) rows)
    end.
End Zone.
