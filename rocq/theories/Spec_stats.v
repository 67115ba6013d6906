(** Independent vocabulary for the statistics module. *)
From Coq Require Import Permutation String.
From Verif Require Import Prelude RealBase Fl RealStat M_stats.
Local Open Scope R_scope.

(** Arithmetic mean. *)
Definition avg (l : list R) : R := Rsum l / INR (length l).
(** The error at every position: estimate minus baseline. *)
Definition errs (baseline estimation : list R) : list R :=
  map (fun p => snd p - fst p) (combine baseline estimation).
(** Mean squared deviation from the mean. *)
Definition spread (l : list R) : R := avg (map (fun x => (x - avg l) ^ 2) l).

(** The value a series holds for a label, if it holds one. *)
Definition holds {K} (s : ser K) (k : K) (x : R) : Prop := In (k, Some x) s.
(** [P] lists, each common label once, the pair of values the two series hold for it. *)
Definition paired {K} (b e : ser K) (P : list (R * R)) : Prop :=
  exists L : list (K * (R * R)), NoDup (map fst L) /\ P = map snd L /\
    forall k x y, In (k, (x, y)) L <-> holds b k x /\ holds e k y.

(** How many entries of [l] are larger than / equal to [a]. *)
Definition n_larger (a : R) (l : list R) : nat := length (filter (Rltb a) l).
Definition n_equal (a : R) (l : list R) : nat := length (filter (fun x => Reqb x a) l).
(** Fraction of entries strictly larger. *)
Definition exceedance (a : R) (l : list R) : R := INR (n_larger a l) / INR (length l).
(** Fraction strictly larger, each other tied entry counted half. *)
Definition exceedance_ties (a : R) (l : list R) : R :=
  (INR (n_larger a l) + (INR (n_equal a l) - 1) / 2) / INR (length l).
(** [m] is the largest member of [l]. *)
Definition largest (l : list R) (m : R) : Prop := In m l /\ forall x, In x l -> x <= m.

(** Ramps over [tau] samples, later minus earlier, between samples that are both present. *)
Definition ramps (tau : nat) (l : list (option R)) : list R :=
  flat_map (fun p => match p with (Some x, Some y) => [y - x] | _ => [] end) (combine l (skipn tau l)).
(** A function applied to every present value of a time series. *)
Definition smap (f : R -> R) (s : tser) : tser := map (fun r => (fst r, option_map f (snd r))) s.

(** [v] is the average of the present values among [l], missing when there are none. *)
Definition average_of (l : list (option R)) (v : option R) : Prop :=
  match v with
  | Some m => present l <> [] /\ m = avg (present l)
  | None => present l = []
  end.
(** One day in nanoseconds. *)
Definition one_day : Z := 86400 * 1000000000.
(** [rs] is [s] averaged over consecutive bins of [w] seconds counted from midnight of the first day. *)
Definition binned (w : Z) (s rs : tser) : Prop :=
  (0 < w)%Z /\
  let W := (w * ns)%Z in
  exists k0 : Z, exists first last : Z,
    In first (stamps s) /\ In last (stamps s) /\ (forall t, In t (stamps s) -> first <= t <= last)%Z /\
    let left i := (one_day * (first / one_day) + (k0 + Z.of_nat i) * W)%Z in
    (left 0%nat <= first < left 1%nat)%Z /\
    (left (length rs - 1)%nat <= last < left (length rs))%Z /\
    forall i, (i < length rs)%nat -> exists v, nth_error rs i = Some (left i, v) /\
      average_of (map snd (filter (fun r => (left i <=? fst r) && (fst r <? left (S i)))%Z s)) v.
(** Timestamps every [d] seconds starting at [t0]. *)
Definition regular (t0 d : Z) (s : tser) : Prop :=
  stamps s = map (fun i => (t0 + Z.of_nat i * (d * ns))%Z) (seq 0 (length s)).
(** Averages of consecutive blocks of [k] values (the last block may be shorter). *)
Definition block_averages (k : nat) (l : list (option R)) (rs : list (option R)) : Prop :=
  (length rs * k < length l + k)%nat /\ (length l <= length rs * k)%nat /\
  forall j v, nth_error rs j = Some v -> average_of (firstn k (skipn (j * k) l)) v.

(** Length of the path through the points (t, value) with time step [dt]. *)
Definition path (dt : R) (rs : list R) : R := Rsum (map (fun r => sqrt (dt ^ 2 + r ^ 2)) rs).

(** The median of the time steps, in seconds. *)
Definition median_step (s : tser) (dt : R) : Prop :=
  (2 <= length s)%nat /\
  dt = median (map (fun p => IZR (snd p - fst p) / 1000000000) (combine (stamps s) (tl (stamps s)))).

(** A steady ramp: n equal steps of size k from c. *)
Definition steady (c k : R) (n : nat) : list (option R) := map (fun i => Some (c + INR i * k)) (seq 0 (S n)).
(** Successive values never fall / never rise. *)
Definition rising (l : list R) : Prop := forall i x y, nth_error l i = Some x -> nth_error l (S i) = Some y -> x <= y.
Definition falling (l : list R) : Prop := forall i x y, nth_error l i = Some x -> nth_error l (S i) = Some y -> y <= x.

(** [v] is the linear-interpolated quantile of [l]: at fractional position q (n - 1) of the sorted values. *)
Definition is_quantile (q : R) (l : list R) (v : R) : Prop :=
  l <> [] /\
  exists s k f, Permutation l s /\ (forall i j, (i <= j < length s)%nat -> nth i s 0 <= nth j s 0) /\
    q * (INR (length l) - 1) = INR k + f /\ 0 <= f < 1 /\
    v = nth k s 0 + f * (nth (S k) s 0 - nth k s 0).
(** Timestamps strictly increase; times of day are not negative. *)
Definition later (a b : Z * Z) : Prop := (fst a < fst b \/ (fst a = fst b /\ snd a < snd b))%Z.
Definition increasing (rows : list qrow) : Prop :=
  (forall i j a b, (i < j)%nat -> nth_error rows i = Some a -> nth_error rows j = Some b -> later (fst a) (fst b)) /\
  (forall r, In r rows -> 0 <= snd (fst r))%Z.
(** A day with at least one row. *)
Definition data_day (rows : list qrow) (D : Z) : Prop := exists r, In r rows /\ fst (fst r) = D.
(** The non-missing values at time [t] on days D-n .. D-1, and at midnight also on day D. *)
Definition past_values (rows : list qrow) (n D t : Z) : list R :=
  present (map snd (filter (fun r => (snd (fst r) =? t) && (D - n <=? fst (fst r)) &&
                                     ((fst (fst r) <? D) || ((fst (fst r) =? D) && (t =? 0))))%Z rows)).
(** Some day with data has its window end on or before the last day. *)
Definition window_fits (rows : list qrow) (n : Z) : Prop :=
  exists d last, data_day rows d /\ data_day rows last /\ (d + n <= last)%Z.
(** The day a row belongs to. *)
Definition day_of (r : qrow) : Z := fst (fst r).
(** A Series named [s], or a frame with the single column [s]. *)
Definition one_column (nm : ts_name) (s : string) : Prop :=
  nm = SeriesName (Some s) \/ nm = FrameCols [Some s].
