(** Property theorems. Windowed daily quantiles (stats.calc_quantile).
    Proofs are in the X_ file of the same name. *)
From Coq Require Import Permutation Sorted String.
From Verif Require Import Prelude PreludeFacts RealBase Fl RealStat M_spatial M_stats Spec_stats P_stats P_resample P_quantile.
Local Open Scope R_scope.
From Verif Require Import X_stats_quantile.

(** C39. The result: one row per input timestamp in order; each value is the quantile over the window of past days, missing when
    day D - n has no data or the window holds no value at that time. *)
Theorem C39_quantile_value :
  forall rows nm n q name out, increasing rows -> rows <> [] -> 0 <= q <= 1 ->
  calc_quantile rows nm n q = Ok (name, out) ->
  map fst out = map fst rows /\
  forall D t v, In ((D, t), v) out ->
    match v with
    | Some x => data_day rows (D - n) /\ is_quantile q (past_values rows n D t) x
    | None => ~ data_day rows (D - n) \/ past_values rows n D t = []
    end.
Proof. exact (@quantile_value). Qed.
Print Assumptions C39_quantile_value.

(** C39. It succeeds on every non-empty strictly increasing index for levels in [0, 1]; column naming. *)
Theorem C39_quantile_total :
  forall rows n q s l, increasing rows -> rows <> [] -> 0 <= q <= 1 ->
  (exists out, calc_quantile rows (SeriesName (Some s)) n q = Ok ((s ++ "_quant")%string, out)) /\
  (exists out, calc_quantile rows (SeriesName None) n q = Ok ("quantile"%string, out)) /\
  (exists out, calc_quantile rows (FrameCols [Some s]) n q = Ok ((s ++ "_quant")%string, out)) /\
  calc_quantile rows (FrameCols [None]) n q = Err TypeError /\
  (length l <> 1%nat -> calc_quantile rows (FrameCols l) n q = Err ValueError) /\
  forall nm, calc_quantile [] nm n q = Err IndexError.
Proof. exact (@quantile_total). Qed.
Print Assumptions C39_quantile_total.

(** C39. If no window fits in the data everything is missing, whatever the level; if one does, a level outside [0, 1] is refused. *)
Theorem C39_quantile_levels :
  forall rows nm n q s, increasing rows -> rows <> [] -> one_column nm s ->
  (~ window_fits rows n -> calc_quantile rows nm n q = Ok ((s ++ "_quant")%string, map (fun r => (fst r, None)) rows)) /\
  (window_fits rows n -> ~ 0 <= q <= 1 -> calc_quantile rows nm n q = Err ValueError).
Proof. exact (@quantile_levels). Qed.
Print Assumptions C39_quantile_levels.

(** C39. A repeated timestamp inside some window is refused. *)
Theorem C39_quantile_duplicates :
  forall rows nm n q s i j D t v v', one_column nm s ->
  (forall i j a b, (i < j)%nat -> nth_error rows i = Some a -> nth_error rows j = Some b -> (day_of a <= day_of b)%Z) ->
  (i < j)%nat -> nth_error rows i = Some ((D, t), v) -> nth_error rows j = Some ((D, t), v') -> (0 <= t)%Z -> (1 <= n)%Z ->
  (exists d, data_day rows d /\ D + n <= d)%Z ->
  calc_quantile rows nm n q = Err ValueError.
Proof. exact (@quantile_duplicates). Qed.
Print Assumptions C39_quantile_duplicates.

(** C39. Causality: the value at (D, t) is fixed by the rows from day D - n to midnight of day D. *)
Theorem C39_quantile_causal :
  forall rows rows' nm nm' n q name name' out out' D t v v', increasing rows -> increasing rows' ->
  0 <= q <= 1 -> (1 <= n)%Z ->
  (forall d u x, (D - n <= d)%Z -> (d < D \/ (d = D /\ u = 0))%Z -> (In ((d, u), x) rows <-> In ((d, u), x) rows')) ->
  calc_quantile rows nm n q = Ok (name, out) -> calc_quantile rows' nm' n q = Ok (name', out') ->
  In ((D, t), v) out -> In ((D, t), v') out' -> v = v'.
Proof. exact (@quantile_causal). Qed.
Print Assumptions C39_quantile_causal.

Example C39_quantile_example :
  let rows := [((0, 5)%Z, Some 1); ((1, 5)%Z, Some 3); ((2, 5)%Z, None)] in
  increasing rows /\ past_values rows 2 2 5 = [1; 3] /\ is_quantile (1/2) [1; 3] 2 /\ window_fits rows 2.
Proof. exact (@quantile_example). Qed.

