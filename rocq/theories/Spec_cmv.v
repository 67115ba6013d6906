(** Independent vocabulary for the properties of cmv.py. *)
From Coq Require Import String.
From Verif Require Import Prelude RealBase Fl RealStat M_cmv Spec_spatial.
Local Open Scope R_scope.

(** ** Pairs *)
(** [p] joins the sites at positions [i] and [j] of the site list. *)
Definition joins {K} (sites : list K) (p : K * K) (i j : nat) : Prop :=
  nth_error sites i = Some (fst p) /\ nth_error sites j = Some (snd p).
(** Listing order: by first position, then by second. *)
Definition listed_before {K} (sites : list K) (p q : K * K) : Prop :=
  exists i j i' j', joins sites p i j /\ joins sites q i' j' /\ (i < i' \/ (i = i' /\ j < j'))%nat.
(** The pair is allowed by the reference restriction. *)
Definition has_reference {K} (refs : option (list K)) (p : K * K) : Prop :=
  match refs with None => True | Some rs => In (fst p) rs \/ In (snd p) rs end.
(** The sites a reference argument names; no argument names them all. *)
Definition reference_sites {K} (sites : list K) (r : refarg K) : list K :=
  match r with RefNone => sites | RefOne k => [k] | RefMany ks => ks end.

(** ** Options *)
(** The documented defaults (docstring of compute_cmv). *)
Definition documented_options : list (string * string * R) :=
  [ ("jamaly", "minvelocity", 0); ("jamaly", "maxvelocity", 70); ("jamaly", "var_s_lim", 5 / 100);
    ("jamaly", "ktlim", 4 / 10); ("jamaly", "mincorr", 8 / 10); ("gagne", "ktlim", 4 / 10) ]%string.
Definition documented_default (method key : string) : option R :=
  option_map snd (find (fun e => String.eqb (fst (fst e)) method && String.eqb (snd (fst e)) key)%bool documented_options).
Definition known_method (m : string) : Prop := m = "jamaly"%string \/ m = "gagne"%string.
Definition key_in (d : opts) (k : string) : Prop := exists v, dget d k = Some v.
(** The method's documented option keys admit every key of the dictionary. *)
Definition admissible (m : string) (d : opts) : Prop :=
  forall k, key_in d k -> documented_default m k <> None.

(** One caller-owned dictionary passed to a sequence of calls: which calls were accepted, and
    the dictionary afterwards (a rejected call leaves it alone). *)
Fixpoint history (ms : list string) (d : opts) : list bool * opts :=
  match ms with
  | [] => ([], d)
  | m :: r =>
      match validate_method_options m (Some d) with
      | Ok d' => let '(a, e) := history r d' in (true :: a, e)
      | Err _ => let '(a, e) := history r d in (false :: a, e)
      end
  end.

(** ** Pairwise quality checks *)
(** A number below a limit in the IEEE sense: false whenever one of them is NaN. *)
Definition below (x lim : fl) : Prop := fltb x lim = true.
(** The figure [f] of the non-missing samples of a signal, if there are any, is below the limit. *)
Definition figure_below (f : list R -> R) (s : list (option R)) (lim : fl) : Prop :=
  present s <> [] /\ below (Fin (f (present s))) lim.
(** Variation ratio 1 - mean/max is below the limit (max = 0 gives an infinite or NaN ratio). *)
Definition variation_below (s : list (option R)) (lim : fl) : Prop :=
  present s <> [] /\ below (fsub (Fin 1) (fdiv (Fin (Rmean (present s))) (Fin (Rmax_of (present s))))) lim.
(** Apparent speed of a pair is strictly between the limits. *)
Definition speed_ok {K} (r : prow K) (lo hi : fl) : Prop :=
  let v := fabs (fdiv (p_spacing r) (p_delay r)) in below lo v /\ below v hi.

Section Checks.
  Context {K : Type}.
  Definition either (P : list (option R) -> Prop) (r : prow K) : Prop := P (p_a r) \/ P (p_b r).
  (** The checks in their documented order, with the flag of each. *)
  Definition common_checks (ktlim : fl) : list ((prow K -> Prop) * Flag) :=
    [ (fun r => fst (p_ids r) = snd (p_ids r), SAME);
      (either (fun s => figure_below Rstd s (Fin (1 / 1000))), NOSIGNAL);
      (fun r => p_delay r = Fin 0, NOLAG);
      (fun r => p_peak r = Nan \/ p_mean r = Nan, LOWCORR);
      (either (fun s => figure_below Rmax_of s ktlim), OVERCAST) ].
  Definition jamaly_checks (var_s_lim mincorr minv maxv : fl) : list ((prow K -> Prop) * Flag) :=
    [ (either (fun s => variation_below s var_s_lim), LOWVAR_S);
      (fun r => below (p_peak r) mincorr \/ below (fsub (Fin 1) (fdiv (p_mean r) (p_peak r))) mincorr, LOWCORR);
      (fun r => ~ speed_ok r minv maxv, VELLIMIT) ].
  (** The verdict: GOOD when no check fails, otherwise the flag of the last failing check. *)
  Definition verdict (checks : list ((prow K -> Prop) * Flag)) (r : prow K) (f : Flag) : Prop :=
    (f = GOOD /\ forall c, In c checks -> ~ fst c r) \/
    (exists pre c post, checks = pre ++ c :: post /\ fst c r /\ f = snd c /\ forall c', In c' post -> ~ fst c' r).
End Checks.

(** ** Gagne cascade *)
(** peak correlation >= t (false for NaN) *)
Definition at_least (t : R) (p : fl) : Prop := p = Pinf \/ exists x, p = Fin x /\ t <= x.
(** At least twelve passing pairs correlate at [t] or better. *)
Definition sufficient (t : R) (peaks : list fl) (flags : list Flag) : Prop :=
  exists l, NoDup l /\ length l = 12%nat /\
    forall i, In i l -> nth_error flags i = Some GOOD /\ exists p, nth_error peaks i = Some p /\ at_least t p.

(** The strictest of 0.99, 0.95, 0.90 that is sufficient, else 0.90. *)
Definition chosen_threshold (t : R) (peaks : list fl) (flags : list Flag) : Prop :=
  (t = 99 / 100 /\ sufficient (99 / 100) peaks flags) \/
  (t = 95 / 100 /\ ~ sufficient (99 / 100) peaks flags /\ sufficient (95 / 100) peaks flags) \/
  (t = 90 / 100 /\ ~ sufficient (99 / 100) peaks flags /\ ~ sufficient (95 / 100) peaks flags).

(** At least [n] pairs are GOOD. *)
Definition good_at_least (n : nat) (flags : list Flag) : Prop :=
  exists l, NoDup l /\ length l = n /\ forall i, In i l -> nth_error flags i = Some GOOD.

(** ** Motion *)
Definition separation {K} `{Label K} (pos : list (K * (R * R))) (p : K * K) : option (R * R) :=
  match dget pos (fst p), dget pos (snd p) with Some a, Some b => Some (sub2 b a) | _, _ => None end.
Definition polar (speed angle : R) : R * R := (speed * cos angle, speed * sin angle).
(** At least two pairs passed. *)
Definition two_good (flags : list Flag) : Prop :=
  exists i j, i <> j /\ nth_error flags i = Some GOOD /\ nth_error flags j = Some GOOD.
(** Separations of the pairs that passed, in order. *)
Fixpoint good_separations {K} `{Label K} (pos : list (K * (R * R))) (pairs : list (K * K)) (flags : list Flag) : list (R * R) :=
  match pairs, flags with
  | p :: ps, f :: fs =>
      match f, separation pos p with
      | GOOD, Some s => s :: good_separations pos ps fs
      | _, _ => good_separations pos ps fs
      end
  | _, _ => []
  end.
(** Every passing pair's delay is the time the pattern, moving with velocity [v], takes along
    the pair's separation: sep . v / |v|^2. *)
Definition frozen_field {K} `{Label K} (pos : list (K * (R * R))) (v : R * R) (pairs : list (K * K))
    (flags : list Flag) (lags : list fl) : Prop :=
  forall i p, nth_error pairs i = Some p -> nth_error flags i = Some GOOD ->
    exists s, separation pos p = Some s /\ nth_error lags i = Some (Fin (inner s v / inner v v)).
(** The passing separations span the plane. *)
Definition spanning (seps : list (R * R)) : Prop :=
  exists s s', In s seps /\ In s' seps /\ cross s s' <> 0.
(** Variance over the pairs of their apparent speed along direction [th]. *)
Definition speed_variance (seps : list (R * R)) (v : R * R) (th : R) : R :=
  Rvar (map (fun s => inner s (cos th, sin th) / (inner s v / inner v v)) seps).
(** Sum of squared residuals of a slowness vector [a] for true velocity [v]. *)
Definition slowness_misfit (seps : list (R * R)) (v a : R * R) : R :=
  Rsum (map (fun s => (inner s v / inner v v - inner s a) ^ 2) seps).
(** The scalar minimiser finds a global minimum of any objective equal to [g]. *)
Definition minimises (ms : (R -> fl) -> R) (g : R -> R) : Prop :=
  forall f, (forall x, f x = Fin (g x)) -> forall x, g (ms f) <= g x.
(** The least-squares routine finds a minimum of the sum of squares of any residual function
    whose sum of squares is [g]. *)
Definition least_squares_solves (lsq : (R -> R -> list fl) -> fl * fl) (g : R * R -> R) : Prop :=
  forall f, (forall a, exists rs, f (fst a) (snd a) = map Fin rs /\ Rsum (map (fun r => r ^ 2) rs) = g a) ->
    exists a, lsq f = (Fin (fst a), Fin (snd a)) /\ forall b, g a <= g b.

(** The delay backend answers with one delay, peak and mean correlation per pair of signals. *)
Definition one_answer_per_pair (backend : list (list (option R)) -> list (list (option R)) -> result delay_out) : Prop :=
  forall A B d, length A = length B -> backend A B = Ok d ->
    length (d_delay d) = length A /\ length (d_peak d) = length A /\ length (d_mean d) = length A.

(** ** Subset choice *)
(** Alignment of CMV [v] with the axis at angle [a]: |cos| of the angle between them. *)
Definition alignment (v : R * R) (a : R) : R := Rabs (inner v (cos a, sin a)) / len v.
(** Total alignment of the CMVs at positions [idx] with [n] axes evenly spaced over a half turn. *)
Definition total_alignment (cmvs : list (R * R)) (n : nat) (ang0 : R) (idx : list nat) : R :=
  Rsum (map (fun k => alignment (nth (nth k idx 0%nat) cmvs (0, 0)) (INR k * (PI / INR n) + ang0)) (seq 0 n)).

(** The pairs that passed and whose delay is a finite number: separation and delay, in order. *)
Fixpoint used_pairs {K} `{Label K} (pos : list (K * (R * R))) (pairs : list (K * K)) (flags : list Flag) (lags : list fl)
  : list ((R * R) * R) :=
  match pairs, flags, lags with
  | p :: ps, f :: fs, l :: ls =>
      match f, separation pos p, l with
      | GOOD, Some s, Fin d => (s, d) :: used_pairs pos ps fs ls
      | _, _, _ => used_pairs pos ps fs ls
      end
  | _, _, _ => []
  end.
(** Every pair that passed has a finite delay. *)
Definition finite_delays (flags : list Flag) (lags : list fl) : Prop :=
  forall i, nth_error flags i = Some GOOD -> exists d, nth_error lags i = Some (Fin d).
(** Apparent speed of each pair along the direction [th]: component of its separation over its delay. *)
Definition apparent_speeds (ps : list ((R * R) * R)) (th : R) : list R :=
  map (fun p => inner (fst p) (cos th, sin th) / snd p) ps.
