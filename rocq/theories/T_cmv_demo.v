(** Property theorems. Time lags relative to one site, as in cmv_demo.py (C115).
    Proofs are in the X_ file of the same name. *)
From Coq Require Import String Permutation Sorted.
From Verif Require Import Prelude PreludeFacts RealBase Fl RealStat M_spatial M_cmv Spec_spatial Spec_cmv P_cmv X_cmv_pairs M_cmv_demo.
From Coq Require Import Lra.
Local Open Scope R_scope.
From Verif Require Import X_cmv_demo.

(** C115. For a pair list as compute_cmv reports it, the lag map has one row per site in table order, 0 for the reference, the pair's lag for a site paired
    second with it, the negated lag for one paired first, and 0 for a site the list does not pair with it *)
Theorem C115_lag_map_value :
  forall (K : Type) (HK : Label K) dx dt ms lsq ts (pos : list (K * (R * R))) rid m o bk v t w o' fit ref,
  NoDup (map fst pos) -> compute_cmv dx dt ms lsq ts pos rid m o bk = Ok ((v, t, w), o') -> w_fit w = Some fit -> In ref (map fst pos) ->
  exists col, lag_map ref (map fst pos) w = Ok col /\ map fst col = map fst pos /\ In (ref, Fin 0) col /\
    (forall i a l, nth_error (w_allpairs w) i = Some (ref, a) -> nth_error (w_pair_lag fit) i = Some l -> a <> ref -> In (a, l) col) /\
    (forall i a l, nth_error (w_allpairs w) i = Some (a, ref) -> nth_error (w_pair_lag fit) i = Some l -> a <> ref -> In (a, fopp l) col) /\
    (forall a, In a (map fst pos) -> ~ In (ref, a) (w_allpairs w) -> ~ In (a, ref) (w_allpairs w) -> In (a, Fin 0) col).
Proof. exact (@lag_map_value). Qed.
Print Assumptions C115_lag_map_value.

(** C115. If the lag of every pair is the difference of the two sites' arrival times, and all pairs were analysed, the map is each site's arrival time relative
    to the reference, in whichever order the sites are listed; another reference shifts all of it by a constant *)
Theorem C115_lag_map_arrivals :
  forall (K : Type) (HK : Label K) dx dt ms lsq ts (pos : list (K * (R * R))) m o bk v t w o' fit ref (arrival : K -> R),
  NoDup (map fst pos) -> compute_cmv dx dt ms lsq ts pos RefNone m o bk = Ok ((v, t, w), o') -> w_fit w = Some fit -> In ref (map fst pos) ->
  w_pair_lag fit = map (fun p => Fin (arrival (snd p) - arrival (fst p))) (w_allpairs w) ->
  lag_map ref (map fst pos) w = Ok (map (fun k => (k, Fin (arrival k - arrival ref))) (map fst pos)).
Proof. exact (@lag_map_arrivals). Qed.
Print Assumptions C115_lag_map_arrivals.

(** C115. When compute_cmv found fewer than two usable pairs there is no lag to map (TypeError); a reference that is not a site leaves every lag 0 and appears as
    an extra row; a pair with a site missing from the table raises KeyError *)
Theorem C115_lag_map_refused :
  forall (K : Type) (HK : Label K) ref (sites : list K) w,
  (w_fit w = None -> lag_map ref sites w = Err TypeError) /\
  (forall fit, w_fit w = Some fit -> ~ In ref sites -> (forall a b, In (a, b) (w_allpairs w) -> a <> ref /\ b <> ref) ->
     lag_map ref sites w = Ok (map (fun k => (k, Fin 0)) sites ++ [(ref, Fin 0)])) /\
  (forall fit i a b l, w_fit w = Some fit -> nth_error (w_allpairs w) i = Some (a, b) -> nth_error (w_pair_lag fit) i = Some l ->
     a = ref /\ ~ In b sites \/ a <> ref /\ b = ref /\ ~ In a sites -> lag_map ref sites w = Err KeyError).
Proof. exact (@lag_map_refused). Qed.
Print Assumptions C115_lag_map_refused.

(** C115. Three sites reached at 0, 5 and -2 s: relative to b they lag by -5, 0 and -7 s, whether b comes first (b, c) or second (a, b) in its pairs *)
Example C115_lag_map_example :
  NoDup (map fst map_demo_pos) /\ In "b"%string (map fst map_demo_pos) /\
  lag_map "b"%string (map fst map_demo_pos) map_demo_wind = Ok [("a"%string, Fin (- (5 - 0))); ("b"%string, Fin 0); ("c"%string, Fin (-2 - 5))].
Proof. exact (@lag_map_example). Qed.

