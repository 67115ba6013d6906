(** src/solarspatialtools/cmv.py compute_cmv with reference_id given as a one-shot iterator (a generator, map, filter ...):
    'x in iterator' reads it until it meets x and leaves the rest for the next test. No proofs in this file. *)
From Coq Require Import String.
From Verif Require Import Prelude RealBase Fl RealStat M_spatial M_cmv.
Local Open Scope R_scope.

(** Python's [k in it] on an iterator that still holds the values [it]: the answer and what is left. *)
Fixpoint it_mem {K} `{Label K} (k : K) (it : list K) : bool * list K :=
  match it with
  | [] => (false, [])
  | x :: it => if lab_eqb x k then (true, it) else it_mem k it
  end.

(** cmv.py:121-128 the loop over all pairs; 'or' does not evaluate its second operand if the first is true. *)
Fixpoint pairs_kept {K} `{Label K} (it : list K) (pairs : list (K * K)) : list (K * K) :=
  match pairs with
  | [] => []
  | p :: pairs =>
      let '(first, it) := it_mem (fst p) it in
      if first then p :: pairs_kept it pairs
      else let '(second, it) := it_mem (snd p) it in
           if second then p :: pairs_kept it pairs else pairs_kept it pairs
  end.

(** cmv.py:82-130 _get_pairs(all_points, must_contain=iterator) *)
Definition get_pairs_iter {K} `{Label K} (all_points : list K) (it : list K) (replacement : bool) : list (K * K) :=
  pairs_kept it (if replacement then combinations_wr all_points else combinations all_points).

Section Iter.
  Context {K : Type} `{Label K}.
  Variable delays_xcorr delays_tf : list (list (option R)) -> list (list (option R)) -> result delay_out.
  Variable minimize_scalar : (R -> fl) -> R.
  Variable leastsq : (R -> R -> list fl) -> fl * fl.

  (** cmv.py:247-395, from the list of pairs on, as in M_cmv.v. *)
  Definition cmv_on_pairs (pairs : list (K * K)) (timeseries : list (K * list (option R))) (positions : list (K * (R * R)))
      (method : string) (options : option opts) (delay_backend : string) : result ((fl * fl * windspeed K) * opts) :=
    match pairs with [] => Err IndexError | _ :: _ =>
    let! A := mapM (fun p => lookup timeseries (fst p)) pairs in
    let! B := mapM (fun p => lookup timeseries (snd p)) pairs in
    let! d := (if String.eqb delay_backend "xcorr" then delays_xcorr A B else delays_tf A B) in
    let! Pb := mapM (fun p => lookup positions (snd p)) pairs in
    let! Pa := mapM (fun p => lookup positions (fst p)) pairs in
    let vecs := map2 (fun b a => (fst b - fst a, snd b - snd a)) Pb Pa in
    let! options := validate_method_options method options in
    let rows := map row_of (combine (combine (combine pairs (combine A B)) vecs)
                                    (combine (combine (d_delay d) (d_peak d)) (d_mean d))) in
    let! flags := pairwise_qc method options rows in
    let '(overall, flags) := if String.eqb method "gagne" then gagne_cascade (d_peak d) flags else (GOOD, flags) in
    Ok (finish_cmv minimize_scalar leastsq (String.eqb method "jamaly") (qc_figures rows) overall flags pairs vecs d, options)
    end.

  (** cmv.py:133-395 compute_cmv(timeseries, positions, reference_id=iterator, ...): an iterator has __iter__ and is no str,
      so it is handed to _get_pairs as it is (lines 233-237). *)
  Definition compute_cmv_iter (timeseries : list (K * list (option R))) (positions : list (K * (R * R)))
      (it : list K) (method : string) (options : option opts) (delay_backend : string)
    : result ((fl * fl * windspeed K) * opts) :=
    let method := lower method in
    if negb (String.eqb method "jamaly" || String.eqb method "gagne") then Err ValueError else
    let delay_backend := lower delay_backend in
    if negb (String.eqb delay_backend "xcorr" || String.eqb delay_backend "tf") then Err ValueError else
    cmv_on_pairs (get_pairs_iter (map fst positions) it true) timeseries positions method options delay_backend.
End Iter.
