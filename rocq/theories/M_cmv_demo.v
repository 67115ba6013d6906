(** Model of the lag map of demos/cmv_demo.py: time lags of all sites relative to one of them. *)
From Verif Require Import Prelude RealBase Fl M_cmv.
Local Open Scope R_scope.

Section LagMap.
Context {K : Type} `{Label K}.
(** cmv_demo.py:89-94: the pairs containing [ref], named by the other site, with the sign of the lag turned when [ref] comes second *)
Definition ref_lags (ref : K) (pairs : list (K * K)) (lags : list fl) : list (K * fl) :=
  flat_map (fun pl => let a := fst (fst pl) in let b := snd (fst pl) in
     if (lab_eqb ref a || lab_eqb ref b)%bool
     then [if lab_eqb ref a then (b, snd pl) else (a, fopp (snd pl))] else []) (combine pairs lags).
(** cmv_demo.py:86-99: the new column of the site table. pair_lag is None when compute_cmv gave up (zip raises TypeError); writing to sites
    missing from the table raises KeyError, except for [ref] itself, which gets a new row. Simplification: site labels are distinct. *)
Definition lag_map (ref : K) (sites : list K) (w : windspeed K) : result (list (K * fl)) :=
  match w_fit w with
  | None => Err TypeError
  | Some f =>
      let ws := ref_lags ref (w_allpairs w) (w_pair_lag f) in
      if negb (forallb (fun p => lab_mem (fst p) sites) ws) then Err KeyError
      else Ok (dset (fold_left (fun d kv => dset d (fst kv) (snd kv)) ws (map (fun k => (k, Fin 0)) sites)) ref (Fin 0))
  end.
End LagMap.
