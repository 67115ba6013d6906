(** Independent vocabulary for the exactness of the cloud advection model. *)
From Verif Require Import Prelude RealBase Spec_spatial Spec_welch Spec_plant.
Local Open Scope R_scope.

(** Signed distance of [p] from [ref] along the direction [d]. *)
Definition along (d ref p : R * R) : R := inner (sub2 p ref) d / len d.
(** The average of several series of [n] samples, sample by sample. *)
Definition mean_series (n : nat) (l : list (list R)) : list R :=
  map (fun t => Rsum (map (fun s => nth t s 0) l) / INR (length l)) (seq 0 n).
(** Sum of the squared deviations from the mean. *)
Definition deviations (l : list R) : R := Rsum (map (fun x => (x - Rsum l / INR (length l)) ^ 2) l).
