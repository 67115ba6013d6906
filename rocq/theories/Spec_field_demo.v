(** Independent vocabulary for the demonstrations of field prediction. *)
From Verif Require Import Prelude RealBase Fl Spec_spatial Spec_field_pos.
Local Open Scope R_scope.

(** A sensor's record is most like itself: the delays from [k] are the true travel times between the true positions [X], and [k]
    has a strictly higher coherence with itself than with any other sensor. *)
Definition clean_data {K} `{Label K} (dtf : K * list (option R) -> list (K * list (option R)) -> result (list fl * list fl))
    (ids : list K) (X : K -> R * R) (df : list (K * list (option R))) (v : R * R) : Prop :=
  forall k, In k ids -> exists sig coh, dget df k = Some sig /\
    dtf (k, sig) df = Ok (map (fun j => Fin (travel_time v (X k) (X j))) ids, map (fun j => Fin (coh j)) ids) /\
    forall j, In j ids -> j <> k -> coh j < coh k.
