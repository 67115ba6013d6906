(** Property theorems. latlon2lcs with one origin, one origin per target, and labelled origins.
    Proofs are in the X_ file of the same name. *)
From Coq Require Import Lia Lra.
From Verif Require Import Prelude PreludeFacts RealBase Fl M_spatial Spec_spatial Spec_lcs M_lcs.
Local Open Scope R_scope.
From Verif Require Import X_lcs.

(** C106. Every answered row is the target measured from its own origin, exactly as the one-point call would
    measure it; a row is NaN exactly when the target has no origin of its own. The answer has the targets' shape
    and index (the origins' for a single target). *)
Theorem C106_lcs_rows :
  forall (K : Type) (LK : Label K) fwd (lat lon olat olon : coord K) (zone : option Z) s,
  well_labelled lat -> well_labelled olat -> latlon2lcs_seq fwd lat lon olat olon zone = Ok s ->
  same_shape (leading lat olat) s /\ length (rows_of s) = length (coord_vals (leading lat olat)) /\
  forall i x, nth_error (rows_of s) i = Some x -> forall e n,
    x = Some (e, n) <-> exists j a b oa ob, own_origin lat olat i j /\
      value_at lat i = Some a /\ value_at lon i = Some b /\ value_at olat j = Some oa /\ value_at olon j = Some ob /\
      latlon2lcs (K := K) fwd (CScalar a) (CScalar b) oa ob zone = Ok (SScalar (e, n)).
Proof. exact (@lcs_rows). Qed.
Print Assumptions C106_lcs_rows.

(** C106. When there is an answer, and what is raised when there is none: a number given together with a sequence is
    a TypeError (the origin is looked at first), everything else a ValueError. *)
Theorem C106_lcs_outcome :
  forall (K : Type) (LK : Label K) fwd (lat lon olat olon : coord K) (zone : option Z),
  ((exists s, latlon2lcs_seq fwd lat lon olat olon zone = Ok s) <->
     points lat lon /\ points olat olon /\ compatible lat olat) /\
  (latlon2lcs_seq fwd lat lon olat olon zone = Err TypeError <->
     mixed olat olon \/ mixed lat lon /\ length (coord_vals olat) = length (coord_vals olon) /\ ~ empty_series olat) /\
  (forall e, latlon2lcs_seq fwd lat lon olat olon zone = Err e -> e = TypeError \/ e = ValueError).
Proof. exact (@lcs_outcome). Qed.
Print Assumptions C106_lcs_outcome.

(** C106. With a single origin this is the one-origin function, errors included. *)
Theorem C106_lcs_one_origin :
  forall (K : Type) (LK : Label K) fwd (lat lon : coord K) (olat olon : R) (zone : option Z),
  latlon2lcs_seq fwd lat lon (CScalar olat) (CScalar olon) zone =
  match latlon2lcs fwd lat lon olat olon zone with
  | Ok (SScalar p) => Ok (SScalar (Some p))
  | Ok (SArray l) => Ok (SArray (map Some l))
  | Ok (SFrame idx l) => Ok (SFrame idx (map Some l))
  | Err e => Err e
  end.
Proof. exact (@lcs_one_origin). Qed.
Print Assumptions C106_lcs_one_origin.

(** C106. Origins given as Series are not matched by position: with the same number of targets and origins but
    disjoint labels, every answer is NaN, and with the same labels in another order each target is measured from
    the origin that carries its label. *)
Theorem C106_lcs_position_refuted :
  exists (lat lon olat olon olat2 olon2 : coord Z),
  length (coord_vals lat) = length (coord_vals olat) /\ coord_vals olat2 = coord_vals olat /\
  well_labelled lat /\ well_labelled olat /\ well_labelled olat2 /\
  (forall fwd zone, exists s, latlon2lcs_seq fwd lat lon olat olon zone = Ok s /\ rows_of s = [None; None]) /\
  (forall fwd zone, exists s, latlon2lcs_seq fwd lat lon olat2 olon2 zone = Ok s /\ rows_of s = [Some (0, 0); Some (0, 0)]).
Proof. exact (@lcs_position_refuted). Qed.
Print Assumptions C106_lcs_position_refuted.

Example C106_lcs_rows_example :
  exists s, latlon2lcs_seq (K := Z) (fun z s lon lat => (lon, lat)) (CArray [41; 42]) (CArray [-103; -102])
    (CSeries [5; 7]%Z [40; 40]) (CSeries [5; 7]%Z [-104; -104]) None = Ok s /\ rows_of s = [Some (1, 1); Some (2, 2)].
Proof. exact (@lcs_rows_example). Qed.

