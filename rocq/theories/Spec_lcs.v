(** Independent vocabulary for latlon2lcs with several origins. *)
From Verif Require Import Prelude RealBase Fl M_spatial.
Local Open Scope R_scope.

(** A pandas Series has one label per value, and here no label twice. *)
Definition well_labelled {K} (c : coord K) : Prop :=
  match c with CSeries idx l => length idx = length l /\ NoDup idx | _ => True end.

(** The i-th value; a number stands for itself at every position. *)
Definition value_at {K} (c : coord K) (i : nat) : option R :=
  match c with CScalar x => Some x | CArray l => nth_error l i | CSeries _ l => nth_error l i end.

(** Which origin the i-th target is measured from: the one with the same label when both are Series,
    the single one when the origins are an array of one, otherwise the one at the same position. *)
Definition own_origin {K} (target origin : coord K) (i j : nat) : Prop :=
  match target, origin with
  | CSeries it _, CSeries io _ => exists k, nth_error it i = Some k /\ nth_error io j = Some k
  | CArray _, CArray lo => j = i \/ length lo = 1%nat /\ j = 0%nat
  | CSeries _ _, CArray lo => j = i \/ length lo = 1%nat /\ j = 0%nat
  | _, _ => j = i
  end.

(** The coordinate whose shape the answer takes: the target's, unless the target is one point. *)
Definition leading {K} (target origin : coord K) : coord K :=
  match target with CScalar _ => origin | _ => target end.

(** One point, or as many latitudes as longitudes and at least one. *)
Definition points {K} (lat lon : coord K) : Prop :=
  match lat, lon with
  | CScalar _, CScalar _ => True
  | CScalar _, _ => False
  | _, CScalar _ => False
  | _, _ => length (coord_vals lat) = length (coord_vals lon) /\ coord_vals lat <> []
  end.

(** A number together with a sequence. *)
Definition mixed {K} (lat lon : coord K) : Prop :=
  match lat, lon with
  | CScalar _, CScalar _ => False
  | CScalar _, _ => True
  | _, CScalar _ => True
  | _, _ => False
  end.

(** The target's and the origin's shapes can be subtracted. *)
Definition compatible {K} (target origin : coord K) : Prop :=
  match target, origin with
  | CScalar _, _ => True
  | _, CScalar _ => True
  | CSeries _ _, CSeries _ _ => True
  | CArray lt, CSeries _ lo => length lt = length lo
  | CArray lt, CArray lo => length lt = length lo \/ length lo = 1%nat
  | CSeries _ lt, CArray lo => length lt = length lo \/ length lo = 1%nat
  end.
