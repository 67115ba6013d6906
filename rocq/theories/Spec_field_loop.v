(** Independent vocabulary for the iterative reassignment of a whole plant. *)
From Coq Require Import String Sorted.
From Verif Require Import Prelude RealBase Fl M_field_remap Spec_field Spec_spatial Spec_field_pos.

(** The text [a] occurs inside the text [b]. *)
Definition occurs_in (a b : string) : Prop := exists p q, b = (p ++ a ++ q)%string.

Section LoopSpec.
  Context {K : Type} `{Label K}.
  Variable inv_of : K -> string.

  (** No inverter's name occurs inside another inverter's name. *)
  Definition clear_names (ids : list K) : Prop :=
    forall a b, In a ids -> In b ids -> occurs_in (inv_of a) (inv_of b) -> inv_of a = inv_of b.
  (** The remap moves nothing across inverters. *)
  Definition keeps_inverter (r : list (K * K)) : Prop := forall k s, In (k, s) r -> inv_of k = inv_of s.

  (** The layout [L] lists every entity of [plan] where [r] says: at the plan row of its source. *)
  Definition rearranged (plan : table K string R) (r : list (K * K)) (L : table K string R) : Prop :=
    t_cols L = t_cols plan /\ t_index L = t_index plan /\
    forall k s, In (k, s) r -> dget (t_rows L) k = dget (t_rows plan) s.

  (** [p] is strictly nearer to the plan location of [s] than to any other plan location of its inverter. *)
  Definition nearest_is (plan : table K string R) (p : R * R) (s : K) : Prop :=
    exists q, position plan s = Some q /\
      forall m q', In m (t_index plan) -> inv_of m = inv_of s -> m <> s -> position plan m = Some q' ->
        (planar_dist p q < planar_dist p q')%R.
End LoopSpec.

(** [l'] is the part of [l] satisfying [Q], in order. *)
Inductive picks {A} (Q : A -> Prop) : list A -> list A -> Prop :=
| picks_nil : picks Q [] []
| picks_yes x l l' : Q x -> picks Q l l' -> picks Q (x :: l) (x :: l')
| picks_no x l l' : ~ Q x -> picks Q l l' -> picks Q (x :: l) l'.

Section RoundSpec.
  Context {K : Type} `{Label K}.
  Variable inv_of : K -> string.
  Variable lsa : nat -> list (list R) -> list nat * list nat.
  Variable mean_pred : table K string R -> K -> result (option R * option R).

  (** [t'] holds the rows of [t] for the entities of [ids] whose inverter name contains [g]. *)
  Definition inverter_rows (ids : list K) (g : string) (t t' : table K string R) : Prop :=
    t_cols t' = t_cols t /\ picks (fun k => occurs_in g (inv_of k)) ids (t_index t') /\
    forall k, In k (t_index t') -> dget (t_rows t') k = dget (t_rows t) k.

  (** One round from remap [a] and layout [L]: predictions [P] for every entity, one assignment per inverter name in
      sorted order, cascaded onto [a] to give [a'], and the plan rearranged by [a'] to give [L']. *)
  Definition one_round (plan : table K string R) (a : list (K * K)) (L P : table K string R) (a' : list (K * K)) (L' : table K string R) : Prop :=
    t_cols P = ["E"; "N"]%string /\
    Forall2 (fun k row => fst row = k /\ exists x, mean_pred L k = Ok x /\ snd row = [fst x; snd x]) (t_index plan) (t_rows P) /\
    exists groups parts,
      NoDup groups /\ StronglySorted (fun g g' => String.leb g g' = true) groups /\
      (forall g, In g groups <-> exists k, In k (t_index plan) /\ inv_of k = g) /\
      Forall2 (fun g part => exists Lg Pg out, inverter_rows (t_index plan) g L Lg /\ inverter_rows (t_index plan) g P Pg /\
                 assign_positions lsa Lg Pg = Ok (part, out)) groups parts /\
      cascade_remap a (concat parts) = Ok a' /\ remap_positions plan a' None = Ok L'.
End RoundSpec.

(** The estimated delays between the sensors [ids] in the data [df] are the true travel times of a pattern moving with
    velocity [v] between the true positions [X]. *)
Definition exact_delays {K} `{Label K} (dtf : K * list (option R) -> list (K * list (option R)) -> result (list fl * list fl))
    (ids : list K) (X : K -> R * R) (df : list (K * list (option R))) (v : R * R) : Prop :=
  forall k, In k ids -> exists sig coh, dget df k = Some sig /\ length coh = length ids /\
    dtf (k, sig) df = Ok (map (fun j => Fin (travel_time v (X k) (X j))) ids, coh).
