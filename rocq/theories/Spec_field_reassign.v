(** Independent vocabulary for the reassignment of the combiners of one inverter. *)
From Coq Require Import String Permutation.
From Verif Require Import Prelude RealBase M_field_remap Spec_field Spec_field_loop M_field_reassign.

Section ReassignSpec.
  Context {K : Type} `{Label K}.

  (** Two remap lists say the same about every entity. *)
  Definition same_map (a b : list (K * K)) : Prop := forall k, listed_source a k = listed_source b k.

  (** [c] is [b] followed by [a]: an entity's row is taken from where [a] takes the row of the entity [b] names. *)
  Definition followed_by (a b c : list (K * K)) : Prop :=
    forall k s, listed_source c k = Some s <-> exists m, listed_source b k = Some m /\ listed_source a m = Some s.

  (** The layout [L] lists the entities of [refs] where [a] says and all others where [plan] has them. *)
  Definition only_refs (plan : table K string R) (refs : list K) (a : list (K * K)) (L : table K string R) : Prop :=
    rearranged plan a L /\ forall k, ~ In k refs -> dget (t_rows L) k = dget (t_rows plan) k.

  (** [P] holds the predictions for [refs] in the layout [L], in order. *)
  Definition predicted_by (predict : table K string R -> K -> result (option R * option R)) (refs : list K) (L P : table K string R) : Prop :=
    t_cols P = ["E"; "N"]%string /\ t_index P = refs /\
    forall k, In k refs -> exists x, predict L k = Ok x /\ dget (t_rows P) k = Some [fst x; snd x].

  (** [b] gives each entity of [refs] a different location of [refs] in [L], leaves those without prediction in place, and
      among all such reassignments has the smallest total distance from the predictions [P]. *)
  Definition best_for (refs : list K) (L P : table K string R) (b : list (K * K)) : Prop :=
    let allowed t := one_to_one refs t /\ forall k, nan_entity P k = true -> In (k, k) t in
    allowed b /\ forall t, allowed t -> (total_dist L P b <= total_dist L P t)%R.

  (** [p] is strictly nearer to the plan location of [s] than to the plan location of any other entity of [refs]. *)
  Definition nearest_ref (plan : table K string R) (refs : list K) (p : R * R) (s : K) : Prop :=
    exists q, position plan s = Some q /\
      forall m q', In m refs -> m <> s -> position plan m = Some q' -> (planar_dist p q < planar_dist p q')%R.
End ReassignSpec.

(** One more round as the demo would do it. *)
Definition next_round {K} `{Label K} lsa predict (plan : table K string R) refs (x y : list (K * K) * table K string R) (P : table K string R) : Prop :=
  exists b, assign_refs lsa predict refs (snd x) = Ok (P, b) /\ cascade_remap (fst x) b = Ok (fst y) /\ remap_positions plan (fst y) None = Ok (snd y).
Inductive more_rounds {K} `{Label K} lsa predict (plan : table K string R) refs (x : list (K * K) * table K string R) : list (K * K) * table K string R -> Prop :=
| more_none : more_rounds lsa predict plan refs x x
| more_one : forall y z P, more_rounds lsa predict plan refs x y -> next_round lsa predict plan refs y z P -> more_rounds lsa predict plan refs x z.
