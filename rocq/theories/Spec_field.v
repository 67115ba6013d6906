(** Independent vocabulary for the properties of field.py remappings. *)
From Coq Require Import Permutation.
From Verif Require Import Prelude RealBase M_field_remap.

Section FieldSpec.
  Context {K C A : Type} `{Label K} `{Label C}.

  (** A frame with unique row labels, unique column names and full rows. *)
  Definition wf_table (t : table K C A) : Prop :=
    NoDup (t_cols t) /\ NoDup (t_index t) /\
    Forall (fun r => length (snd r) = length (t_cols t)) (t_rows t).

  (** What a user sees in the cell (k, c): [None] when there is no such cell. *)
  Definition cell (t : table K C A) (k : K) (c : C) : option (option A) :=
    match t_read t c k with Ok v => Some v | Err _ => None end.

  (** The source the remap list gives for entity [k]: its last listing, if any. *)
  Fixpoint listed_source (r : list (K * K)) (k : K) : option K :=
    match r with
    | [] => None
    | (a, b) :: rest =>
        match listed_source rest k with
        | Some s => Some s
        | None => if lab_eqb a k then Some b else None
        end
    end.

  (** Row labels after writing to the labels [ks] in order: new ones go to the end, once. *)
  Fixpoint enlarged (idx ks : list K) : list K :=
    match ks with
    | [] => idx
    | k :: rest => enlarged (if lab_mem k idx then idx else idx ++ [k]) rest
    end.
End FieldSpec.

Section Remap.
  Context {K : Type} `{Label K}.
  (** [r] is a one-to-one reassignment of the entities [S]. *)
  Definition one_to_one (S : list K) (r : list (K * K)) : Prop :=
    Permutation (map fst r) S /\ Permutation (map snd r) S.
  (** Sorted by entity name. *)
  Definition by_entity (r : list (K * K)) : Prop :=
    forall i j p q, i < j -> nth_error r i = Some p -> nth_error r j = Some q ->
                    lab_leb (fst p) (fst q) = true.
  Definition identity_remap (S : list K) : list (K * K) := map (fun k => (k, k)) S.
  Definition inverse_remap (r : list (K * K)) : list (K * K) := map (fun p => (snd p, fst p)) r.
End Remap.

Section AssignSpec.
  Context {K C : Type} `{Label K} `{Label C}.

  (** Position of entity [k] in a frame whose first two columns are easting, northing. *)
  Definition position (t : table K C R) (k : K) : option (R * R) :=
    match dget (t_rows t) k with
    | Some (Some e :: Some n :: _) => Some (e, n)
    | _ => None
    end.
  Definition planar_dist (p q : R * R) : R :=
    sqrt ((fst p - fst q) ^ 2 + (snd p - snd q) ^ 2)%R.

  (** Total distance between each entity's prediction and the plan location it is given. *)
  Definition total_dist (plan pred : table K C R) (r : list (K * K)) : R :=
    Rsum (map (fun kl => match position pred (fst kl), position plan (snd kl) with
                         | Some p, Some q => planar_dist p q
                         | _, _ => 0%R
                         end) r).
End AssignSpec.

(** What scipy documents for linear_sum_assignment on an n x m matrix with n <= m:
    row_ind is 0..n-1 and col_ind is an injection of minimal total cost. *)
Definition assignment (n m : nat) (cols : list nat) : Prop :=
  length cols = n /\ NoDup cols /\ Forall (fun c => c < m) cols.
Definition assign_cost (M : list (list R)) (cols : list nat) : R :=
  Rsum (map (fun ic => nth (snd ic) (nth (fst ic) M []) 0%R) (combine (seq 0 (length cols)) cols)).
Definition lsa_correct (lsa : nat -> list (list R) -> list nat * list nat) : Prop :=
  forall m M, length M <= m -> Forall (fun row => length row = m) M ->
    fst (lsa m M) = seq 0 (length M) /\
    assignment (length M) m (snd (lsa m M)) /\
    forall cols, assignment (length M) m cols -> (assign_cost M (snd (lsa m M)) <= assign_cost M cols)%R.

Section NanSpec.
  Context {K C : Type} `{Label K} `{Label C}.
  (** The entity's row in the frame contains a missing value. *)
  Definition nan_entity (t : table K C R) (k : K) : bool :=
    match dget (t_rows t) k with
    | Some row => existsb (fun v => match v with None => true | Some _ => false end) row
    | None => false
    end.
  (** Every row of the frame starts with two numbers (a position). *)
  Definition all_located (t : table K C R) : Prop :=
    forall k, In k (t_index t) -> exists p, position t k = Some p.
  (** No cell of the frame is missing. *)
  Definition no_nan (t : table K C R) : Prop := forall k, nan_entity t k = false.
  (** The same rows under other labels. *)
  Definition with_labels (idx : list K) (t : table K C R) : table K C R :=
    mkTable (t_cols t) (combine idx (map snd (t_rows t))).
  (** The entities whose prediction is complete. *)
  Definition finite_entities (t : table K C R) : list K :=
    filter (fun k => negb (nan_entity t k)) (t_index t).
  Definition restrict (r : list (K * K)) (S : list K) : list (K * K) :=
    filter (fun p => lab_mem (fst p) S) r.
End NanSpec.
