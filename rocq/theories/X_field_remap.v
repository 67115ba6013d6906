(** Corollaries in the exact shape of the property theorems, and the concrete layouts
    used as non-vacuity examples, for field.py remappings. *)
From Coq Require Import Permutation String.
From Verif Require Import Prelude PreludeFacts RealBase M_field_remap Spec_field
  P_field_remap P_field_assign P_field_lsa.
Local Open Scope string_scope.

Lemma remap_simultaneous (K C A : Type) (HK : Label K) (HC : Label C) (data : table K C A) (r : list (K * K)) (columns : option (list C)) :
  wf_table data ->
  let cols := match columns with None => t_cols data | Some cs => cs end in
  (forall p c, In p r -> In c cols -> In (snd p) (t_index data) /\ In c (t_cols data)) ->
  exists out, remap_positions data r columns = Ok out /\ wf_table out /\ t_cols out = t_cols data /\
    (cols <> [] -> t_index out = enlarged (t_index data) (map fst r)) /\
    (forall k c, In c cols -> In k (map fst r) ->
        exists s, listed_source r k = Some s /\ cell out k c = cell data s c) /\
    (forall k c, ~ In k (map fst r) -> cell out k c = cell data k c) /\
    (forall k c, ~ In c cols -> In k (t_index data) -> cell out k c = cell data k c).
Proof.
  intros W cols Hr. destruct (remap_positions_ok data r columns W Hr) as (out & E & Wo & Co & Io & L).
  change (eff_cols data columns) with cols in *.
  exists out. split; [easy|]. split; [easy|]. split; [easy|]. split; [|split; [|split]].
  - intro Ne. destruct cols; [easy|exact Io].
  - intros k c Hc Hk. destruct (listed_source r k) as [s|] eqn:Es.
    + exists s. split; [easy|]. rewrite L. unfold remapped_cell. rewrite Es.
      now rewrite (proj2 (lab_mem_In c cols) Hc).
    + apply listed_source_None in Es. contradiction.
  - intros k c Hk. rewrite L. unfold remapped_cell. apply listed_source_None in Hk. now rewrite Hk.
  - intros k c Hc Hk. rewrite L. unfold remapped_cell. destruct (listed_source r k); [|easy].
    destruct (lab_mem_spec c cols); [contradiction|]. now rewrite (proj2 (lab_mem_In k _) Hk).
Qed.

Lemma remap_keyerror (K C A : Type) (HK : Label K) (HC : Label C) (data : table K C A) (r : list (K * K)) (columns : option (list C)) e :
  wf_table data ->
  let cols := match columns with None => t_cols data | Some cs => cs end in
  remap_positions data r columns = Err e <->
  e = KeyError /\ exists p c, In p r /\ In c cols /\ (~ In (snd p) (t_index data) \/ ~ In c (t_cols data)).
Proof.
  intros W cols. split.
  - apply remap_positions_err; easy.
  - intros [-> Hex]. apply remap_positions_err_iff; easy.
Qed.

Lemma remap_keeps_rows (K C A : Type) (HK : Label K) (HC : Label C) (data : table K C A) (r : list (K * K)) (columns : option (list C)) out :
  wf_table data -> (forall p, In p r -> In (fst p) (t_index data)) ->
  remap_positions data r columns = Ok out -> t_index out = t_index data.
Proof.
  intros W Hk E. destruct (remap_positions_ok data r columns W) as (fx & E' & _ & _ & I & _).
  - intros p c Hp Hc. unfold remap_positions in E. fold (eff_cols data columns) in E.
    exact (remap_read_all _ _ _ _ _ W E p c Hp Hc).
  - assert (fx = out) by congruence. subst fx. rewrite I. destruct (eff_cols data columns); [easy|].
    apply enlarged_incl. intros k Hin. apply in_map_iff in Hin. destruct Hin as (p & <- & Hp). now apply Hk.
Qed.

Lemma cascade_result (K : Type) (HK : Label K) (r1 r2 r : list (K * K)) :
  cascade_remap r1 r2 = Ok r ->
  by_entity r /\ NoDup (map fst r) /\ (forall k, In k (map fst r) <-> In k (map fst r1)) /\
  (forall k s, In (k, s) r <-> In k (map fst r1) /\ exists m, listed_source r2 k = Some m /\ listed_source r1 m = Some s).
Proof.
  intro E. destruct (cascade_cases r1 r2) as [[_ E']|(_ & r' & E' & B & ND & HS & L)]; [congruence|].
  assert (r' = r) by congruence. subst r'. split; [easy|]. split; [easy|]. split; [easy|].
  intros k s. assert (Hi : In (k, s) r <-> listed_source r k = Some s).
  { rewrite listed_source_NoDup by easy. split; [now apply dget_NoDup|apply dget_In]. }
  rewrite Hi, L. destruct (lab_mem_spec k (map fst r1)) as [Hk|Hk].
  - unfold composed. split.
    + intro Es. split; [easy|]. destruct (listed_source r2 k) as [m|]; [|discriminate]. now exists m.
    + intros (_ & m & -> & Es). exact Es.
  - split; [discriminate|tauto].
Qed.

Lemma cascade_keyerror (K : Type) (HK : Label K) (r1 r2 : list (K * K)) e :
  cascade_remap r1 r2 = Err e <->
  e = KeyError /\ exists k, In k (map fst r1) /\
    (~ In k (map fst r2) \/ exists m, listed_source r2 k = Some m /\ ~ In m (map fst r1)).
Proof.
  assert (Hc : forall k, composed r1 r2 k = None <->
             (~ In k (map fst r2) \/ exists m, listed_source r2 k = Some m /\ ~ In m (map fst r1))).
  { intro k. unfold composed. destruct (listed_source r2 k) as [m|] eqn:Em.
    - rewrite listed_source_None. split; [intro N; right; now exists m|].
      intros [N|(m' & [= <-] & N)]; [|easy]. apply listed_source_None in N. congruence.
    - split; [|easy]. intros _. left. now apply listed_source_None. }
  destruct (cascade_cases r1 r2) as [[(k & Hk & Ek) E']|(Hd & r' & E' & _)]; rewrite E'.
  - split; [intros [= <-]; split; [easy|]; exists k; split; [easy|now apply Hc]|]. now intros [-> _].
  - split; [discriminate|]. intros (_ & k & Hk & Hn). apply Hc in Hn. now apply Hd in Hn.
Qed.

Lemma cascade_identity (K : Type) (HK : Label K) (S : list K) (a : list (K * K)) :
  NoDup S -> one_to_one S a -> by_entity a ->
  cascade_remap (identity_remap S) a = Ok a /\ cascade_remap a (identity_remap S) = Ok a.
Proof.
  intros ND O B.
  assert (E : sort_by by_key a = a).
  { destruct (one_to_one_keys S a ND O) as [N1 _].
    destruct (one_to_one_keys S _ ND (one_to_one_sorted S a O)) as [N2 _].
    apply remap_ext; auto; [apply sort_by_entity|]. intro k. now apply (sorted_remap_source S). }
  rewrite (cascade_identity_l S), (cascade_identity_r S) by easy. now rewrite E.
Qed.

Lemma cascade_inverse_id (K : Type) (HK : Label K) (S : list K) (a : list (K * K)) :
  NoDup S -> one_to_one S a ->
  exists i, cascade_remap a (inverse_remap a) = Ok i /\ cascade_remap (inverse_remap a) a = Ok i /\
    Permutation i (identity_remap S) /\ by_entity i.
Proof.
  intros ND O. destruct (cascade_inverse S a ND O) as [E1 E2].
  eexists. split; [exact E1|]. split; [exact E2|]. split; [symmetry; apply sort_by_perm|apply sort_by_entity].
Qed.

Lemma assign_same_labels (K C : Type) (HK : Label K) (HC : Label C) lsa (Hlsa : lsa_correct lsa) (orig pred : table K C R) :
  wf_table orig -> t_index pred = t_index orig -> all_located orig -> all_located pred -> no_nan pred ->
  exists r out, assign_positions lsa orig pred = Ok (r, out) /\
    one_to_one (t_index orig) r /\ by_entity r /\
    (forall r', one_to_one (t_index orig) r' -> (total_dist orig pred r <= total_dist orig pred r')%R).
Proof.
  intros W EI Lo Lp NN.
  destruct (assign_positions_good lsa Hlsa orig pred) as (r & out & E & O & B & Opt & _); auto.
  - rewrite EI. apply W.
  - apply (f_equal (@length K)) in EI. unfold t_index in EI. rewrite !map_length in EI. lia.
  - exists r, out. split; [easy|]. split; [easy|]. split; [easy|].
    rewrite <- EI, with_labels_self in Opt. rewrite EI in Opt. exact Opt.
Qed.

(** ** Concrete layouts *)
Definition demo_plan : table string string R :=
  mkTable ["E"; "N"]
    [("A", [Some 0%R; Some 0%R]); ("B", [Some 3%R; Some 0%R]); ("C", [Some 0%R; Some 4%R])].
Definition demo_cycle : list (string * string) := [("A", "B"); ("B", "C"); ("C", "A")].
(** predictions: A's data looks like B's place, B's like C's, C's like A's *)
Definition demo_pred : table string string R :=
  mkTable ["E"; "N"]
    [("A", [Some 3%R; Some 0%R]); ("B", [Some 0%R; Some 4%R]); ("C", [Some 0%R; Some 0%R])].
Definition demo_pred_nan : table string string R :=
  mkTable ["E"; "N"]
    [("A", [Some 0%R; Some 4%R]); ("B", [None; Some 1%R]); ("C", [Some 0%R; Some 0%R])].

Ltac nodup := repeat (constructor; [cbn; intuition discriminate|]); constructor.

Lemma demo_plan_wf : wf_table demo_plan.
Proof. split; [nodup|]. split; [nodup|]. repeat constructor. Qed.

Lemma demo_remap :
  wf_table demo_plan /\
  (forall p c, In p demo_cycle -> In c (t_cols demo_plan) -> In (snd p) (t_index demo_plan) /\ In c (t_cols demo_plan)) /\
  (exists out, remap_positions demo_plan demo_cycle None = Ok out /\
     cell out "A" "E" = cell demo_plan "B" "E" /\ cell demo_plan "B" "E" = Some (Some 3%R)) /\
  remap_positions demo_plan [("A", "Q")] None = Err KeyError.
Proof.
  split; [apply demo_plan_wf|]. split.
  - intros p c Hp Hc. split; [|easy]. cbn in Hp. intuition subst; cbn; tauto.
  - split; [|reflexivity]. eexists. split; [reflexivity|]. split; reflexivity.
Qed.

Lemma demo_cascade :
  (forall p, In p demo_cycle -> In (fst p) (t_index demo_plan) /\ In (snd p) (t_index demo_plan)) /\
  cascade_remap demo_cycle demo_cycle = Ok [("A", "C"); ("B", "A"); ("C", "B")].
Proof.
  split; [|reflexivity]. intros p Hp. cbn in Hp. intuition subst; cbn; tauto.
Qed.

Lemma demo_cycle_one_to_one : one_to_one ["A"; "B"; "C"] demo_cycle.
Proof.
  split; cbn; [reflexivity|].
  apply Permutation_sym. exact (Permutation_cons_append ["B"; "C"] "A").
Qed.

Lemma demo_group :
  NoDup ["A"; "B"; "C"] /\ one_to_one ["A"; "B"; "C"] demo_cycle /\ by_entity demo_cycle.
Proof.
  split; [nodup|]. split; [apply demo_cycle_one_to_one|].
  apply by_entity_sorted. repeat (constructor; [|now repeat constructor]). constructor.
Qed.

Lemma demo_located (t : table string string R) :
  forallb (fun k => match position t k with Some _ => true | None => false end) (t_index t) = true -> all_located t.
Proof.
  intros E k Hk. rewrite forallb_forall in E. specialize (E k Hk). destruct (position t k) as [p|]; [now exists p|discriminate].
Qed.

Lemma demo_assign :
  lsa_correct lsa_brute /\ wf_table demo_plan /\ t_index demo_pred = t_index demo_plan /\
  all_located demo_plan /\ all_located demo_pred /\ no_nan demo_pred.
Proof.
  split; [apply lsa_brute_correct|]. split; [apply demo_plan_wf|]. split; [reflexivity|].
  split; [now apply demo_located|]. split; [now apply demo_located|].
  intro k. unfold nan_entity, demo_pred. cbn -[String.eqb].
  destruct (String.eqb "A" k); [easy|]. destruct (String.eqb "B" k); [easy|]. now destruct (String.eqb "C" k).
Qed.

Lemma demo_nan :
  wf_table demo_pred_nan /\ Permutation (t_index demo_pred_nan) (t_index demo_plan) /\
  nan_entity demo_pred_nan "B" = true /\ finite_entities demo_pred_nan = ["A"; "C"].
Proof.
  split; [split; [nodup|split; [nodup|repeat constructor]]|]. split; [reflexivity|]. split; reflexivity.
Qed.

Lemma demo_positions_distinct k l p : In k (t_index demo_plan) -> In l (t_index demo_plan) ->
  position demo_plan k = Some p -> position demo_plan l = Some p -> k = l.
Proof.
  intros Hk Hl. cbn in Hk, Hl. intuition subst; cbn in *; try reflexivity; exfalso;
  repeat match goal with H : Some _ = Some _ |- _ => injection H; clear H; intros; subst end;
  repeat match goal with H : (_, _) = (_, _) |- _ => injection H; clear H; intros end; lra.
Qed.

Lemma demo_recover :
  one_to_one (t_index demo_plan) demo_cycle /\
  (forall p, In p demo_cycle -> position demo_pred (fst p) = position demo_plan (snd p)) /\
  (forall k l p, In k (t_index demo_plan) -> In l (t_index demo_plan) ->
     position demo_plan k = Some p -> position demo_plan l = Some p -> k = l).
Proof.
  split; [apply demo_cycle_one_to_one|]. split.
  - intros p Hp. cbn in Hp. intuition subst; reflexivity.
  - apply demo_positions_distinct.
Qed.

(** The second remap also moves C, which the first does not list: the cascade forgets it. *)
Lemma cascade_partial_fails :
  exists (data : table string string R) (r1 r2 r : list (string * string)) t1 t2 t3,
  wf_table data /\ cascade_remap r1 r2 = Ok r /\ remap_positions data r1 None = Ok t1 /\
  remap_positions t1 r2 None = Ok t2 /\ remap_positions data r None = Ok t3 /\ t2 <> t3.
Proof.
  exists demo_plan, [("A", "B"); ("B", "A")], [("A", "A"); ("B", "B"); ("C", "A")], [("A", "B"); ("B", "A")].
  do 3 eexists. split; [apply demo_plan_wf|].
  split; [reflexivity|]. split; [reflexivity|]. split; [reflexivity|]. split; [reflexivity|].
  intro F. apply (f_equal (fun t => cell t "C" "E")) in F. cbn in F. injection F. lra.
Qed.

(** Two swapped entities; B additionally has a missing value in a third column. *)
Definition extra_plan : table string string R :=
  mkTable ["E"; "N"] [("A", [Some 0%R; Some 0%R]); ("B", [Some 1%R; Some 0%R])].
Definition extra_pred : table string string R :=
  mkTable ["E"; "N"; "note"] [("A", [Some 1%R; Some 0%R; Some 0%R]); ("B", [Some 0%R; Some 0%R; None])].

Lemma extra_columns_matter :
  exists (orig pred : table string string R),
  wf_table orig /\ wf_table pred /\ t_index pred = t_index orig /\ all_located orig /\ all_located pred /\
  forall lsa, lsa_correct lsa ->
    exists r r' out out',
      assign_positions lsa orig pred = Ok (r, out) /\
      assign_positions lsa orig (mkTable (firstn 2 (t_cols pred)) (map (fun kr => (fst kr, firstn 2 (snd kr))) (t_rows pred))) = Ok (r', out') /\
      r <> r'.
Proof.
  exists extra_plan, extra_pred.
  assert (Wo : wf_table extra_plan) by (split; [nodup|split; [nodup|repeat constructor]]).
  assert (Wp : wf_table extra_pred) by (split; [nodup|split; [nodup|repeat constructor]]).
  split; [easy|]. split; [easy|]. split; [reflexivity|].
  split; [now apply demo_located|]. split; [now apply demo_located|].
  intros lsa Hlsa.
  destruct (assign_positions_nan lsa Hlsa extra_plan extra_pred) as (r & out & E & Kr & Hn & _); auto.
  { cbn. lia. } { now apply demo_located. } { exists "B". reflexivity. }
  destruct (assign_recovers lsa Hlsa extra_plan
              (mkTable ["E"; "N"] [("A", [Some 1%R; Some 0%R]); ("B", [Some 0%R; Some 0%R])])
              [("A", "B"); ("B", "A")]) as (r' & out' & E' & P' & B'); auto.
  { nodup. } { now apply demo_located. }
  { intro k. unfold nan_entity. cbn -[String.eqb].
    destruct (String.eqb "A" k); [easy|]. now destruct (String.eqb "B" k). }
  { intros k l p Hk Hl. cbn in Hk, Hl. intuition subst; cbn in *; try reflexivity; exfalso;
    repeat match goal with H : Some _ = Some _ |- _ => injection H; clear H; intros; subst end;
    repeat match goal with H : (_, _) = (_, _) |- _ => injection H; clear H; intros end; lra. }
  { split; cbn; [reflexivity|apply perm_swap]. }
  { intros p Hp. cbn in Hp. intuition subst; reflexivity. }
  exists r, r', out, out'. split; [exact E|]. split; [exact E'|].
  intros ->. assert (In ("B", "B") r') by (apply Hn; reflexivity).
  apply (Permutation_in _ P') in H. cbn in H. intuition congruence.
Qed.
