(** Final forms: how the field demos average the predictions of the CMV pairs. *)
From Coq Require Import String Lia Lra.
From Verif Require Import Prelude PreludeFacts RealBase Fl M_spatial Spec_spatial M_cmv M_field_remap Spec_field M_field_pos X_field_pos M_field_loop M_field_reassign.
Local Open Scope R_scope.

(** A NaN cell is a missing number. *)
Definition cell (o : option R) : fl := match o with Some r => Fin r | None => Nan end.
(** The numbers that are there, and their average. *)
Definition somes (l : list (option R)) : list R := flat_map (fun o => match o with Some r => [r] | None => [] end) l.
Definition average_of_present (l : list (option R)) : option R :=
  match somes l with [] => None | p => Some (Rsum p / INR (length p)) end.
(** Each pair of tables gives the prediction listed for it. *)
Definition predicts {K} `{Label K} dtf sv cmv (pairs : list (list (K * list (option R)) * (R * R) * (list (K * list (option R)) * (R * R))))
    mode n (L : table K string R) k (preds : list (fl * fl)) : Prop :=
  Forall2 (fun pr p => let '((dfa, va), (dfb, vb)) := pr in
     exists rest, compute_predicted_position dtf sv cmv dfa dfb (layout_sites L) k (Some (Some va, Some vb)) mode n = Ok (p, rest)) pairs preds.
(** Infinite values of one sign only. *)
Definition one_infinity (l : list fl) : Prop := (In Pinf l /\ ~ In Ninf l) \/ (In Ninf l /\ ~ In Pinf l).

Lemma preds_mapM {K} `{Label K} dtf sv cmv pairs mode n (L : table K string R) k preds : predicts dtf sv cmv pairs mode n L k preds ->
  mapM (fun pr => let '((dfa, va), (dfb, vb)) := pr in
        let! (p, _) := compute_predicted_position dtf sv cmv dfa dfb (layout_sites L) k (Some (Some va, Some vb)) mode n in Ok p) pairs = Ok preds.
Proof.
  intro F. induction F as [|[[dfa va] [dfb vb]] p pairs preds (rest & E) F IH]; [reflexivity|]. cbn [mapM]. rewrite E. cbn [rbind]. now rewrite IH.
Qed.
Lemma mean_cells l : series_mean (map cell l) = cell (average_of_present l).
Proof.
  unfold series_mean, average_of_present.
  assert (E : filter (fun a => negb (is_nan a)) (map cell l) = map Fin (somes l)).
  { induction l as [|[r|] l IH]; cbn; [reflexivity| |assumption]. now rewrite IH. }
  rewrite E. destruct (somes l) as [|r p]; [reflexivity|]. cbn [map]. change (Fin r :: map Fin p) with (map Fin (r :: p)).
  rewrite fsum_fin, map_length. apply fdiv_fin. apply not_0_INR. cbn. lia.
Qed.
Lemma filter_in_nn x l : x <> Nan -> In x l -> In x (filter (fun a => negb (is_nan a)) l).
Proof. intros N I. apply filter_In. split; [assumption|]. now destruct x. Qed.
Lemma fsum_inf l : ~ In Nan l -> (In Pinf l -> ~ In Ninf l -> fsum l = Pinf) /\ (In Ninf l -> ~ In Pinf l -> fsum l = Ninf) /\
  (~ In Pinf l -> ~ In Ninf l -> exists r, fsum l = Fin r) /\ (In Pinf l -> In Ninf l -> fsum l = Nan).
Proof.
  induction l as [|x l IH]; intro N.
  - cbn. repeat split; try tauto. intros. now exists 0.
  - destruct IH as (A & B & C & D); [intro; apply N; now right|]. change (fsum (x :: l)) with (fadd x (fsum l)).
    assert (DP : In Pinf l \/ ~ In Pinf l) by (destruct (in_dec (fun a b : bool => Bool.bool_dec a b) true (map (fun a => match a with Pinf => true | _ => false end) l)) as [I|I];
      [left; apply in_map_iff in I as (y & E & I); now destruct y|right; intro J; apply I, in_map_iff; now exists Pinf]).
    assert (DN : In Ninf l \/ ~ In Ninf l) by (destruct (in_dec (fun a b : bool => Bool.bool_dec a b) true (map (fun a => match a with Ninf => true | _ => false end) l)) as [I|I];
      [left; apply in_map_iff in I as (y & E & I); now destruct y|right; intro J; apply I, in_map_iff; now exists Ninf]).
    destruct x; [| | |exfalso; apply N; now left];
    destruct DP as [P|P], DN as [Q|Q];
    try (rewrite (D P Q)); try (rewrite (A P Q)); try (rewrite (B Q P)); try (destruct (C P Q) as (q & ->));
    cbn; (split; [|split; [|split]]); intros; try reflexivity; try (eexists; reflexivity); exfalso; intuition discriminate.
Qed.
Lemma mean_inf l : (In Pinf l -> ~ In Ninf l -> series_mean l = Pinf) /\ (In Ninf l -> ~ In Pinf l -> series_mean l = Ninf) /\ (In Pinf l -> In Ninf l -> series_mean l = Nan).
Proof.
  unfold series_mean. set (f := filter _ l).
  assert (S : forall x, x <> Nan -> (In x f <-> In x l)).
  { intros x N. unfold f. split; [intro I; now apply filter_In in I|now apply filter_in_nn]. }
  assert (NN : ~ In Nan f) by (unfold f; intro I; apply filter_In in I as (_ & I); discriminate).
  destruct (fsum_inf f NN) as (A & B & _ & D).
  rewrite !S in A, B, D by discriminate.
  split; [|split]; intros P Q.
  - destruct f as [|y f'] eqn:E; [apply S in P; [destruct P|discriminate]|]. rewrite A by assumption. cbn [fdiv]. rewrite Rltb_false; [reflexivity|]. apply pos_INR.
  - destruct f as [|y f'] eqn:E; [apply S in P; [destruct P|discriminate]|]. rewrite B by assumption. cbn [fdiv]. rewrite Rltb_false; [reflexivity|]. apply pos_INR.
  - destruct f as [|y f'] eqn:E; [reflexivity|]. now rewrite D.
Qed.

(*@ C108 What an entity's prediction is over several CMV pairs: in each coordinate the average of the pairs that give a number, nothing if none does.
    An infinite coordinate ends the process with ValueError, unless the pairs contradict each other with both infinities. *)
Lemma pairs_averaged : forall (K : Type) (HK : Label K) dtf sv cmv pairs mode n (L : table K string R) k preds,
  predicts dtf sv cmv pairs mode n L k preds ->
  (forall es ns, map fst preds = map cell es -> map snd preds = map cell ns ->
     pairs_mean dtf sv cmv pairs mode n L k = Ok (average_of_present es, average_of_present ns)) /\
  (one_infinity (map fst preds) \/ one_infinity (map snd preds) -> pairs_mean dtf sv cmv pairs mode n L k = Err ValueError) /\
  (forall ns, In Pinf (map fst preds) -> In Ninf (map fst preds) -> map snd preds = map cell ns ->
     pairs_mean dtf sv cmv pairs mode n L k = Ok (None, average_of_present ns)).
Proof.
  intros K HK dtf sv cmv pairs mode n L k preds F. unfold pairs_mean. rewrite (preds_mapM _ _ _ _ _ _ _ _ _ F). cbn [rbind].
  assert (PC : forall o, pred_cell (cell o) = Ok o) by (intros [r|]; reflexivity).
  split; [|split].
  - intros es ns -> ->. rewrite !mean_cells, !PC. reflexivity.
  - assert (PE : forall l, one_infinity l -> pred_cell (series_mean l) = Err ValueError).
    { intros l [(P & Q)|(P & Q)]; destruct (mean_inf l) as (A & B & _); [rewrite A|rewrite B]; auto. }
    intros [I|I]; [rewrite (PE _ I); reflexivity|]. destruct (pred_cell (series_mean (map fst preds))) as [e|x] eqn:E; cbn [rbind].
    + rewrite (PE _ I); reflexivity.
    + destruct (series_mean (map fst preds)); try discriminate E; injection E as <-; reflexivity.
  - intros ns P Q ->. destruct (mean_inf (map fst preds)) as (_ & _ & C). rewrite C, mean_cells, PC by assumption. reflexivity.
Qed.

(*@ C108 A pair that cannot be computed ends the average with its exception, if the pairs before it can. *)
Lemma pairs_fail : forall (K : Type) (HK : Label K) dtf sv cmv before pr after mode n (L : table K string R) k preds dfa va dfb vb e,
  predicts dtf sv cmv before mode n L k preds -> pr = ((dfa, va), (dfb, vb)) ->
  compute_predicted_position dtf sv cmv dfa dfb (layout_sites L) k (Some (Some va, Some vb)) mode n = Err e ->
  pairs_mean dtf sv cmv (before ++ pr :: after) mode n L k = Err e.
Proof.
  intros K HK dtf sv cmv before pr after mode n L k preds dfa va dfb vb e F -> E. unfold pairs_mean.
  match goal with |- context [mapM ?f] => assert (M : mapM f (before ++ ((dfa, va), (dfb, vb)) :: after) = Err e) end.
  { induction F as [|[[dfa' va'] [dfb' vb']] p before preds (rest & E') F IH]; cbn [app mapM].
    - rewrite E. reflexivity.
    - rewrite E'. cbn [rbind]. rewrite IH. reflexivity. }
  rewrite M. reflexivity.
Qed.

(*@ C116 The prediction of the demo with one pair: a coordinate that is NaN is missing, an infinite one ends the demo with ValueError. *)
Lemma one_pair : forall (K : Type) (HK : Label K) dtf sv cmv dfa va dfb vb mode n (L : table K string R) k p rest,
  compute_predicted_position dtf sv cmv dfa dfb (layout_sites L) k (Some (Some va, Some vb)) mode n = Ok (p, rest) ->
  (forall e n', p = (cell e, cell n') -> pair_pred dtf sv cmv dfa va dfb vb mode n L k = Ok (e, n')) /\
  (fst p = Pinf \/ fst p = Ninf \/ snd p = Pinf \/ snd p = Ninf -> pair_pred dtf sv cmv dfa va dfb vb mode n L k = Err ValueError).
Proof.
  intros K HK dtf sv cmv dfa va dfb vb mode n L k p rest E. unfold pair_pred. rewrite E. cbn [rbind]. destruct p as [a b]. cbn [fst snd]. split.
  - intros e n' F. injection F as -> ->. destruct e, n'; reflexivity.
  - intros [->|[->|[->| ->]]]; try reflexivity; destruct a; reflexivity.
Qed.

Definition two_cells : list (fl * fl) := [(Fin 3, Nan); (Fin 5, Fin 2); (Nan, Fin 4)].
(*@ex C108 Three pairs: the averages are 4 and 3; with an infinite value added the process fails. *)
Lemma average_example : map fst two_cells = map cell [Some 3; Some 5; None] /\ map snd two_cells = map cell [None; Some 2; Some 4] /\ average_of_present [Some 3; Some 5; None] = Some 4 /\ average_of_present [None; Some 2; Some 4] = Some 3 /\ average_of_present [None; None] = None /\ one_infinity (map fst (two_cells ++ [(Pinf, Fin 1)])).
Proof.
  split; [reflexivity|]. split; [reflexivity|]. unfold average_of_present. cbn [somes flat_map app Rsum fold_right length INR].
  split; [f_equal; unfold Rsum; cbn; field|]. split; [f_equal; unfold Rsum; cbn; field|]. split; [reflexivity|].
  left. split; cbn; intuition discriminate.
Qed.
