(** Names that may be written in capital or small letters: datasets (hope_campaign.py), methods (cmv.py). *)
From Coq Require Import String Ascii.
From Verif Require Import Prelude M_cmv M_hope_cli Spec_dataset X_dataio_cli.

Lemma upper_char_same c : same_letter c (upper_char c).
Proof.
  unfold same_letter.
  assert (E : Ascii.eqb c (upper_char c) || existsb (fun i => match String.get i small_letters, String.get i capital_letters with
    | Some a, Some b => Ascii.eqb a c && Ascii.eqb b (upper_char c) | _, _ => false end) (seq 0 26) = true)
    by (destruct c as [[] [] [] [] [] [] [] []]; vm_compute; reflexivity).
  apply Bool.orb_true_iff in E. destruct E as [E|E]; [left; now apply Ascii.eqb_eq|right]. apply existsb_exists in E.
  destruct E as (i & _ & E). exists i. destruct (String.get i small_letters) as [a|]; [|discriminate]. destruct (String.get i capital_letters) as [b|]; [|discriminate].
  apply andb_prop in E. destruct E as [A B]. apply Ascii.eqb_eq in A, B. now subst.
Qed.
Lemma same_letter_upper c d : upper_char d = d -> same_letter c d -> upper_char c = d.
Proof.
  intros D [->|(i & A & B)]; [exact D|].
  do 26 (destruct i as [|i]; [cbn in A, B; injection A as <-; injection B as <-; reflexivity|]). exfalso. destruct i; discriminate.
Qed.
Lemma upper_spells t : upper t = t -> forall s, upper s = t <-> spells s t.
Proof.
  induction t as [|d t IH]; intros Ht s.
  - destruct s; cbn; split; intro H; try discriminate; try contradiction; auto.
  - cbn [upper] in Ht. injection Ht as D T. destruct s as [|c s]; [cbn; split; [discriminate|contradiction]|]. cbn [upper spells]. split.
    + intro H. injection H as A B. split; [rewrite <- A; apply upper_char_same|now apply (IH T)].
    + intros [A B]. f_equal; [now apply same_letter_upper|now apply (IH T)].
Qed.

(*@ C97 The known datasets are the three names, in any mixture of capital and small letters. *)
Lemma names_any_case : forall d,
  known_dataset d <-> spells d "HOPE" \/ spells d "HOPE-MELPITZ" \/ spells d "LINDENBERG".
Proof. intro d. unfold known_dataset. rewrite <- !upper_spells by reflexivity. reflexivity. Qed.

(*@ex C97 *)
Lemma names_example : known_dataset "hope-Melpitz" /\ ~ known_dataset "melpitz".
Proof.
  split; [right; left; reflexivity|]. intros [H|[H|H]]; vm_compute in H; discriminate.
Qed.

Lemma lower_char_small c : small_print c (lower_ascii c).
Proof.
  unfold small_print.
  assert (E : existsb (fun i => match String.get i capital_letters, String.get i small_letters with
    | Some a, Some b => Ascii.eqb a c && Ascii.eqb b (lower_ascii c) | _, _ => false end) (seq 0 26) ||
    (Ascii.eqb (lower_ascii c) c && forallb (fun i => match String.get i capital_letters with Some a => negb (Ascii.eqb a c) | None => true end) (seq 0 26)) = true)
    by (destruct c as [[] [] [] [] [] [] [] []]; vm_compute; reflexivity).
  apply Bool.orb_true_iff in E. destruct E as [E|E]; [left|right].
  - apply existsb_exists in E. destruct E as (i & _ & E). exists i. destruct (String.get i capital_letters) as [a|]; [|discriminate].
    destruct (String.get i small_letters) as [b|]; [|discriminate]. apply andb_prop in E. destruct E as [A B]. apply Ascii.eqb_eq in A, B. now subst.
  - apply andb_prop in E. destruct E as [A B]. apply Ascii.eqb_eq in A. split; [|exact A]. intros i G. rewrite forallb_forall in B.
    destruct (Nat.lt_ge_cases i 26) as [L|L].
    + specialize (B i). rewrite in_seq, G in B. specialize (B ltac:(lia)). rewrite (proj2 (Ascii.eqb_eq c c) eq_refl) in B. discriminate.
    + do 26 (destruct i as [|i]; [lia|]). destruct i; discriminate.
Qed.
Lemma small_print_unique c d d' : small_print c d -> small_print c d' -> d = d'.
Proof.
  intros [(i & A & B)|[A ->]] [(j & A' & B')|[A' ->]].
  - assert (i = j); [|congruence].
    assert (Q : forall i, String.get i capital_letters = Some c -> exists n, c = ascii_of_nat (65 + i) /\ n = 0 /\ i < 26).
    { intros k G. do 26 (destruct k as [|k]; [exists 0; split; [cbn in G; injection G as <-; reflexivity|split; [reflexivity|lia]]|]). destruct k; discriminate. }
    destruct (Q i A) as (_ & Ci & _ & Li). destruct (Q j A') as (_ & Cj & _ & Lj). rewrite Ci in Cj.
    apply (f_equal nat_of_ascii) in Cj. rewrite !nat_ascii_embedding in Cj by lia. lia.
  - exfalso. now apply (A' i).
  - exfalso. now apply (A j).
  - reflexivity.
Qed.
Lemma lower_small_print s : forall t, lower s = t <-> in_small_print s t.
Proof.
  induction s as [|c s IH]; intros [|d t]; cbn; try (split; [discriminate|contradiction]); [tauto|]. split.
  - intro H. injection H as A B. split; [rewrite <- A; apply lower_char_small|now apply IH].
  - intros [A B]. f_equal; [apply (small_print_unique c); [apply lower_char_small|exact A]|now apply IH].
Qed.

(*@ C97 The summary file is named after the dataset in small letters, the cleaned file also after the cleaning option. *)
Lemma file_names : forall a qc, exists d q,
  in_small_print (a_dataset a) d /\ in_small_print qc q /\
  h5_name a = (d ++ ".h5")%string /\ qc_name a qc = (d ++ "-qc" ++ q ++ ".h5")%string.
Proof.
  intros a qc. exists (lower (a_dataset a)), (lower qc). split; [now apply lower_small_print|]. split; [now apply lower_small_print|].
  split; reflexivity.
Qed.

(*@ C15 compute_cmv compares its method and delay options in small letters: the names are accepted in any case. *)
Lemma options_any_case : forall s t, lower s = t <-> in_small_print s t.
Proof. exact lower_small_print. Qed.
(*@ex C15 *)
Lemma options_example : in_small_print "Jamaly" "jamaly" /\ ~ in_small_print "Jamaly" "gagne".
Proof. split; [now apply lower_small_print|]. intro H. apply lower_small_print in H. discriminate. Qed.
