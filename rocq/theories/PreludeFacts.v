(** Lemmas about Prelude.v. *)
From Coq Require Import Permutation Sorted.
From Verif Require Import Prelude.

Lemma lab_eqb_refl {K} `{Label K} (k : K) : lab_eqb k k = true.
Proof. now apply lab_eqb_eq. Qed.

Lemma lab_eqb_spec {K} `{Label K} (a b : K) : reflect (a = b) (lab_eqb a b).
Proof.
  destruct (lab_eqb a b) eqn:E; constructor.
  - now apply lab_eqb_eq.
  - intro F. apply lab_eqb_eq in F. congruence.
Qed.

Lemma lab_eqb_neq {K} `{Label K} (a b : K) : a <> b -> lab_eqb a b = false.
Proof. intro N. destruct (lab_eqb_spec a b); congruence. Qed.

Lemma lab_dec {K} `{Label K} (a b : K) : {a = b} + {a <> b}.
Proof. destruct (lab_eqb_spec a b); auto. Qed.


Lemma lab_mem_In {K} `{Label K} (k : K) l : lab_mem k l = true <-> In k l.
Proof.
  unfold lab_mem. rewrite existsb_exists. split.
  - intros [x [Hx E]]. apply lab_eqb_eq in E. now subst.
  - intro Hk. exists k. split; [easy|apply lab_eqb_refl].
Qed.

Lemma lab_mem_spec {K} `{Label K} (k : K) l : reflect (In k l) (lab_mem k l).
Proof.
  destruct (lab_mem k l) eqn:E; constructor.
  - now apply lab_mem_In.
  - intro F. apply lab_mem_In in F. congruence.
Qed.

(** ** Sorting *)
Lemma insert_by_perm {A} (le : A -> A -> bool) x l : Permutation (x :: l) (insert_by le x l).
Proof.
  induction l as [|y ys IH]; cbn; [reflexivity|].
  destruct (le x y); [reflexivity|].
  rewrite perm_swap. now apply perm_skip.
Qed.

Lemma sort_by_perm {A} (le : A -> A -> bool) l : Permutation l (sort_by le l).
Proof.
  induction l as [|x xs IH]; cbn; [constructor|].
  rewrite IH at 1. apply insert_by_perm.
Qed.

Lemma sort_by_length {A} (le : A -> A -> bool) l : length (sort_by le l) = length l.
Proof. symmetry. apply Permutation_length, sort_by_perm. Qed.

Lemma sort_by_In {A} (le : A -> A -> bool) l x : In x (sort_by le l) <-> In x l.
Proof.
  split; apply Permutation_in; [symmetry|]; apply sort_by_perm.
Qed.

Lemma insert_by_sorted {A} (le : A -> A -> bool) x l :
  (forall a b, le a b = true \/ le b a = true) ->
  (forall a b c, le a b = true -> le b c = true -> le a c = true) ->
  StronglySorted (fun a b => le a b = true) l ->
  StronglySorted (fun a b => le a b = true) (insert_by le x l).
Proof.
  intros Htot Htr. induction l as [|y ys IH]; cbn; intros HS.
  - repeat constructor.
  - inversion HS as [|? ? HS' HF]; subst.
    destruct (le x y) eqn:E.
    + constructor; [easy|]. constructor; [easy|].
      rewrite Forall_forall in *. intros z Hz. eapply Htr; [exact E|]. now apply HF.
    + constructor; [now apply IH|].
      rewrite Forall_forall in *. intros z Hz.
      apply (Permutation_in _ (Permutation_sym (insert_by_perm le x ys))) in Hz.
      destruct Hz as [<-|Hz]; [|now apply HF].
      destruct (Htot x y); congruence.
Qed.

Lemma sort_by_sorted {A} (le : A -> A -> bool) l :
  (forall a b, le a b = true \/ le b a = true) ->
  (forall a b c, le a b = true -> le b c = true -> le a c = true) ->
  StronglySorted (fun a b => le a b = true) (sort_by le l).
Proof.
  intros Ht Htr. induction l as [|x xs IH]; cbn; [constructor|].
  now apply insert_by_sorted.
Qed.

(** Two sorted permutations of each other are equal when the order is antisymmetric on the list. *)
Lemma sorted_perm_unique {A} (R : A -> A -> Prop) (l l' : list A) :
  (forall a b, In a l -> In b l -> R a b -> R b a -> a = b) ->
  StronglySorted R l -> StronglySorted R l' -> Permutation l l' -> l = l'.
Proof.
  revert l'. induction l as [|x xs IH]; intros l' Hanti HS HS' HP.
  - now apply Permutation_nil in HP.
  - destruct l' as [|y ys].
    { apply Permutation_sym, Permutation_nil in HP. discriminate. }
    inversion HS as [|? ? HS1 HF1]; subst. inversion HS' as [|? ? HS2 HF2]; subst.
    rewrite Forall_forall in *.
    assert (E : x = y).
    { assert (Hx : In x (y :: ys)) by (apply (Permutation_in _ HP); now left).
      assert (Hy : In y (x :: xs)) by (apply (Permutation_in _ (Permutation_sym HP)); now left).
      destruct Hx as [->|Hx]; [reflexivity|]. destruct Hy as [->|Hy]; [reflexivity|].
      apply Hanti; [now left|now right|now apply HF1|now apply HF2]. }
    subst y. f_equal. apply IH; auto.
    + intros a b Ha Hb. apply Hanti; now right.
    + now apply Permutation_cons_inv in HP.
Qed.

Lemma sorted_map {A B} (f : A -> B) (R : B -> B -> Prop) l :
  StronglySorted (fun a b => R (f a) (f b)) l <-> StronglySorted R (map f l).
Proof.
  induction l as [|x xs IH]; cbn; split; intro HS; try constructor; inversion HS as [|? ? H1 H2]; subst.
  - now apply IH.
  - rewrite Forall_map. exact H2.
  - now apply IH.
  - rewrite Forall_map in H2. exact H2.
Qed.

(** ** Dictionaries *)
Section DictFacts.
  Context {K V : Type} `{Label K}.
  Implicit Types (d l : list (K * V)) (k : K) (v : V).

  Lemma dget_dset_same d k v : dget (dset d k v) k = Some v.
  Proof.
    induction d as [|[k' v'] r IH]; cbn.
    - now rewrite lab_eqb_refl.
    - destruct (lab_eqb k' k) eqn:E; cbn; rewrite E; auto.
  Qed.

  Lemma dget_dset_other d k k' v : k <> k' -> dget (dset d k v) k' = dget d k'.
  Proof.
    intro N. induction d as [|[k0 v0] r IH]; cbn.
    - now rewrite lab_eqb_neq.
    - destruct (lab_eqb_spec k0 k) as [->|N0]; cbn.
      + now rewrite lab_eqb_neq.
      + now rewrite IH.
  Qed.

  Lemma dget_In d k v : dget d k = Some v -> In (k, v) d.
  Proof.
    induction d as [|[k0 v0] r IH]; cbn; [discriminate|].
    destruct (lab_eqb_spec k0 k) as [->|N]; [intros [= ->]; now left|].
    intro E. right. now apply IH.
  Qed.

  Lemma dget_None d k : dget d k = None <-> ~ In k (dkeys d).
  Proof.
    induction d as [|[k0 v0] r IH]; cbn; [tauto|].
    destruct (lab_eqb_spec k0 k) as [->|N].
    - split; [discriminate|]. intro F. exfalso. apply F. now left.
    - rewrite IH. unfold dkeys. tauto.
  Qed.

  Lemma dget_Some_key d k v : dget d k = Some v -> In k (dkeys d).
  Proof. intro E. apply dget_In in E. apply (in_map fst) in E. exact E. Qed.

  Lemma dget_key_Some d k : In k (dkeys d) -> exists v, dget d k = Some v.
  Proof.
    intro Hk. destruct (dget d k) as [v|] eqn:E; [now exists v|].
    apply dget_None in E. contradiction.
  Qed.

  Lemma dmem_In d k : dmem d k = true <-> In k (dkeys d).
  Proof.
    unfold dmem. destruct (dget d k) as [v|] eqn:E.
    - apply dget_Some_key in E. tauto.
    - apply dget_None in E. split; [discriminate|contradiction].
  Qed.

  Lemma dget_NoDup d k v : NoDup (dkeys d) -> In (k, v) d -> dget d k = Some v.
  Proof.
    induction d as [|[k0 v0] r IH]; cbn; [tauto|].
    intros ND Hin. inversion ND as [|? ? Hn ND']; subst.
    destruct Hin as [[= -> ->]|Hin].
    - now rewrite lab_eqb_refl.
    - rewrite lab_eqb_neq; [now apply IH|].
      intros ->. apply Hn. now apply (in_map fst) in Hin.
  Qed.

  Lemma dset_keys_in d k v : In k (dkeys d) -> dkeys (dset d k v) = dkeys d.
  Proof.
    unfold dkeys. induction d as [|[k0 v0] r IH]; cbn; [tauto|].
    intros [->|Hk].
    - now rewrite lab_eqb_refl.
    - destruct (lab_eqb_spec k0 k) as [->|N]; cbn; [easy|]. now rewrite IH.
  Qed.

  Lemma dset_keys_notin d k v : ~ In k (dkeys d) -> dset d k v = d ++ [(k, v)].
  Proof.
    unfold dkeys. induction d as [|[k0 v0] r IH]; cbn; [easy|].
    intro Hn. rewrite lab_eqb_neq by tauto. rewrite IH by tauto. reflexivity.
  Qed.


  Lemma NoDup_snoc {A} (l : list A) x : NoDup l -> ~ In x l -> NoDup (l ++ [x]).
  Proof.
    intros ND Hn. apply (Permutation_NoDup (l := x :: l)).
    - apply Permutation_cons_append.
    - now constructor.
  Qed.

  Lemma dset_NoDup d k v : NoDup (dkeys d) -> NoDup (dkeys (dset d k v)).
  Proof.
    intro ND. destruct (lab_mem_spec k (dkeys d)) as [I|N].
    - now rewrite (dset_keys_in _ _ _ I).
    - rewrite (dset_keys_notin _ _ _ N). unfold dkeys. rewrite map_app. now apply NoDup_snoc.
  Qed.

  (** The value under [k] after writing the list [l] into [d]: the last listing wins. *)
  Lemma dget_fold l : forall d k,
    dget (fold_left (fun d kv => dset d (fst kv) (snd kv)) l d) k
    = match dget (rev l) k with Some v => Some v | None => dget d k end.
  Proof.
    induction l as [|[k0 v0] l IH]; intros d k; cbn; [easy|].
    rewrite IH. clear IH.
    assert (E : dget (rev l ++ [(k0, v0)]) k
                = match dget (rev l) k with Some v => Some v | None => if lab_eqb k0 k then Some v0 else None end).
    { generalize (rev l) as m. induction m as [|[k1 v1] m IHm]; cbn; [easy|].
      destruct (lab_eqb k1 k); auto. }
    rewrite E. destruct (dget (rev l) k) as [v|]; [easy|].
    destruct (lab_eqb_spec k0 k) as [->|N].
    - now rewrite dget_dset_same.
    - now rewrite dget_dset_other.
  Qed.

  Lemma dget_dict_of l k : dget (dict_of l) k = dget (rev l) k.
  Proof. unfold dict_of. rewrite dget_fold. cbn. now destruct (dget (rev l) k). Qed.

  Lemma dict_of_keys l k : In k (dkeys (dict_of l)) <-> In k (map fst l).
  Proof.
    split; intro Hk.
    - apply dget_key_Some in Hk. destruct Hk as [v E]. rewrite dget_dict_of in E.
      apply dget_Some_key in E. unfold dkeys in E. rewrite map_rev in E. now apply in_rev in E.
    - assert (Hr : In k (dkeys (rev l))) by (unfold dkeys; rewrite map_rev; now apply in_rev in Hk).
      apply dget_key_Some in Hr. destruct Hr as [v E]. rewrite <- dget_dict_of in E.
      now apply dget_Some_key in E.
  Qed.

  Lemma dict_fold_NoDup l : forall d, NoDup (dkeys d) ->
    NoDup (dkeys (fold_left (fun d kv => dset d (fst kv) (snd kv)) l d)).
  Proof.
    induction l as [|kv l IH]; intros d ND; cbn; [easy|]. apply IH. now apply dset_NoDup.
  Qed.

  Lemma dict_of_NoDup l : NoDup (dkeys (dict_of l)).
  Proof. apply dict_fold_NoDup. constructor. Qed.

  Lemma dict_fold_NoDup_id l : forall d, NoDup (dkeys d ++ map fst l) ->
    fold_left (fun d kv => dset d (fst kv) (snd kv)) l d = d ++ l.
  Proof.
    induction l as [|[k v] l IH]; intros d ND; cbn; [now rewrite app_nil_r|].
    cbn in ND. rewrite IH.
    - rewrite dset_keys_notin.
      + now rewrite <- app_assoc.
      + apply NoDup_remove_2 in ND. rewrite in_app_iff in ND. tauto.
    - rewrite dset_keys_notin.
      + unfold dkeys. rewrite map_app. cbn. now rewrite <- app_assoc.
      + apply NoDup_remove_2 in ND. rewrite in_app_iff in ND. tauto.
  Qed.

  Lemma dict_of_id l : NoDup (map fst l) -> dict_of l = l.
  Proof. intro ND. unfold dict_of. now rewrite dict_fold_NoDup_id. Qed.

  Lemma dget_rev_NoDup l k : NoDup (map fst l) -> dget (rev l) k = dget l k.
  Proof. intro ND. rewrite <- dget_dict_of. now rewrite dict_of_id. Qed.
End DictFacts.

(** Two dictionaries with the same keys in the same order and the same lookups are equal. *)
Lemma dict_ext {K V} `{Label K} (d d' : list (K * V)) :
  NoDup (dkeys d) -> dkeys d = dkeys d' -> (forall k, dget d k = dget d' k) -> d = d'.
Proof.
  revert d'. induction d as [|[k v] d IH]; intros [|[k' v'] d'] ND EK Hg; cbn in *; try discriminate; [easy|].
  injection EK as -> EK. inversion ND as [|? ? Hn ND']; subst.
  pose proof (Hg k') as E. rewrite !lab_eqb_refl in E. injection E as ->.
  f_equal. apply IH; auto. intro k0. pose proof (Hg k0) as E0.
  destruct (lab_eqb_spec k' k0) as [->|N]; [|exact E0].
  assert (H1 : dget d k0 = None) by now apply dget_None.
  assert (H2 : dget d' k0 = None) by (apply dget_None; unfold dkeys; rewrite <- EK; exact Hn).
  congruence.
Qed.

(** ** Positions *)
Lemma pos_of_nth {K} `{Label K} (l : list K) k n : pos_of k l = Some n -> nth_error l n = Some k.
Proof.
  revert n. induction l as [|x xs IH]; intros n; cbn; [discriminate|].
  destruct (lab_eqb_spec x k) as [->|N]; [now intros [= <-]|].
  destruct (pos_of k xs) as [m|]; cbn; [|discriminate]. intros [= <-]. cbn. now apply IH.
Qed.

Lemma pos_of_None {K} `{Label K} (l : list K) k : pos_of k l = None <-> ~ In k l.
Proof.
  induction l as [|x xs IH]; cbn; [tauto|].
  destruct (lab_eqb_spec x k) as [->|N].
  - split; [discriminate|]. intro F. exfalso; apply F; now left.
  - destruct (pos_of k xs) as [m|]; cbn.
    + split; [discriminate|]. intro F. assert (~ In k xs) by tauto. apply IH in H0. discriminate.
    + split; [|easy]. intros _. assert (~ In k xs) by now apply IH. tauto.
Qed.

Lemma pos_of_In {K} `{Label K} (l : list K) k : In k l -> exists n, pos_of k l = Some n.
Proof.
  intro Hk. destruct (pos_of k l) as [n|] eqn:E; [now exists n|]. apply pos_of_None in E. contradiction.
Qed.

Lemma pos_of_lt {K} `{Label K} (l : list K) k n : pos_of k l = Some n -> n < length l.
Proof. intro E. apply pos_of_nth in E. apply nth_error_Some. congruence. Qed.

Lemma pos_of_NoDup {K} `{Label K} (l : list K) k n :
  NoDup l -> nth_error l n = Some k -> pos_of k l = Some n.
Proof.
  revert n. induction l as [|x xs IH]; intros n ND E; [now destruct n|].
  inversion ND as [|? ? Hn ND']; subst. destruct n as [|n]; cbn in *.
  - injection E as ->. now rewrite lab_eqb_refl.
  - rewrite lab_eqb_neq.
    + now rewrite (IH n ND' E).
    + intros ->. apply Hn. now apply nth_error_In in E.
Qed.

Lemma list_set_length {A} (l : list A) n v : length (list_set l n v) = length l.
Proof. revert n. induction l as [|x xs IH]; intros [|n]; cbn; auto. Qed.

Lemma nth_error_list_set_same {A} (l : list A) n v : n < length l -> nth_error (list_set l n v) n = Some v.
Proof.
  revert n. induction l as [|x xs IH]; intros [|n] Hn; cbn in *; try lia; auto. apply IH. lia.
Qed.

Lemma nth_error_list_set_other {A} (l : list A) n m v : n <> m -> nth_error (list_set l n v) m = nth_error l m.
Proof.
  revert n m. induction l as [|x xs IH]; intros [|n] [|m] Hn; cbn in *; try lia; auto.
Qed.

Lemma nth_error_ext {A} (l l' : list A) : (forall n, nth_error l n = nth_error l' n) -> l = l'.
Proof.
  revert l'. induction l as [|x xs IH]; intros [|y ys] Hn.
  - easy.
  - specialize (Hn 0). discriminate.
  - specialize (Hn 0). discriminate.
  - pose proof (Hn 0) as E. cbn in E. injection E as ->. f_equal. apply IH. intro n. exact (Hn (S n)).
Qed.

(** ** mapM / foldM *)
Lemma mapM_ok_iff {A B} (f : A -> result B) l ys :
  mapM f l = Ok ys <-> Forall2 (fun x y => f x = Ok y) l ys.
Proof.
  revert ys. induction l as [|x xs IH]; intros ys; cbn.
  - split; [intros [= <-]; constructor|]. intro F. inversion F. reflexivity.
  - split.
    + destruct (f x) as [y|e] eqn:E; cbn; [|discriminate].
      destruct (mapM f xs) as [zs|e] eqn:E2; cbn; [|discriminate].
      intros [= <-]. constructor; [easy|]. now apply IH.
    + intro F. inversion F as [|? y ? zs Hy Hz]; subst. rewrite Hy. cbn. apply IH in Hz. now rewrite Hz.
Qed.

Lemma Forall2_len {A B} (P : A -> B -> Prop) l l' : Forall2 P l l' -> length l = length l'.
Proof. induction 1; cbn; congruence. Qed.

Lemma mapM_length {A B} (f : A -> result B) l ys : mapM f l = Ok ys -> length ys = length l.
Proof. intro E. apply mapM_ok_iff in E. symmetry. now apply Forall2_len in E. Qed.


