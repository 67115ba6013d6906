(** Directory listings and downloads. *)
From Coq Require Import String Ascii Permutation Sorted.
From Verif Require Import Prelude PreludeFacts P_list M_iotools Spec_dataio.

Lemma letters_app a b : letters (a ++ b) = letters a ++ letters b.
Proof. induction a as [|c a IH]; cbn; [reflexivity|]. f_equal. exact IH. Qed.
Lemma letters_inj a b : letters a = letters b -> a = b.
Proof. intro E. rewrite <- (string_of_list_ascii_of_string a), <- (string_of_list_ascii_of_string b). unfold letters in E. now rewrite E. Qed.
Lemma letters_text l : letters (text l) = l.
Proof. apply list_ascii_of_string_of_list_ascii. Qed.
Lemma text_letters s : text (letters s) = s.
Proof. apply string_of_list_ascii_of_string. Qed.

Lemma rfind_from_spec c l i best :
  (~ In c l /\ rfind_from c l i best = best) \/
  exists a b, l = a ++ c :: b /\ ~ In c b /\ rfind_from c l i best = (i + Z.of_nat (length a))%Z.
Proof.
  revert i best. induction l as [|x l IH]; intros i best; cbn [rfind_from].
  - left. cbn. tauto.
  - destruct (IH (i+1)%Z (if Ascii.eqb x c then i else best)) as [[N E]|(a & b & -> & N & E)].
    + destruct (Ascii.eqb_spec x c) as [->|D].
      * right. exists [], l. split; [reflexivity|]. split; [exact N|]. rewrite E. cbn [length]. lia.
      * left. split; [intros [Q|Q]; congruence|exact E].
    + right. exists (x :: a), b. split; [reflexivity|]. split; [exact N|]. rewrite E. cbn [length]. lia.
Qed.
Lemma rfind_spec c l :
  (~ In c l /\ rfind c l = (-1)%Z) \/ exists a b, l = a ++ c :: b /\ ~ In c b /\ rfind c l = Z.of_nat (length a).
Proof. unfold rfind. destruct (rfind_from_spec c l 0 (-1)) as [|(a & b & ? & ? & ?)]; [now left|right; exists a, b; auto]. Qed.
Lemma last_split_unique {A} (c : A) a b a' b' : ~ In c b -> ~ In c b' -> a ++ c :: b = a' ++ c :: b' -> a = a' /\ b = b'.
Proof.
  revert a'. induction a as [|x a IH]; intros [|x' a'] N N' E; cbn in E.
  - injection E as ->. auto.
  - injection E as -> ->. exfalso. apply N. apply in_or_app. right. now left.
  - injection E as -> <-. exfalso. apply N'. apply in_or_app. right. now left.
  - injection E as -> E. destruct (IH _ N N' E). now subst.
Qed.
Lemma basename_spec p : last_part p (basename p).
Proof.
  unfold basename, last_part, lacks. rewrite letters_text. change (chars p) with (letters p).
  destruct (rfind_spec "/" (letters p)) as [[N ->]|(a & b & E & N & ->)].
  - change (Z.to_nat (-1 + 1)) with 0. cbn [skipn]. split; [exact N|]. left. now rewrite text_letters.
  - rewrite E. replace (Z.to_nat (Z.of_nat (length a) + 1)) with (length (a ++ ["/"%char])) by (rewrite app_length; cbn; lia).
    replace (a ++ "/"%char :: b) with ((a ++ ["/"%char]) ++ b) by now rewrite <- app_assoc.
    rewrite skipn_app, skipn_all, Nat.sub_diag. cbn [skipn app]. split; [exact N|]. right. exists (text a).
    apply letters_inj. rewrite !letters_app, !letters_text, E. reflexivity.
Qed.
Lemma last_part_unique p x y : last_part p x -> last_part p y -> x = y.
Proof.
  unfold last_part, lacks. intros [N [->|[d ->]]] [N' [E|[d' E]]].
  - exact E.
  - exfalso. apply N. rewrite E, letters_app, letters_app. apply in_or_app. right. left. reflexivity.
  - exfalso. apply N'. rewrite <- E, letters_app, letters_app. apply in_or_app. right. left. reflexivity.
  - assert (Q : letters (d ++ "/" ++ x) = letters (d' ++ "/" ++ y)) by now rewrite E.
    rewrite !letters_app in Q. cbn [letters list_ascii_of_string app] in Q. apply last_split_unique in Q; [|exact N|exact N'].
    destruct Q as [_ Q]. now apply letters_inj.
Qed.

Lemma dotted_unique n st s st' s' : dotted n st s -> dotted n st' s' -> st = st' /\ s = s'.
Proof.
  intros (-> & N & _ & _) (E & N' & _ & _).
  assert (Q : letters (st ++ "." ++ s) = letters (st' ++ "." ++ s')) by now rewrite E.
  rewrite !letters_app in Q. cbn [letters list_ascii_of_string app] in Q. apply last_split_unique in Q; [|exact N|exact N'].
  destruct Q as [Q1 Q2]. split; now apply letters_inj.
Qed.
Lemma extension_unique n e e' : extension n e -> extension n e' -> e = e'.
Proof.
  intros [(st & s & D & ->)|[N ->]] [(st' & s' & D' & ->)|[N' ->]]; try reflexivity.
  - destruct (dotted_unique _ _ _ _ _ D D') as [_ ->]. reflexivity.
  - now apply N' in D.
  - now apply N in D'.
Qed.
(** The part of a stem that follows its last slash, from the position of the slash in the whole name. *)
Lemma splitext_spec p : 
  (exists st s, dotted p st s /\ splitext p = (st, ("." ++ s)%string)) \/ ((forall st s, ~ dotted p st s) /\ splitext p = (p, EmptyString)).
Proof.
  unfold splitext. change (chars p) with (letters p).
  destruct (rfind_spec "." (letters p)) as [[N ED]|(a & b & E & N & ED)].
  - right. split.
    + intros st s (-> & _). apply N. rewrite !letters_app. apply in_or_app. right. left. reflexivity.
    + rewrite ED. destruct (Z.ltb_spec (rfind "/" (letters p)) (-1)) as [L|_]; [|reflexivity].
      exfalso. destruct (rfind_spec "/" (letters p)) as [[_ Q]|(? & ? & _ & _ & Q)]; lia.
  - rewrite ED. assert (ES : p = text (a ++ "."%char :: b)) by (rewrite <- E; symmetry; apply text_letters).
    (* the stem's last part *)
    assert (F : (Z.ltb (rfind "/" (letters p)) (Z.of_nat (length a)) &&
                 existsb (fun c => negb (Ascii.eqb c ".")) (firstn (Z.to_nat (Z.of_nat (length a)) - Z.to_nat (rfind "/" (letters p) + 1)) (skipn (Z.to_nat (rfind "/" (letters p) + 1)) (letters p))))%bool = true
                <-> ~ In "/"%char b /\ exists c, In c (letters (basename (text a))) /\ c <> "."%char).
    { destruct (rfind_spec "/" (letters p)) as [[M EM]|(u & v & EU & M & EM)].
      - rewrite EM. change (Z.to_nat (-1 + 1)) with 0. cbn [skipn]. rewrite Nat.sub_0_r, Nat2Z.id, E, firstn_app, Nat.sub_diag, firstn_all.
        cbn [firstn]. rewrite app_nil_r. rewrite Bool.andb_true_iff, Z.ltb_lt, existsb_exists.
        assert (EB : basename (text a) = text a).
        { apply (last_part_unique (text a)); [apply basename_spec|]. split; [|now left]. unfold lacks. rewrite letters_text. intro Q. apply M. rewrite E. apply in_or_app. now left. }
        rewrite EB, letters_text. split.
        + intros [_ (c & I & Q)]. split; [intro Z; apply M; rewrite E; apply in_or_app; right; now right|]. exists c. split; [exact I|]. intros ->. discriminate.
        + intros [_ (c & I & Q)]. split; [lia|]. exists c. split; [exact I|]. destruct (Ascii.eqb_spec c "."); [contradiction|reflexivity].
      - rewrite EM, Bool.andb_true_iff, Z.ltb_lt, existsb_exists.
        replace (Z.to_nat (Z.of_nat (length u) + 1)) with (length (u ++ ["/"%char])) by (rewrite app_length; cbn; lia). rewrite Nat2Z.id.
        rewrite E in EU. destruct (Nat.lt_ge_cases (length u) (length a)) as [L|L].
        + (* slash inside the stem *)
          assert (W : exists w, a = u ++ "/"%char :: w /\ v = w ++ "."%char :: b).
          { clear -EU L. revert u EU L. induction a as [|x a IH]; intros u EU L; [cbn in L; lia|]. destruct u as [|y u].
            - cbn in EU. injection EU as -> <-. exists a. now split.
            - cbn in EU. injection EU as -> EU. destruct (IH u EU) as (w & -> & ->); [cbn in L; lia|]. exists w. now split. }
          destruct W as (w & EA & ->).
          assert (EB : basename (text a) = text w).
          { apply (last_part_unique (text a)); [apply basename_spec|]. split.
            - unfold lacks. rewrite letters_text. intro Q. apply M. apply in_or_app. now left.
            - right. exists (text u). apply letters_inj. rewrite !letters_app, !letters_text, EA. reflexivity. }
          rewrite EB, letters_text. rewrite E, EA. 
          replace ((u ++ "/"%char :: w) ++ "."%char :: b) with ((u ++ ["/"%char]) ++ w ++ "."%char :: b) by (rewrite <- !app_assoc; reflexivity).
          rewrite skipn_app, skipn_all, Nat.sub_diag. cbn [skipn app].
          replace (length (u ++ "/"%char :: w) - length (u ++ ["/"%char])) with (length w) by (rewrite !app_length; cbn; lia).
          rewrite firstn_app, Nat.sub_diag, firstn_all. cbn [firstn]. rewrite app_nil_r. split.
          * intros [_ (c & I & Q)]. split; [intro Z; apply M; apply in_or_app; right; now right|]. exists c. split; [exact I|]. intros ->. discriminate.
          * intros [_ (c & I & Q)]. split; [rewrite app_length; cbn; lia|]. exists c. split; [exact I|]. destruct (Ascii.eqb_spec c "."); [contradiction|reflexivity].
        + split; [lia|]. intros [Q _]. exfalso. apply Q.
          (* the slash comes after the dot *)
          assert (W : In "/"%char (skipn (length a) (a ++ "."%char :: b))).
          { rewrite EU, skipn_app. apply in_or_app. right. replace (length a - length u) with 0 by lia. now left. }
          rewrite skipn_app, skipn_all, Nat.sub_diag in W. cbn [skipn app] in W. destruct W as [W|W]; [discriminate|exact W]. }
    match type of F with ?x = true <-> _ => destruct x eqn:EX end.
    + left. destruct (proj1 F eq_refl) as [NS HC]. exists (text a), (text b). split.
      * unfold dotted, lacks. rewrite letters_text. repeat split; auto.
        { apply letters_inj. rewrite !letters_app, !letters_text, E. reflexivity. }
        exists (basename (text a)). split; [apply basename_spec|exact HC].
      * rewrite Nat2Z.id, E, firstn_app, firstn_all, Nat.sub_diag, skipn_app, skipn_all, Nat.sub_diag. cbn [firstn skipn app]. rewrite app_nil_r. reflexivity.
    + right. split; [|reflexivity]. intros st s (EP & NS & ND & base & HB & HC). cut (false = true); [discriminate|]. apply F.
      rewrite EP in E. rewrite !letters_app in E. cbn [letters list_ascii_of_string app] in E.
      apply last_split_unique in E; [|exact NS|exact N]. destruct E as [EA EBB]. change (list_ascii_of_string s) with (letters s) in EBB. subst b. split; [exact ND|].
      change (list_ascii_of_string st) with (letters st) in EA. subst a. rewrite text_letters. rewrite (last_part_unique st (basename st) base); auto. apply basename_spec.
Qed.
Lemma ext_eqb fn e : String.eqb (snd (splitext fn)) e = true <-> extension fn e.
Proof.
  rewrite String.eqb_eq. assert (X : extension fn (snd (splitext fn))).
  { destruct (splitext_spec fn) as [(st & s & D & ->)|[N ->]]; [left; exists st, s; auto|right; auto]. }
  split; [intros <-; exact X|]. intro Y. now apply (extension_unique fn).
Qed.

(*@ C80 Exactly the entries with the requested extension are returned; all of them when no extension is requested. *)
Lemma files_members : forall listing ext sort name,
  In name (getfiles listing ext sort) <-> In name listing /\ match ext with None => True | Some e => extension name e end.
Proof.
  intros l ext sort name. unfold getfiles.
  assert (S : forall f : list string, In name (if sort then sort_by String.leb f else f) <-> In name f).
  { intro f. destruct sort; [apply sort_by_In|reflexivity]. }
  rewrite S. destruct ext as [e|]; [|tauto]. rewrite filter_In, ext_eqb. reflexivity.
Qed.
(*@ C80 Every name has exactly one extension, so no entry is matched by two different requests. *)
Lemma files_one_extension : forall name, exists e, extension name e /\ forall e', extension name e' -> e' = e.
Proof.
  intro n. assert (X : exists e, extension n e).
  { destruct (splitext_spec n) as [(st & s & D & _)|[N _]]; [exists ("." ++ s)%string; left; eauto|exists EmptyString; now right]. }
  destruct X as [e X]. exists e. split; [exact X|]. intros e' X'. now apply (extension_unique n).
Qed.
(*@ C80 Each entry comes back as often as it is listed, so exactly once in a real directory. *)
Lemma files_once : forall listing ext sort, NoDup listing -> NoDup (getfiles listing ext sort).
Proof.
  intros l ext sort N. unfold getfiles.
  assert (F : NoDup (match ext with Some e => filter (fun fn => String.eqb (snd (splitext fn)) e) l | None => l end)).
  { destruct ext; [now apply NoDup_filter|exact N]. }
  destruct sort; [|exact F]. eapply Permutation_NoDup; [apply sort_by_perm|exact F].
Qed.
(*@ C80 A sorted result is in ascending order. *)
Lemma files_ascending : forall listing ext, StronglySorted (fun a b => String.leb a b = true) (getfiles listing ext true).
Proof.
  intros l ext. unfold getfiles. apply (sort_by_sorted String.leb).
  - intros a b. apply String.leb_total.
  - intros a b c. apply string_leb_trans.
Qed.
Lemma filter_perm {A} (f : A -> bool) l l' : Permutation l l' -> Permutation (filter f l) (filter f l').
Proof.
  induction 1 as [|x l l' P IH|x y l|l l' l'' P1 I1 P2 I2]; cbn; auto.
  - destruct (f x); auto.
  - destruct (f x), (f y); auto using perm_swap.
  - now transitivity (filter f l').
Qed.
(*@ C80 A sorted result does not depend on the order in which the directory is listed. *)
Lemma files_order_free : forall listing listing' ext,
  Permutation listing listing' -> getfiles listing ext true = getfiles listing' ext true.
Proof.
  intros l l' ext P. apply (sorted_perm_unique (fun a b => String.leb a b = true)).
  - intros a b _ _. apply String.leb_antisym.
  - apply files_ascending.
  - apply files_ascending.
  - unfold getfiles. etransitivity; [symmetry; apply sort_by_perm|]. etransitivity; [|apply sort_by_perm].
    destruct ext; [now apply filter_perm|exact P].
Qed.
(*@ C80 An unsorted result keeps the order of the listing. *)
Lemma files_unsorted : forall listing listing' ext,
  getfiles (listing ++ listing') ext false = getfiles listing ext false ++ getfiles listing' ext false /\
  getfiles listing None false = listing.
Proof. intros l l' ext. split; [|reflexivity]. unfold getfiles. destruct ext; [apply filter_app|reflexivity]. Qed.
(*@ex C80 A hidden file has no extension and a double extension is its last part. *)
Lemma files_ex :
  getfiles ["b.csv"; ".csv"; "a.tar.csv"; "csv"; "c.nc"; "c.csv.bak"]%string (Some ".csv"%string) true = ["a.tar.csv"; "b.csv"]%string /\
  extension "a.tar.csv" ".csv" /\ extension ".csv" "".
Proof.
  split; [reflexivity|]. split; apply ext_eqb; reflexivity.
Qed.
