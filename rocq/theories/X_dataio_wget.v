(** Downloads: completion, resumption and the crash window. *)
From Coq Require Import String Ascii Permutation Sorted.
From Verif Require Import Prelude PreludeFacts P_list M_iotools Spec_dataio X_dataio_files.

Lemma is_space_white c : is_space c = true <-> white c.
Proof.
  unfold is_space, white. rewrite Bool.orb_true_iff, !Bool.andb_true_iff, !Nat.leb_le. cbn [In]. lia.
Qed.
Lemma is_space_not c : is_space c = false <-> ~ white c.
Proof. rewrite <- is_space_white. destruct (is_space c); split; intros; congruence. Qed.

Definition bnd (l : list ascii) : Prop := l = [] \/ exists b c, l = b ++ [c] /\ white c.
Lemma words_from_last l : forall word, (forall c, In c word -> ~ white c) ->
  (words_from l word = [] /\ word = [] /\ (forall c, In c l -> white c)) \/
  exists ws w b a, words_from l word = ws ++ [w] /\ rev word ++ l = b ++ w ++ a /\ w <> [] /\
    (forall c, In c w -> ~ white c) /\ (forall c, In c a -> white c) /\ bnd b.
Proof.
  induction l as [|c l IH]; intros word HW.
  - cbn [words_from]. destruct word as [|x word].
    + left. repeat split; auto. intros ? [].
    + right. exists [], (rev (x :: word)), [], []. repeat split; auto.
      * intro E. apply (f_equal (@length ascii)) in E. rewrite rev_length in E. discriminate.
      * intros y Q. apply HW. now apply in_rev in Q.
      * intros ? [].
      * now left.
  - cbn [words_from]. destruct (is_space c) eqn:ES.
    + apply is_space_white in ES. destruct word as [|x word].
      * destruct (IH [] HW) as [(E & _ & A)|(ws & w & b & a & E & EL & P1 & P2 & P3 & P4)].
        { left. repeat split; auto. intros y [<-|Q]; auto. }
        right. cbn [rev app] in *. exists ws, w, (c :: b), a. repeat split; auto.
        { now rewrite EL. }
        right. destruct P4 as [->|(b' & c' & -> & Q)]; [exists [], c|exists (c :: b'), c']; auto.
      * destruct (IH [] ltac:(intros ? [])) as [(E & _ & A)|(ws & w & b & a & E & EL & P1 & P2 & P3 & P4)].
        { right. exists [], (rev (x :: word)), [], (c :: l). rewrite E. repeat split; auto.
          - intro Q. apply (f_equal (@length ascii)) in Q. rewrite rev_length in Q. discriminate.
          - intros y Q. apply HW. now apply in_rev in Q.
          - intros y [<-|Q]; auto.
          - now left. }
        right. cbn [rev app] in EL. exists (rev (x :: word) :: ws), w, (rev (x :: word) ++ c :: b), a. repeat split; auto.
        { now rewrite E. }
        { rewrite EL, <- app_assoc. reflexivity. }
        right. destruct P4 as [->|(b' & c' & -> & Q)].
        { exists (rev (x :: word)), c. auto. }
        exists (rev (x :: word) ++ c :: b'), c'. split; [|exact Q]. rewrite <- app_assoc. reflexivity.
    + apply is_space_not in ES. destruct (IH (c :: word)) as [(E & Q & _)|(ws & w & b & a & E & EL & P)].
      * intros y [<-|Q]; auto.
      * discriminate.
      * right. exists ws, w, b, a. split; [exact E|]. split; [|exact P]. cbn [rev] in EL. rewrite <- app_assoc in EL. exact EL.
Qed.
Lemma row_url_spec row :
  (row_url row = Err IndexError /\ blank_line row) \/ exists u, row_url row = Ok u /\ last_word row u.
Proof.
  unfold row_url. change (chars row) with (letters row).
  destruct (words_from_last (letters row) []) as [(-> & _ & A)|(ws & w & b & a & -> & EL & P1 & P2 & P3 & P4)]; [intros ? []| |].
  - left. split; [reflexivity|]. exact A.
  - right. rewrite rev_app_distr. cbn [rev app]. exists (text w). split; [reflexivity|]. exists (text b), (text a). rewrite !letters_text. repeat split; auto.
    + apply letters_inj. rewrite !letters_app, !letters_text. exact EL.
    + intro Q. apply P1. rewrite <- (letters_text w), Q. reflexivity.
    + destruct P4 as [->|(b' & c & -> & Q)]; [now left|]. right. exists (text b'), c. split; [|exact Q].
      apply letters_inj. rewrite letters_app, !letters_text. reflexivity.
Qed.
(** A last word is unique. *)
Lemma split_white (x y a b : list ascii) : (forall c, In c a -> white c) -> (forall c, In c b -> white c) ->
  (x = [] \/ exists x' c, x = x' ++ [c] /\ ~ white c) -> (y = [] \/ exists y' c, y = y' ++ [c] /\ ~ white c) ->
  x ++ a = y ++ b -> x = y.
Proof.
  revert b. induction a as [|c a IH] using rev_ind; intros b HA HB HX HY E.
  - rewrite app_nil_r in E. destruct b as [|d b] using rev_ind; [now rewrite app_nil_r in E|]. clear IHb. exfalso.
    assert (WD : white d) by (apply HB; apply in_or_app; right; now left).
    destruct HX as [->|(x' & c & -> & NC)].
    + symmetry in E. apply app_eq_nil in E. destruct E as [_ E]. apply app_eq_nil in E. destruct E; discriminate.
    + rewrite app_assoc in E. apply app_inj_tail in E. destruct E as [_ ->]. contradiction.
  - assert (WC : white c) by (apply HA; apply in_or_app; right; now left).
    destruct b as [|d b] using rev_ind.
    + exfalso. rewrite app_nil_r in E. destruct HY as [->|(y' & d & -> & ND)].
      * apply app_eq_nil in E. destruct E as [_ E]. apply app_eq_nil in E. destruct E; discriminate.
      * rewrite app_assoc in E. apply app_inj_tail in E. destruct E as [_ ->]. contradiction.
    + clear IHb. rewrite !app_assoc in E. apply app_inj_tail in E. destruct E as [E _].
      apply (IH b); auto; intros z Q; [apply HA|apply HB]; apply in_or_app; now left.
Qed.
Lemma tail_word (b b' w w' : list ascii) : bnd b -> bnd b' -> w <> [] -> w' <> [] ->
  (forall c, In c w -> ~ white c) -> (forall c, In c w' -> ~ white c) -> b ++ w = b' ++ w' -> w = w'.
Proof.
  intros HB HB' N N' P P'. revert w' N' P'. induction w as [|c w IH] using rev_ind; intros w' N' P' E; [contradiction|].
  destruct w' as [|c' w'] using rev_ind; [contradiction|]. clear IHw'.
  rewrite !app_assoc in E. apply app_inj_tail in E. destruct E as [E <-]. f_equal.
  assert (NW : forall z, In z w -> ~ white z) by (intros z Q; apply P; apply in_or_app; now left).
  assert (NW' : forall z, In z w' -> ~ white z) by (intros z Q; apply P'; apply in_or_app; now left).
  destruct w as [|x w], w' as [|x' w']; auto.
  - exfalso. rewrite app_nil_r in E. destruct (exists_last (l := x' :: w') ltac:(discriminate)) as (y & z & EY). rewrite EY in E, NW'.
    destruct HB as [->|(b0 & c0 & -> & W)].
    + symmetry in E. apply app_eq_nil in E. destruct E as [_ E]. apply app_eq_nil in E. destruct E; discriminate.
    + rewrite app_assoc in E. apply app_inj_tail in E. destruct E as [_ ->]. apply (NW' z); auto. apply in_or_app. right. now left.
  - exfalso. rewrite app_nil_r in E. destruct (exists_last (l := x :: w) ltac:(discriminate)) as (y & z & EY). rewrite EY in E, NW.
    destruct HB' as [->|(b0 & c0 & -> & W)].
    + apply app_eq_nil in E. destruct E as [_ E]. apply app_eq_nil in E. destruct E; discriminate.
    + rewrite app_assoc in E. apply app_inj_tail in E. destruct E as [_ <-]. apply (NW z); auto. apply in_or_app. right. now left.
  - apply IH; auto; discriminate.
Qed.
Lemma last_word_unique line w w' : last_word line w -> last_word line w' -> w = w'.
Proof.
  intros (b & a & E & N & P & Q & B) (b' & a' & E' & N' & P' & Q' & B'). apply letters_inj.
  assert (X : forall s, s <> EmptyString -> letters s <> []) by (intros [|] ?; [contradiction|discriminate]).
  assert (Y : forall s, (s = EmptyString \/ exists b c, s = (b ++ String c EmptyString)%string /\ white c) -> bnd (letters s)).
  { intros s [->|(z & c & -> & W)]; [now left|]. right. exists (letters z), c. now rewrite letters_app. }
  assert (F : forall b w, w <> EmptyString -> (forall c, In c (letters w) -> ~ white c) -> exists x c, letters b ++ letters w = x ++ [c] /\ ~ white c).
  { intros z u NU PU. destruct (exists_last (X u NU)) as (y & c & EY). exists (letters z ++ y), c. rewrite EY, app_assoc. split; [reflexivity|].
    apply PU. rewrite EY. apply in_or_app. right. now left. }
  apply (tail_word (letters b) (letters b')); auto.
  apply (split_white _ _ (letters a) (letters a')); auto.
  rewrite E in E'. apply (f_equal letters) in E'. rewrite !letters_app in E'. rewrite <- !app_assoc. exact E'.
Qed.
Lemma blank_no_word line w : blank_line line -> ~ last_word line w.
Proof.
  intros B (b & a & -> & N & P & _). destruct w as [|c w]; [contradiction|]. apply (P c); [now left|]. apply B.
  rewrite !letters_app. apply in_or_app. right. apply in_or_app. left. now left.
Qed.
Lemma row_asks row u fn : asks_for row u fn <-> row_url row = Ok u /\ fn = basename u.
Proof.
  unfold asks_for. split.
  - intros [HW HL]. destruct (row_url_spec row) as [(_ & B)|(u' & -> & HW')]; [exfalso; revert HW; now apply blank_no_word|].
    rewrite (last_word_unique row u u'); auto. split; [reflexivity|]. assert (u = u') by now apply (last_word_unique row). subst u'.
    apply (last_part_unique u); auto. apply basename_spec.
  - intros [E ->]. destruct (row_url_spec row) as [(E' & B)|(u' & E' & HW')]; [congruence|]. assert (u' = u) by congruence. subst.
    split; [exact HW'|apply basename_spec].
Qed.

(** ** File effects *)
Section W.
  Context {B : Type}.
  Implicit Types (fs : @dir B) (w : @web B).

  Definition opname (o : @fsop B) : string := match o with Create n => n | Append n _ => n end.
  Lemma op_other fs o n : opname o <> n -> dget (apply_op fs o) n = dget fs n.
  Proof. destruct o as [m|m b]; cbn; intro N; now apply dget_dset_other. Qed.
  Lemma ops_other ops : forall fs n, (forall o, In o ops -> opname o <> n) -> dget (apply_ops ops fs) n = dget fs n.
  Proof.
    induction ops as [|o ops IH]; intros fs n N; [reflexivity|]. unfold apply_ops. cbn [fold_left].
    change (fold_left apply_op ops (apply_op fs o)) with (apply_ops ops (apply_op fs o)). rewrite IH.
    - apply op_other. apply N. now left.
    - intros; apply N. now right.
  Qed.
  Lemma ops_app a b fs : apply_ops (a ++ b) fs = apply_ops b (apply_ops a fs).
  Proof. unfold apply_ops. apply fold_left_app. Qed.
  Lemma appends_content n bs : forall fs c, dget fs n = Some c -> dget (apply_ops (map (Append n) bs) fs) n = Some (c ++ bs).
  Proof.
    induction bs as [|b bs IH]; intros fs c E; [cbn; now rewrite app_nil_r|]. unfold apply_ops. cbn [map fold_left].
    change (dget (apply_ops (map (Append n) bs) (apply_op fs (Append n b))) n = Some (c ++ b :: bs)).
    rewrite (IH _ (c ++ [b])).
    - rewrite <- app_assoc. reflexivity.
    - cbn [apply_op]. rewrite E. apply dget_dset_same.
  Qed.
  Lemma file_content n bs k fs :
    dget (apply_ops (firstn k (Create n :: map (Append n) bs)) fs) n = match k with O => dget fs n | S j => Some (firstn j bs) end.
  Proof.
    destruct k as [|j]; [reflexivity|]. cbn [firstn]. unfold apply_ops. cbn [fold_left].
    rewrite firstn_map. change (dget (apply_ops (map (Append n) (firstn j bs)) (apply_op fs (Create n))) n = Some (firstn j bs)).
    rewrite (appends_content n (firstn j bs) _ []); [reflexivity|]. cbn [apply_op]. apply dget_dset_same.
  Qed.
  Lemma file_opname n bs o : In o (Create n :: map (Append n) bs) -> opname o = n.
  Proof. intros [<-|Q]; [reflexivity|]. apply in_map_iff in Q. destruct Q as (b & <- & _). reflexivity. Qed.
  Lemma In_firstn' {A} (l : list A) k x : In x (firstn k l) -> In x l.
  Proof. intro Q. rewrite <- (firstn_skipn k l). apply in_or_app. now left. Qed.
  Lemma download_name w u n o : In o (fst (download w u n)) -> opname o = n.
  Proof. unfold download. destruct (w u) as [[bs c]|]; cbn [fst]; [apply file_opname|intros []]. Qed.
  Lemma dmem_true fs n : dmem fs n = true <-> exists c, dget fs n = Some c.
  Proof. unfold dmem. destruct (dget fs n); split; intro H; try congruence; eauto. now destruct H. Qed.
  Lemma dmem_false fs n : dmem fs n = false <-> dget fs n = None.
  Proof. unfold dmem. destruct (dget fs n); split; congruence. Qed.

  (** No operation touches a file that was there. *)
  Lemma wget_names w rows : forall fs o, In o (fst (wget_fromurl w rows fs)) -> dget fs (opname o) = None.
  Proof.
    induction rows as [|row rows IH]; intros fs o; cbn [wget_fromurl]; [intros []|].
    destruct (row_url row) as [u|e]; [|intros []]. destruct (dmem fs (basename u)) eqn:EM; [apply IH|].
    destruct (String.eqb (basename u) "") eqn:EB; [intros []|].
    apply dmem_false in EM.
    assert (D : forall o, In o (fst (download w u (basename u))) -> opname o = basename u) by apply download_name.
    destruct (download w u (basename u)) as [ops [|e]] eqn:ED; cbn [fst] in D.
    - specialize (IH (apply_ops ops fs)). destruct (wget_fromurl w rows (apply_ops ops fs)) as [ops' r']. cbn [fst] in *.
      intro Q. apply in_app_or in Q. destruct Q as [Q|Q].
      + now rewrite (D o Q).
      + specialize (IH o Q). destruct (String.eqb_spec (opname o) (basename u)) as [->|N]; [exact EM|].
        rewrite ops_other in IH; auto. intros o' Q'. rewrite (D o' Q'). congruence.
    - cbn [fst]. intro Q. now rewrite (D o Q).
  Qed.
  Lemma wget_safe : forall w rows fs k name c,
    dget fs name = Some c -> dget (apply_ops (firstn k (fst (wget_fromurl w rows fs))) fs) name = Some c.
  Proof.
    intros w rows fs k name c E. rewrite ops_other; [exact E|]. intros o Q. apply In_firstn' in Q. apply wget_names in Q. congruence.
  Qed.

  Lemma served_cons_other w row rows fs fs' name c u n : asks_for row u n -> n <> name -> dget fs' name = dget fs name ->
    served w rows (dget fs') name c -> served w (row :: rows) (dget fs) name c.
  Proof.
    unfold served. intros A N E. rewrite E. destruct (dget fs name); [auto|]. intros [(u' & bs & (l1 & x & l2 & -> & AX & NX) & W & ->)|[NX ->]].
    - left. exists u', bs. split; [|auto]. exists (row :: l1), x, l2. split; [reflexivity|]. split; [exact AX|]. intros y v [<-|Q]; [|now apply NX].
      intro AY. apply row_asks in A, AY. destruct A, AY. congruence.
    - right. split; [|reflexivity]. intros y v [<-|Q]; [|now apply NX]. intro AY. apply row_asks in A, AY. destruct A, AY. congruence.
  Qed.
  Lemma download_ok w u n ops : download w u n = (ops, Ok tt) -> exists bs, w u = Some (bs, true) /\ ops = Create n :: map (Append n) bs.
  Proof. unfold download. destruct (w u) as [[bs [|]]|]; intro E; try discriminate. exists bs. split; congruence. Qed.
  Lemma wget_value_ : forall w rows fs ops, wget_fromurl w rows fs = (ops, Ok tt) ->
    forall name, served w rows (dget fs) name (dget (apply_ops ops fs) name).
  Proof.
    intros w rows. induction rows as [|row rows IH]; intros fs ops; cbn [wget_fromurl].
    - intros E name. assert (ops = []) by congruence. subst. unfold served. cbn. destruct (dget fs name); auto. 
    - destruct (row_url row) as [u|e] eqn:EU; [|discriminate].
      assert (A : asks_for row u (basename u)) by now apply row_asks.
      destruct (dmem fs (basename u)) eqn:EM.
      + intros E name. destruct (String.eqb_spec (basename u) name) as [<-|N].
        * apply dmem_true in EM. destruct EM as [c EC]. unfold served. rewrite EC.
          pose proof (wget_safe w rows fs (length ops) _ c EC) as Q. rewrite E in Q. cbn [fst] in Q. now rewrite firstn_all in Q.
        * apply (served_cons_other w row rows fs fs _ _ u (basename u)); auto.
      + destruct (String.eqb (basename u) "") eqn:EB; [discriminate|].
        destruct (download w u (basename u)) as [ops1 [|e]] eqn:ED; [|discriminate]. destruct a.
        destruct (wget_fromurl w rows (apply_ops ops1 fs)) as [ops2 r'] eqn:EW. intros E name.
        assert (E1 : ops = ops1 ++ ops2) by congruence. assert (E2 : r' = Ok tt) by congruence. subst.
        rewrite ops_app. specialize (IH _ _ EW). apply download_ok in ED. destruct ED as (bs & WU & ->).
        destruct (String.eqb_spec (basename u) name) as [<-|N].
        * apply dmem_false in EM. unfold served. rewrite EM. left. exists u, bs. split; [exists [], row, rows; split; [reflexivity|]; split; [exact A|]; intros ? ? []|].
          split; [exact WU|].
          specialize (IH (basename u)). unfold served in IH.
          assert (EC : dget (apply_ops (Create (basename u) :: map (Append (basename u)) bs) fs) (basename u) = Some bs).
          { pose proof (file_content (basename u) bs (S (length bs)) fs) as Q. cbn [firstn] in Q. rewrite firstn_map, !firstn_all in Q. exact Q. }
          rewrite EC in IH. exact IH.
        * apply (served_cons_other w row rows fs (apply_ops (Create (basename u) :: map (Append (basename u)) bs) fs) _ _ u (basename u)); auto.
          apply ops_other. intros o Q. apply file_opname in Q. congruence.
  Qed.
  Lemma servable_tail w row rows fs fs' u : asks_for row u (basename u) ->
    (forall n, n <> basename u -> dget fs' n = dget fs n) -> dget fs' (basename u) <> None ->
    servable w rows (dget fs') <-> (forall l1 line l2, rows = l1 ++ line :: l2 -> exists u name, asks_for line u name /\
      (dget fs name <> None \/ (exists x u', In x (row :: l1) /\ asks_for x u' name) \/ name <> EmptyString /\ exists bs, w u = Some (bs, true))).
  Proof.
    intros A HF HN. unfold servable. split; intros HS l1 line l2 E; destruct (HS l1 line l2 E) as (v & n & AL & C); exists v, n; (split; [exact AL|]).
    - destruct (String.eqb_spec n (basename u)) as [->|N].
      + right. left. exists row, u. split; [now left|exact A].
      + rewrite HF in C by exact N. destruct C as [C|[(x & u' & I & Q)|C]]; auto. right. left. exists x, u'. split; [now right|exact Q].
    - destruct (String.eqb_spec n (basename u)) as [->|N].
      + now left.
      + rewrite HF by exact N. destruct C as [C|[(x & u' & [<-|I] & Q)|C]]; auto.
        * exfalso. apply row_asks in A, Q. destruct A, Q. congruence.
        * right. left. eauto.
  Qed.
  Lemma servable_cons w row rows fs :
    servable w (row :: rows) (dget fs) <-> (exists u name, asks_for row u name /\ (dget fs name <> None \/ name <> EmptyString /\ exists bs, w u = Some (bs, true))) /\
      (forall l1 line l2, rows = l1 ++ line :: l2 -> exists u name, asks_for line u name /\
      (dget fs name <> None \/ (exists x u', In x (row :: l1) /\ asks_for x u' name) \/ name <> EmptyString /\ exists bs, w u = Some (bs, true))).
  Proof.
    unfold servable. split.
    - intro HS. split.
      + destruct (HS [] row rows eq_refl) as (u & n & A & [C|[(x & _ & [] & _)|C]]); exists u, n; auto.
      + intros l1 line l2 ->. exact (HS (row :: l1) line l2 eq_refl).
    - intros [H1 H2] [|x l1] line l2 E; cbn in E.
      + assert (row = line) by congruence. subst. destruct H1 as (u & n & A & C). exists u, n. split; [exact A|]. tauto.
      + assert (row = x) by congruence. subst. assert (E2 : rows = l1 ++ line :: l2) by congruence. exact (H2 l1 line l2 E2).
  Qed.
  Lemma wget_ok_ : forall w rows fs, snd (wget_fromurl w rows fs) = Ok tt <-> servable w rows (dget fs).
  Proof.
    intros w rows. induction rows as [|row rows IH]; intros fs; cbn [wget_fromurl].
    - split; [|reflexivity]. intros _ l1 line l2 E. destruct l1; discriminate.
    - rewrite servable_cons. destruct (row_url row) as [u|e] eqn:EU.
      2:{ cbn [snd]. split; [discriminate|]. intros [(u & n & A & _) _]. apply row_asks in A. destruct A. congruence. }
      assert (A : asks_for row u (basename u)) by now apply row_asks.
      assert (AU : forall v n, asks_for row v n -> v = u /\ n = basename u).
      { intros v n Q. apply row_asks in Q. destruct Q. split; congruence. }
      destruct (dmem fs (basename u)) eqn:EM.
      + apply dmem_true in EM. destruct EM as [c EC]. rewrite IH. rewrite (servable_tail w row rows fs fs u A); [|auto|congruence].
        split; [|tauto]. intro H. split; [|exact H]. exists u, (basename u). split; [exact A|]. left. congruence.
      + apply dmem_false in EM. destruct (String.eqb_spec (basename u) "") as [EB|NB].
        { cbn [snd]. split; [discriminate|]. intros [(v & n & Q & C) _]. apply AU in Q. destruct Q as [-> ->]. destruct C as [C|[C _]]; congruence. }
        destruct (download w u (basename u)) as [ops [[]|e]] eqn:ED.
        * apply download_ok in ED. destruct ED as (bs & WU & EO).
          destruct (wget_fromurl w rows (apply_ops ops fs)) as [ops' r'] eqn:EW. cbn [snd].
          replace r' with (snd (wget_fromurl w rows (apply_ops ops fs))) by now rewrite EW. rewrite IH.
          rewrite (servable_tail w row rows fs _ u A).
          -- split; [|tauto]. intro H. split; [|exact H]. exists u, (basename u). split; [exact A|]. right. eauto.
          -- intros n N. subst ops. apply ops_other. intros o Q. apply file_opname in Q. congruence.
          -- subst ops. pose proof (file_content (basename u) bs (S (length bs)) fs) as Q. cbn [firstn] in Q. rewrite firstn_map, !firstn_all in Q. congruence.
        * cbn [snd]. split; [discriminate|]. intros [(v & n & Q & C) _]. apply AU in Q. destruct Q as [-> ->].
          destruct C as [C|[_ [bs W]]]; [congruence|]. unfold download in ED. rewrite W in ED. discriminate.
  Qed.
  Lemma wget_all_there : forall w rows fs, (forall x, In x rows -> exists u n, asks_for x u n /\ dget fs n <> None) -> wget_fromurl w rows fs = ([], Ok tt).
  Proof.
    intros w rows fs. induction rows as [|row rows IH]; intro HA; [reflexivity|]. cbn [wget_fromurl].
    destruct (HA row (or_introl eq_refl)) as (u & n & A & D). apply row_asks in A. destruct A as [-> ->].
    destruct (dmem fs (basename u)) eqn:EM; [|apply dmem_false in EM; contradiction]. apply IH. intros; apply HA. now right.
  Qed.
  Lemma wget_lines w rows fs ops : wget_fromurl w rows fs = (ops, Ok tt) -> forall x, In x rows -> exists u n, asks_for x u n /\ dget (apply_ops ops fs) n <> None.
  Proof.
    intros E x I. assert (SV : servable w rows (dget fs)) by (apply wget_ok_; now rewrite E).
    apply in_split in I. destruct I as (l1 & l2 & ER). destruct (SV l1 x l2 ER) as (u & n & A & _). exists u, n. split; [exact A|].
    pose proof (wget_value_ w rows fs ops E n) as V. unfold served in V. destruct (dget fs n); [congruence|].
    destruct V as [(u' & bs & _ & _ & ->)|[NX _]]; [discriminate|]. exfalso. apply (NX x u); auto. rewrite ER. apply in_or_app. right. now left.
  Qed.
  Lemma wget_cat w r1 r2 : forall fs ops, wget_fromurl w r1 fs = (ops, Ok tt) ->
    wget_fromurl w (r1 ++ r2) fs = (ops ++ fst (wget_fromurl w r2 (apply_ops ops fs)), snd (wget_fromurl w r2 (apply_ops ops fs))).
  Proof.
    induction r1 as [|row r1 IH]; intros fs ops; cbn [wget_fromurl app].
    - intro E. assert (ops = []) by congruence. subst. cbn [app apply_ops fold_left]. apply surjective_pairing.
    - destruct (row_url row) as [u|e]; [|discriminate]. destruct (dmem fs (basename u)); [apply IH|].
      destruct (String.eqb (basename u) ""); [discriminate|].
      destruct (download w u (basename u)) as [o1 [a|e]]; [|discriminate].
      destruct (wget_fromurl w r1 (apply_ops o1 fs)) as [o2 r'] eqn:EW. intro E.
      assert (E1 : ops = o1 ++ o2) by congruence. assert (E2 : r' = Ok tt) by congruence. subst.
      rewrite (IH _ _ EW). rewrite ops_app, <- app_assoc. reflexivity.
  Qed.
  Lemma wget_cat_there w r1 r2 fs : (forall x, In x r1 -> exists u n, asks_for x u n /\ dget fs n <> None) ->
    wget_fromurl w (r1 ++ r2) fs = wget_fromurl w r2 fs.
  Proof. intro HA. rewrite (wget_cat w r1 r2 fs []); [symmetry; apply surjective_pairing|]. now apply wget_all_there. Qed.
  (** Every prefix: files are untouched, absent or begun; at most one is incomplete. *)
  Lemma wget_crash_ : forall w rows fs k, exists partial, forall name,
    dget fs name = None ->
    let c := dget (apply_ops (firstn k (fst (wget_fromurl w rows fs))) fs) name in
    c = None \/ exists u bs full, first_ask rows name u /\ w u = Some (bs, full) /\
      (c = Some bs /\ full = true \/ name = partial /\ exists j, c = Some (firstn j bs)).
  Proof.
    intros w rows. induction rows as [|row rows IH]; intros fs k; cbn [wget_fromurl].
    { exists EmptyString. intros name E. left. destruct k; exact E. }
    destruct (row_url row) as [u|e] eqn:EU.
    2:{ exists EmptyString. intros name E. left. destruct k; exact E. }
    assert (A : asks_for row u (basename u)) by now apply row_asks.
    assert (FO : forall name v, name <> basename u -> first_ask rows name v -> first_ask (row :: rows) name v).
    { intros name v N (l1 & x & l2 & -> & AX & NX). exists (row :: l1), x, l2. split; [reflexivity|]. split; [exact AX|].
      intros y z [<-|Q]; [|now apply NX]. intro AY. apply row_asks in A, AY. destruct A, AY. congruence. }
    destruct (dmem fs (basename u)) eqn:EM.
    { destruct (IH fs k) as [p HP]. exists p. intros name EN. destruct (HP name EN) as [Q|(v & bs & full & FA & R)]; [now left|]. right. exists v, bs, full.
      split; [|exact R]. apply FO; [|exact FA]. intros ->. apply dmem_true in EM. destruct EM. congruence. }
    apply dmem_false in EM. destruct (String.eqb (basename u) "") eqn:EB.
    { exists EmptyString. intros name E. left. destruct k; exact E. }
    assert (FU : first_ask (row :: rows) (basename u) u).
    { exists [], row, rows. split; [reflexivity|]. split; [exact A|]. intros ? ? []. }
    destruct (download w u (basename u)) as [ops r] eqn:ED. pose proof ED as ED'. unfold download in ED. destruct (w u) as [[bs full]|] eqn:EW.
    2:{ assert (ops = []) by congruence. assert (r = Err OtherError) by congruence. subst. cbn [fst]. exists EmptyString. intros name E. left. destruct k; exact E. }
    assert (EO : ops = Create (basename u) :: map (Append (basename u)) bs) by congruence. 
    assert (FIRST : forall j name, dget fs name = None -> dget (apply_ops (firstn j ops) fs) name = None \/
        exists v bs0 full0, first_ask (row :: rows) name v /\ w v = Some (bs0, full0) /\
        (dget (apply_ops (firstn j ops) fs) name = Some bs0 /\ full0 = true \/ name = basename u /\ exists i, dget (apply_ops (firstn j ops) fs) name = Some (firstn i bs0))).
    { intros j name EN. destruct (String.eqb_spec name (basename u)) as [->|N].
      - rewrite EO, file_content. destruct j as [|j]; [now left|]. right. exists u, bs, full. split; [exact FU|]. split; [exact EW|]. right. split; [reflexivity|]. eauto.
      - left. rewrite ops_other; [exact EN|]. intros o Q. apply In_firstn' in Q. rewrite EO in Q. apply file_opname in Q. congruence. }
    destruct r as [[]|e]; cbn [fst].
    2:{ exists (basename u). intros name EN. apply FIRST. exact EN. }
    assert (full = true) by (destruct full; [reflexivity|congruence]). subst full.
    assert (EC : dget (apply_ops ops fs) (basename u) = Some bs).
    { rewrite EO. pose proof (file_content (basename u) bs (S (length bs)) fs) as Q. cbn [firstn] in Q. rewrite firstn_map, !firstn_all in Q. exact Q. }
    destruct (wget_fromurl w rows (apply_ops ops fs)) as [ops2 r2] eqn:EW2. cbn [fst].
    destruct (Nat.le_gt_cases k (length ops)) as [L|L].
    - exists (basename u). intros name EN. cbv zeta. rewrite firstn_app. replace (k - length ops) with 0 by lia. cbn [firstn]. rewrite app_nil_r. now apply FIRST.
    - destruct (IH (apply_ops ops fs) (k - length ops)) as [p HP]. rewrite EW2 in HP. cbn [fst] in HP. exists p. intros name EN. cbv zeta.
      rewrite firstn_app, firstn_all2, ops_app by lia.
      destruct (String.eqb_spec name (basename u)) as [->|N].
      + right. exists u, bs, true. split; [exact FU|]. split; [exact EW|]. left. split; [|reflexivity].
        pose proof (wget_safe w rows (apply_ops ops fs) (k - length ops) _ _ EC) as Q. rewrite EW2 in Q. exact Q.
      + assert (EN' : dget (apply_ops ops fs) name = None).
        { rewrite ops_other; [exact EN|]. intros o Q. rewrite EO in Q. apply file_opname in Q. congruence. }
        destruct (HP name EN') as [Q|(v & bs0 & full0 & FA & R)]; [now left|]. right. exists v, bs0, full0. split; [|exact R]. now apply FO.
  Qed.
End W.

(*@ C81 A run succeeds exactly when every line asks for a file that is there, was asked for before, or can be downloaded. *)
Lemma wget_ok : forall {B} (w : @web B) lines fs, snd (wget_fromurl w lines fs) = Ok tt <-> servable w lines (dget fs).
Proof. intros B w lines fs. apply wget_ok_. Qed.
(*@ C81 A run that succeeds leaves every file that was there as it was and every other listed file with the whole content of the
    first URL listed under its name, and creates nothing else. *)
Lemma wget_complete : forall {B} (w : @web B) lines fs ops,
  wget_fromurl w lines fs = (ops, Ok tt) -> forall name, served w lines (dget fs) name (dget (apply_ops ops fs) name).
Proof. intros B w lines fs ops. apply wget_value_. Qed.
(*@ C81 After a run that succeeds, every line's file is there and running again performs no operation, whatever is served then. *)
Lemma wget_again : forall {B} (w w' : @web B) lines fs ops,
  wget_fromurl w lines fs = (ops, Ok tt) ->
  (forall line, In line lines -> exists url name, asks_for line url name /\ dget (apply_ops ops fs) name <> None) /\
  wget_fromurl w' lines (apply_ops ops fs) = ([], Ok tt).
Proof. intros B w w' lines fs ops E. pose proof (wget_lines w lines fs ops E) as Q. split; [exact Q|]. now apply wget_all_there. Qed.
(*@ C81 At no point of any history of runs, whatever is served and wherever each run is stopped, is a file overwritten that was there;
    in particular a truncated file is never repaired. *)
Lemma wget_never_overwrites : forall {B} (history : list (@web B * list string * nat)) fs name blocks,
  dget fs name = Some blocks ->
  dget (fold_left (fun fs '(w, lines, k) => apply_ops (firstn k (fst (wget_fromurl w lines fs))) fs) history fs) name = Some blocks.
Proof.
  intros B history. induction history as [|[[w rows] k] h IH]; intros fs name c E; [exact E|]. cbn [fold_left]. apply IH. now apply wget_safe.
Qed.
(*@ C81 Wherever a run stops, each file that was not there is still absent or holds an initial part of what its first URL serves,
    and at most one file is incomplete. *)
Lemma wget_crash : forall {B} (w : @web B) lines fs k, exists incomplete, forall name,
  dget fs name = None ->
  let found := dget (apply_ops (firstn k (fst (wget_fromurl w lines fs))) fs) name in
  found = None \/ exists url blocks full, first_ask lines name url /\ w url = Some (blocks, full) /\
    (found = Some blocks /\ full = true \/ name = incomplete /\ exists j, found = Some (firstn j blocks)).
Proof. intros B w lines fs k. apply wget_crash_. Qed.
(*@ C81 Stopping between two lines loses nothing: the second run does exactly what the first had left to do. *)
Lemma wget_resume : forall {B} (w : @web B) lines1 lines2 fs ops,
  wget_fromurl w lines1 fs = (ops, Ok tt) ->
  let rest := wget_fromurl w (lines1 ++ lines2) (apply_ops ops fs) in
  wget_fromurl w (lines1 ++ lines2) fs = (ops ++ fst rest, snd rest).
Proof.
  intros B w r1 r2 fs ops E. cbv zeta. rewrite (wget_cat_there w r1 r2 (apply_ops ops fs)); [now apply wget_cat|]. now apply (wget_lines w r1 fs ops).
Qed.
(*@ C81 The failure of a run: a blank line raises IndexError; an unnamed or unavailable file raises the download's error. *)
Lemma wget_fails : forall {B} (w : @web B) lines1 line lines2 fs ops,
  wget_fromurl w lines1 fs = (ops, Ok tt) ->
  (blank_line line -> wget_fromurl w (lines1 ++ line :: lines2) fs = (ops, Err IndexError)) /\
  (forall url name, asks_for line url name -> dget (apply_ops ops fs) name = None ->
     (name = EmptyString \/ w url = None -> wget_fromurl w (lines1 ++ line :: lines2) fs = (ops, Err OtherError)) /\
     (forall blocks, name <> EmptyString -> w url = Some (blocks, false) ->
        snd (wget_fromurl w (lines1 ++ line :: lines2) fs) = Err OtherError /\
        dget (apply_ops (fst (wget_fromurl w (lines1 ++ line :: lines2) fs)) fs) name = Some blocks)).
Proof.
  intros B w r1 line r2 fs ops E. rewrite (wget_cat w r1 (line :: r2) fs ops E). cbn [fst snd wget_fromurl]. split.
  - intro BL. destruct (row_url_spec line) as [[-> _]|(u & _ & HW)]; [cbn [fst snd]; now rewrite app_nil_r|]. exfalso. revert HW. now apply blank_no_word.
  - intros u n A EN. apply row_asks in A. destruct A as [-> ->]. rewrite (proj2 (dmem_false _ _) EN). split.
    + intros C. destruct (String.eqb_spec (basename u) ""); [cbn [fst snd]; now rewrite app_nil_r|]. destruct C as [C|C]; [contradiction|].
      unfold download. rewrite C. cbn [fst snd]. now rewrite app_nil_r.
    + intros bs NE W. destruct (String.eqb_spec (basename u) ""); [contradiction|]. unfold download. rewrite W. cbn [fst snd]. split; [reflexivity|].
      rewrite ops_app. pose proof (file_content (basename u) bs (S (length bs)) (apply_ops ops fs)) as Q. cbn [firstn] in Q. rewrite firstn_map, !firstn_all in Q. exact Q.
Qed.
(** A web of one file of two blocks. *)
Definition demo_web : @web nat := fun u => if String.eqb u "http://x/y/a.nc" then Some ([1; 2], true) else None.
Definition demo_lines : list string := ["wget -c http://x/y/a.nc "]%string.
(*@ C81 The truncated file: there is a script and a crash point after which every complete re-run reports success, performs nothing and
    leaves half of what is served. *)
Lemma wget_truncated_refuted : exists (w : @web nat) lines k,
  let fs := apply_ops (firstn k (fst (wget_fromurl w lines []))) [] in
  wget_fromurl w lines fs = ([], Ok tt) /\ dget fs "a.nc"%string = Some [1] /\
  asks_for (nth 0 lines EmptyString) "http://x/y/a.nc" "a.nc" /\ w "http://x/y/a.nc"%string = Some ([1; 2], true).
Proof. exists demo_web, demo_lines, 2. cbv zeta. split; [reflexivity|]. split; [reflexivity|]. split; [|reflexivity]. now apply row_asks. Qed.
(*@ex C81 *)
Lemma wget_ex :
  wget_fromurl demo_web demo_lines [] = ([Create "a.nc"; Append "a.nc" 1; Append "a.nc" 2]%string, Ok tt) /\
  servable demo_web demo_lines (dget []) /\ (wget_fromurl demo_web ("" :: demo_lines) [] = ([], Err IndexError))%string.
Proof. split; [reflexivity|]. split; [|reflexivity]. now apply wget_ok_. Qed.
