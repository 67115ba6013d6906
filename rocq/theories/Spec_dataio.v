(** Vocabulary for the file, download and cleaning properties, independent of the model. *)
From Coq Require Import String Ascii Reals Arith ZArith List Sorting.Sorted Sorting.Permutation.
Import ListNotations.

(** ** Names *)
Definition letters (s : string) : list ascii := list_ascii_of_string s.
Definition lacks (c : ascii) (s : string) : Prop := ~ In c (letters s).
(** [base] is what follows the last slash of [path]. *)
Definition last_part (path base : string) : Prop :=
  lacks "/" base /\ (path = base \/ exists dir, path = (dir ++ "/" ++ base)%string).
(** [name] is [stem].[s], where s has no dot and no slash and the file name in the stem does not consist of dots only. *)
Definition dotted (name stem s : string) : Prop :=
  name = (stem ++ "." ++ s)%string /\ lacks "." s /\ lacks "/" s /\
  exists base, last_part stem base /\ exists c, In c (letters base) /\ c <> "."%char.
(** The extension of a name, with its dot; empty if there is none. *)
Definition extension (name e : string) : Prop :=
  (exists stem s, dotted name stem s /\ e = ("." ++ s)%string) \/ ((forall stem s, ~ dotted name stem s) /\ e = EmptyString).

(** Whitespace: tab, line feed, vertical tab, form feed, carriage return, the four information separators and space. *)
Definition white (c : ascii) : Prop := In (nat_of_ascii c) [9; 10; 11; 12; 13; 28; 29; 30; 31; 32]%nat.
(** The last word of a line. *)
Definition last_word (line w : string) : Prop :=
  exists before after, line = (before ++ w ++ after)%string /\ w <> EmptyString /\ (forall c, In c (letters w) -> ~ white c) /\
    (forall c, In c (letters after) -> white c) /\
    (before = EmptyString \/ exists b c, before = (b ++ String c EmptyString)%string /\ white c).
Definition blank_line (line : string) : Prop := forall c, In c (letters line) -> white c.
(** The file a line of the script asks for. *)
Definition asks_for (line url name : string) : Prop := last_word line url /\ last_part url name.
(** The first line asking for a file of this name asks for this URL. *)
Definition first_ask (lines : list string) (name url : string) : Prop :=
  exists l1 line l2, lines = l1 ++ line :: l2 /\ asks_for line url name /\ forall x u, In x l1 -> ~ asks_for x u name.

(** ** Downloads. [old] gives the blocks of each file already there; [w] what each URL serves, and whether it is served to the end. *)
Section Downloads.
  Context {B : Type} (w : string -> option (list B * bool)) (lines : list string) (old : string -> option (list B)).
  (** Every line asks for a file that is there, is asked for by an earlier line, or has a name and is served to the end. *)
  Definition servable : Prop :=
    forall l1 line l2, lines = l1 ++ line :: l2 -> exists url name, asks_for line url name /\
      (old name <> None \/ (exists x u, In x l1 /\ asks_for x u name) \/ name <> EmptyString /\ exists blocks, w url = Some (blocks, true)).
  (** A complete result holds c under this name: what was there before, else what the first line asking for it asks for, else nothing. *)
  Definition served (name : string) (c : option (list B)) : Prop :=
    match old name with
    | Some blocks => c = Some blocks
    | None => (exists url blocks, first_ask lines name url /\ w url = Some (blocks, true) /\ c = Some blocks) \/
              ((forall x url, In x lines -> ~ asks_for x url name) /\ c = None)
    end.
End Downloads.

(** ** Gaps in a column; None is a missing value *)
Definition present (l : list (option R)) (i : nat) (v : R) : Prop := nth_error l i = Some (Some v).
Definition missing (l : list (option R)) (i : nat) : Prop := nth_error l i = Some None.
(** i lies in the gap between the present neighbours p and q. *)
Definition in_gap (l : list (option R)) (p q i : nat) : Prop :=
  p < i < q /\ (exists a, present l p a) /\ (exists b, present l q b) /\ forall j, p < j < q -> missing l j.
(** Before the first present value or after the last. *)
Definition in_lead (l : list (option R)) (i : nat) : Prop := i < length l /\ forall j, j <= i -> missing l j.
Definition in_tail (l : list (option R)) (i : nat) : Prop := i < length l /\ forall j, i <= j < length l -> missing l j.
(** The straight line through (p,a) and (q,b). *)
Definition on_line (p q : nat) (a b : R) (i : nat) : R := (a + (b - a) * ((INR i - INR p) / (INR q - INR p)))%R.
(** Still missing when at most [limit] values after a present one may be filled. *)
Definition left_open (limit : nat) (l : list (option R)) (i : nat) : Prop :=
  in_lead l i \/ in_tail l i \/ exists p q, in_gap l p q i /\ p + limit < i.
(** The [limit] samples up to and including i (fewer at the start) are all still missing. *)
Definition long_open (limit : nat) (l : list (option R)) (i : nat) : Prop :=
  i < length l /\ forall j, j <= i -> i < j + limit -> left_open limit l j.
(** The position is blanked: it lies [limit] samples after or before such a run, and not within [limit] samples of either end. *)
Definition erased (limit : nat) (l : list (option R)) (j : nat) : Prop :=
  limit <= j /\ j + limit < length l /\ (long_open limit l (j - limit) \/ long_open limit l (j + limit)).

(** ** Tables *)
Definition entry {A} (t : list (list A)) (i j : nat) : option A :=
  match nth_error t i with Some r => nth_error r j | None => None end.
(** Same number of rows, and of values in each row. *)
Definition same_shape {A B} (t : list (list A)) (u : list (list B)) : Prop := map (@length A) t = map (@length B) u.

(** ** Text *)
Definition includes (text part : string) : Prop := exists a b, text = (a ++ part ++ b)%string.
(** The piece of a name between its first underscore and the next, or the end. *)
Definition second_piece (name w : string) : Prop :=
  lacks "_" w /\ exists a, lacks "_" a /\ (name = (a ++ "_" ++ w)%string \/ exists rest, name = (a ++ "_" ++ w ++ "_" ++ rest)%string).

(** ** Sampled values: the latest sample at or before t, None when there is none *)
Definition latest {V} (l : list (Z * option V)) (t : Z) (v : option V) : Prop :=
  (exists l1 s l2, l = l1 ++ (s, v) :: l2 /\ (s <= t)%Z /\ forall x, In x l2 -> (t < fst x)%Z) \/
  (v = None /\ forall x, In x l -> (t < fst x)%Z).
Definition increasing (ts : list Z) : Prop := forall i a b, nth_error ts i = Some a -> nth_error ts (S i) = Some b -> (a < b)%Z.
(** The value a series has at exactly this label, None when it has no such label. *)
Definition value_at {V} (l : list (Z * option V)) (t : Z) (v : option V) : Prop :=
  In (t, v) l \/ (v = None /\ ~ In t (map fst l)).
(** A table with one column per series, on the labels of the first. *)
Definition joined {V} (series : list (list (Z * option V))) (table : list (Z * list (option V))) : Prop :=
  match series with
  | [] => table = []
  | base :: _ => map fst table = map fst base /\
                 forall i t vs, nth_error table i = Some (t, vs) -> Forall2 (fun l v => value_at l t v) series vs
  end.
(** Multiples of 10 ms, in nanoseconds. *)
Definition ten_ms : Z := 10000000.
Definition on_grid (t : Z) : Prop := exists m, t = (m * ten_ms)%Z.
(** [s] is [r] with its rows in the order of their stamps, no two of which agree. *)
Definition in_time_order {V} (r s : list (Z * V)) : Prop := Permutation r s /\ StronglySorted (fun a b => (fst a < fst b)%Z) s.
(** Consecutive samples exactly 10 ms apart. *)
Definition every_ten_ms (ts : list Z) : Prop := forall i a b, nth_error ts i = Some a -> nth_error ts (S i) = Some b -> b = (a + ten_ms)%Z.
