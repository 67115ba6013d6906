(** Lemmas about grids and site placement. *)
From Coq Require Import String.
From Verif Require Import Prelude PreludeFacts RealBase Fl RealStat Dft Phase M_spatial M_cmv M_signal_corr M_signal_tf M_signal_plant Spec_plant P_list P_welch.
From Coq Require Import Lra Psatz Permutation.
Local Open Scope R_scope.

Lemma ceil_nat_lt x i : (i < ceil_nat x)%nat <-> INR i < x.
Proof.
  unfold ceil_nat. set (z := Int_part (- x)). destruct (base_Int_part (- x)) as [A B]. fold z in A, B.
  rewrite INR_IZR_INZ. split; intro H.
  - assert (L : (Z.of_nat i < - z)%Z) by lia. assert (L' : (Z.of_nat i <= - z - 1)%Z) by lia. apply IZR_le in L'. rewrite minus_IZR, opp_IZR in L'. lra.
  - assert (L : IZR (Z.of_nat i) < IZR (- z)) by (rewrite opp_IZR; lra). apply lt_IZR in L. lia.
Qed.

Lemma arange_nth a b d i x : d <> 0 ->
  nth_error (map (fun i => a + INR i * d) (seq 0 (ceil_nat ((b - a) / d)))) i = Some x <->
  x = a + INR i * d /\ (0 < d /\ x < b \/ d < 0 /\ b < x).
Proof.
  intro P. rewrite nth_error_map.
  assert (Q : INR i < (b - a) / d <-> (0 < d /\ a + INR i * d < b \/ d < 0 /\ b < a + INR i * d)).
  { assert (K : (b - a) / d * d = b - a) by (field; exact P).
    set (q := (b - a) / d) in *. split; intro H.
    - destruct (Rtotal_order d 0) as [D|[D|D]]; [right|now contradict P|left]; split; auto; nra.
    - destruct H as [[D H]|[D H]]; nra. }
  pose proof (ceil_nat_lt ((b - a) / d) i) as L. split.
  - intro H. destruct (nth_error (seq 0 _) i) as [j|] eqn:E; [|discriminate]. cbn in H. injection H as <-.
    assert (Hi : (i < ceil_nat ((b - a) / d))%nat) by (rewrite <- (seq_length (ceil_nat ((b - a) / d)) 0); apply nth_error_Some; congruence).
    rewrite nth_error_seq in E by exact Hi. injection E as <-. split; [reflexivity|]. apply Q, L, Hi.
  - intros [-> H]. rewrite nth_error_seq by (apply L, Q, H). reflexivity.
Qed.

Lemma arange_grid dx xmax : dx <> 0 ->
  exists xs, arange (half_floor (- xmax)) (half_floor xmax) dx = Ok xs /\ site_grid dx xmax xs.
Proof.
  intro P. unfold arange. rewrite Reqb_false by exact P. eexists. split; [reflexivity|].
  exists (Int_part (- xmax / 2)), (Int_part (xmax / 2)).
  destruct (base_Int_part (- xmax / 2)) as [A B]. destruct (base_Int_part (xmax / 2)) as [A' B'].
  split; [lra|]. split; [lra|]. intros i x. now apply arange_nth.
Qed.

Section Place.
  Variable xs : list R.
  Variable place : list (option R) -> option R -> list (option R).
  Variable g : option R -> R -> option R -> option R.
  Definition pointwise : Prop := forall pl c, length pl = length xs ->
    length (place pl c) = length xs /\
    forall i x p, nth_error xs i = Some x -> nth_error pl i = Some p -> nth_error (place pl c) i = Some (g c x p).
  Lemma fold_place : pointwise -> forall cs pl, length pl = length xs ->
    length (fold_left place cs pl) = length xs /\
    forall i x p, nth_error xs i = Some x -> nth_error pl i = Some p ->
      nth_error (fold_left place cs pl) i = Some (fold_left (fun p c => g c x p) cs p).
  Proof.
    intro PW. induction cs as [|c cs IH]; intros pl L; [split; auto|]. cbn [fold_left].
    destruct (PW pl c L) as [L1 N1]. destruct (IH _ L1) as [L2 N2]. split; [exact L2|]. intros i x p Hx Hp. apply N2; auto.
  Qed.
End Place.

Lemma map2_place {A B} (f : R -> A -> B) xs pl i x p : nth_error xs i = Some x -> nth_error pl i = Some p ->
  nth_error (map2 f xs pl) i = Some (f x p).
Proof. intros Hx Hp. rewrite nth_error_map2. now rewrite Hx, Hp. Qed.

Definition square_at (w : R) (c : option R) (x : R) (p : option R) : option R :=
  match c with None => p | Some c => if in_window w c x then Some 1 else p end.
Definition triangle_at (w : R) (c : option R) (x : R) (p : option R) : option R :=
  match c with None => p | Some c => if in_window w c x then Some (x - c + w / 2) else p end.
Definition gaussian_at (w : R) (c : option R) (x : R) (p : option R) : option R :=
  match p, bump w c x with Some a, Some b => Some (a + b) | _, _ => None end.
Lemma square_pw w xs : pointwise xs (place_square w xs) (square_at w).
Proof.
  intros pl [c|] L; cbn [place_square square_at]; [|auto]. split; [rewrite map2_length; auto|].
  intros i x p Hx Hp. now rewrite (map2_place _ _ _ _ _ _ Hx Hp).
Qed.
Lemma triangle_pw w xs : pointwise xs (place_triangle w xs) (triangle_at w).
Proof.
  intros pl [c|] L; cbn [place_triangle triangle_at]; [|auto]. split; [rewrite map2_length; auto|].
  intros i x p Hx Hp. now rewrite (map2_place _ _ _ _ _ _ Hx Hp).
Qed.
Lemma gaussian_pw w xs : pointwise xs (place_gaussian w xs) (gaussian_at w).
Proof.
  intros pl c L. unfold place_gaussian. split; [rewrite map2_length; auto|].
  intros i x p Hx Hp. now rewrite (map2_place _ _ _ _ _ _ Hx Hp).
Qed.

Lemma in_window_spec w c x : in_window w c x = true <-> reaches w c x.
Proof. unfold in_window, reaches. destruct (Rleb_spec (c - w / 2) x), (Rltb_spec x (c + w / 2)); cbn; split; intro; try discriminate; auto; lra. Qed.

(** The three shapes at one point, with centers relative to [ref]. *)
Lemma square_fold w ref x : forall cs p,
  (covered w ref cs x /\ fold_left (fun p c => square_at w c x p) (map (option_map (fun c => c - ref)) cs) p = Some 1) \/
  (~ covered w ref cs x /\ fold_left (fun p c => square_at w c x p) (map (option_map (fun c => c - ref)) cs) p = p).
Proof.
  induction cs as [|c cs IH]; intro p; [right; split; [intros (c & [] & _)|reflexivity]|].
  cbn [map fold_left]. destruct c as [c|]; cbn [option_map square_at].
  - destruct (in_window w (c - ref) x) eqn:E.
    + left. apply in_window_spec in E. split; [exists c; split; [now left|exact E]|].
      destruct (IH (Some 1)) as [[_ H]|[_ H]]; exact H.
    + destruct (IH p) as [[(d & Hd & Rd) H]|[N H]]; [left; split; [exists d; split; [now right|exact Rd]|exact H]|].
      right. split; [|exact H]. intros (d & [Ed|Hd] & Rd).
      * injection Ed as ->. apply in_window_spec in Rd. congruence.
      * apply N. exists d. auto.
  - destruct (IH p) as [[(d & Hd & Rd) H]|[N H]]; [left; split; [exists d; split; [now right|exact Rd]|exact H]|].
    right. split; [|exact H]. intros (d & [Ed|Hd] & Rd); [discriminate|]. apply N. exists d. auto.
Qed.

Lemma triangle_fold w ref x : forall cs p,
  (exists pre c post, cs = pre ++ Some c :: post /\ reaches w (c - ref) x /\ ~ covered w ref post x /\
     fold_left (fun p c => triangle_at w c x p) (map (option_map (fun c => c - ref)) cs) p = Some (x - (c - ref) + w / 2)) \/
  (~ covered w ref cs x /\ fold_left (fun p c => triangle_at w c x p) (map (option_map (fun c => c - ref)) cs) p = p).
Proof.
  induction cs as [|c cs IH]; intro p; [right; split; [intros (c & [] & _)|reflexivity]|].
  cbn [map fold_left]. set (p' := triangle_at w (option_map (fun c => c - ref) c) x p).
  destruct (IH p') as [(pre & d & post & -> & Rd & Nd & H)|[N H]].
  - left. exists (c :: pre), d, post. auto.
  - destruct c as [c|].
    + unfold p' in *. cbn [option_map triangle_at] in *. destruct (in_window w (c - ref) x) eqn:E.
      * apply in_window_spec in E. left. exists [], c, cs. auto.
      * right. split; [|exact H]. intros (d & [Ed|Hd] & Rd).
        -- injection Ed as ->. apply in_window_spec in Rd. congruence.
        -- apply N. exists d. auto.
    + right. split; [|exact H]. intros (d & [Ed|Hd] & Rd); [discriminate|]. apply N. exists d. auto.
Qed.

Lemma bump_gauss w c x : w <> 0 -> bump w (Some c) x = Some (gauss w (x - c)).
Proof. intro N. unfold bump, gauss. rewrite Reqb_false by exact N. do 2 f_equal. field. split; [exact N|lra]. Qed.

Lemma gaussian_fold w ref x : w <> 0 -> forall cs a,
  fold_left (fun p c => gaussian_at w c x p) (map (option_map (fun c => c - ref)) (map Some cs)) (Some a) =
  Some (a + Rsum (map (fun c => gauss w (x - (c - ref))) cs)).
Proof.
  intros N cs. induction cs as [|c cs IH]; intro a; [cbn; now rewrite Rplus_0_r|].
  cbn [map fold_left option_map]. unfold gaussian_at at 2. rewrite bump_gauss by exact N. rewrite IH, Rsum_cons. f_equal. ring.
Qed.

Lemma gaussian_nan w x : forall cs, fold_left (fun p c => gaussian_at w c x p) cs None = None.
Proof. induction cs as [|c cs IH]; [reflexivity|]. cbn [fold_left]. exact IH. Qed.
Lemma gaussian_nan_in w x : forall cs p, In None cs -> fold_left (fun p c => gaussian_at w c x p) cs p = None.
Proof.
  induction cs as [|c cs IH]; intros p I; [destruct I|]. cbn [fold_left]. destruct I as [->|I]; [|now apply IH].
  replace (gaussian_at w None x p) with (@None R) by (destruct p; reflexivity). apply gaussian_nan.
Qed.
