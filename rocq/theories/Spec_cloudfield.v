(** Independent vocabulary for the cloud field module. *)
From Verif Require Import Prelude RealBase Fl RealStat Spec_stats Spec_copula M_cloudfield.
Local Open Scope R_scope.

(** What the random generator promises: the requested shape, values in [0, 1). *)
Definition generator (rnd : nat -> nat -> nat -> list (list R)) : Prop :=
  forall k a b, shaped a b (rnd k a b) /\ forall v, In v (concat (rnd k a b)) -> 0 <= v < 1.
(** All entries lie between [lo] and [hi]. *)
Definition within (lo hi : R) (m : list (list R)) : Prop := forall v, In v (concat m) -> lo <= v <= hi.
(** Straight-line blend. *)
Definition blend (t a b : R) : R := (1 - t) * a + t * b.
(** Non-negative weights summing to one. *)
Definition convex (ws : list R) : Prop := (forall w, In w ws -> 0 <= w) /\ Rsum ws = 1.
(** Number of pixels that satisfy a test. *)
Definition count {A} (f : A -> bool) (m : list (list A)) : nat := length (filter f (concat m)).
Definition n_pixels {A} (m : list (list A)) : R := INR (length (concat m)).
(** 1 up to the threshold, 0 above it. *)
Definition below (t v : R) : R := if Rleb v t then 1 else 0.

(** The nearest index inside 0 .. n-1. *)
Definition clamp (n : nat) (k : Z) : nat := Z.to_nat (Z.max 0 (Z.min k (Z.of_nat n - 1))).
(** [g di dj] is the value next to pixel (i, j) in direction (di, dj), borders repeated. *)
Definition around (m : list (list R)) (r c i j : nat) (g : Z -> Z -> R) : Prop :=
  forall di dj, (-1 <= di <= 1)%Z -> (-1 <= dj <= 1)%Z -> cell_at m (clamp r (Z.of_nat i + di)) (clamp c (Z.of_nat j + dj)) (g di dj).
(** Squared length of the gradient by Sobel's masks. *)
Definition gradient2 (g : Z -> Z -> R) : R :=
  ((g 1%Z (-1)%Z + 2 * g 1%Z 0%Z + g 1%Z 1%Z) - (g (-1)%Z (-1)%Z + 2 * g (-1)%Z 0%Z + g (-1)%Z 1%Z)) ^ 2 +
  ((g (-1)%Z 1%Z + 2 * g 0%Z 1%Z + g 1%Z 1%Z) - (g (-1)%Z (-1)%Z + 2 * g 0%Z (-1)%Z + g 1%Z (-1)%Z)) ^ 2.
(** Index [k] of the endless mirror image of 0 .. n-1 (borders repeated) shows entry [i]. *)
Definition mirrors (n : nat) (k : Z) (i : nat) : Prop :=
  (i < n)%nat /\ exists q : Z, (k = 2 * Z.of_nat n * q + Z.of_nat i \/ k = 2 * Z.of_nat n * q - 1 - Z.of_nat i)%Z.
(** The entries seen by a window of [size] by [size] around (i, j): offset (a, b) shows value [v]. *)
Definition window_at (m : list (list R)) (r c size i j a b : nat) (v : R) : Prop :=
  exists i' j', mirrors r (Z.of_nat i - Z.of_nat (size / 2) + Z.of_nat a) i' /\ mirrors c (Z.of_nat j - Z.of_nat (size / 2) + Z.of_nat b) j' /\ cell_at m i' j' v.
(** [v] is the mean over that window. *)
Definition window_mean (m : list (list R)) (r c size i j : nat) (v : R) : Prop :=
  exists W : nat -> nat -> R, (forall a b, (a < size)%nat -> (b < size)%nat -> window_at m r c size i j a b (W a b)) /\
    v = Rsumn size (fun b => Rsumn size (fun a => W a b)) / (INR size * INR size).

Definition smallest (l : list R) (m : R) : Prop := In m l /\ forall x, In x l -> m <= x.
(** Three kinds of pixels under a 0/1 clear mask: clear wins over edge. *)
Inductive kind : Type := Clear | Edge | Cloud.
Definition kind_of (p : pixel) : kind := if Reqb (px_clear p) 1 then Clear else if Rltb 0 (px_edge p) then Edge else Cloud.
Definition same_kind_as (k k' : kind) : bool :=
  match k, k' with Clear, Clear | Edge, Edge | Cloud, Cloud => true | _, _ => false end.
Definition of_kind (k : kind) (px : list (list pixel)) : list pixel := filter (fun p => same_kind_as k (kind_of p)) (concat px).
Definition mask01 (px : list (list pixel)) : Prop := forall p, In p (concat px) -> px_clear p = 0 \/ px_clear p = 1.
(** Field values outside the clear part. *)
Definition not_clear (px : list (list pixel)) : list R := map px_v (filter (fun p => Reqb (px_clear p) 0) (concat px)).
(** Inverted and clipped brightness. *)
Definition lave_cloud (kt1pct top v : R) : R := Rmax 0 (Rmin 1 (1 - v * (1 - kt1pct) / top)).
(** Position within bot .. top, folded back once above 1 and once below 0. *)
Definition fold_back (c : R) : R := if Rltb 1 c then Rabs (2 - c) else Rabs c.
Definition basic_share (flip : bool) (bot top v : R) : R :=
  let c := fold_back ((v - bot) / (top - bot)) in if flip then 1 - c else c.
(** [z] is [x] rounded towards zero. *)
Definition truncates (x : R) (z : Z) : Prop := (0 <= x /\ IZR z <= x < IZR z + 1) \/ (x < 0 /\ IZR z - 1 < x <= IZR z).
(** Values of [field] where [mask] is 0. *)
Definition outside (field mask : list (list R)) : list R :=
  map fst (filter (fun p => Reqb (snd p) 0) (combine (concat field) (concat mask))).
