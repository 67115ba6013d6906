(** Independent vocabulary for plants and filters (C55-C60). *)
From Verif Require Import Prelude RealBase Spec_welch.
From Coquelicot Require Import Complex.
Local Open Scope R_scope.

(** The grid points lo, lo + dx, .. short of hi, where lo and hi are the whole numbers below -xmax/2 and xmax/2. *)
Definition site_grid (dx xmax : R) (xs : list R) : Prop :=
  exists lo hi : Z, IZR lo <= - xmax / 2 < IZR lo + 1 /\ IZR hi <= xmax / 2 < IZR hi + 1 /\
    forall i x, nth_error xs i = Some x <-> x = IZR lo + INR i * dx /\ (0 < dx /\ x < IZR hi \/ dx < 0 /\ IZR hi < x).
(** A site of width [w] at [c] covers [x]. *)
Definition reaches (w c x : R) : Prop := c - w / 2 <= x < c + w / 2.
(** Some site of the list covers [x]; [ref] is the origin. *)
Definition covered (w ref : R) (centers : list (option R)) (x : R) : Prop :=
  exists c, In (Some c) centers /\ reaches w (c - ref) x.
Definition width_or (dx : R) (width : option R) : R := match width with None => dx | Some w => w end.
(** Value of a bump of width [w] at distance [d]. *)
Definition gauss (w d : R) : R := exp (- (d * 2.355 / w) ^ 2 / 2).

(** Frequency of FFT bin [k] of [n] with step [d]: cycles per record, those past half counted negatively. *)
Definition bin_cycles (n k : nat) : Z := if Nat.ltb (2 * k) n then Z.of_nat k else (Z.of_nat k - Z.of_nat n)%Z.
Definition bin_frequency (n k : nat) (d : R) : R := IZR (bin_cycles n k) / (INR n * d).
(** A vibration of unit size and phase [t]. *)
Definition phasor (t : R) : C := (cos t, sin t).
(** Response at frequency [f] of sites at positions x with weights a passed by a pattern moving at speed [v]:
    each site sees the pattern x/v later. *)
Definition advected (v f : R) (sites : list (R * R)) : C :=
  (Rsum (map (fun s => snd s * cos (2 * PI * f * (fst s / v))) sites),
   - Rsum (map (fun s => snd s * sin (2 * PI * f * (fst s / v))) sites)).
(** [n] equally spaced positions. *)
Definition equispaced (x0 dx : R) (n : nat) : list R := map (fun i => x0 + INR i * dx) (seq 0 n).
(** Weights divided by their total. *)
Definition shares (p : list R) : list R := map (fun v => v / Rsum p) p.
(** The signal whose Fourier sums are those of [sig] multiplied by [H] (real part). *)
Definition spectral_product (sig : list R) (H : nat -> C) : list R :=
  let n := length sig in
  map (fun j => Rsum (map (fun k => fst (Cmult (Cmult (fourier sig k) (H k)) (phasor (2 * PI * INR k * INR j / INR n)))) (seq 0 n)) / INR n)
      (seq 0 n).
(** Sample [j - m] of a record, counted around its end. *)
Definition delayed (m : Z) (sig : list R) : list R :=
  map (fun j => nth (Z.to_nat ((Z.of_nat j - m) mod Z.of_nat (length sig))) sig 0) (seq 0 (length sig)).
(** [n] samples of a vibration of complex amplitude [a] making [m] cycles per record. *)
Definition vibration (n m : nat) (a : C) : list R :=
  map (fun j => fst (Cmult a (phasor (2 * PI * INR m * INR j / INR n)))) (seq 0 n).
(** The range of a table of frequencies. *)
Definition in_range (rows : list (R * C)) (f : R) : Prop :=
  (exists g z, In (g, z) rows /\ g <= f) /\ (exists g z, In (g, z) rows /\ f <= g).
