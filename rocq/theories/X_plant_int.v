(** Whole numbers as site positions in get_1d_plant (C133). *)
From Coq Require Import String ZArith Lia Lra.
From Verif Require Import Prelude PreludeFacts RealBase M_cmv M_signal_plant M_stats_int Spec_stats_int M_plant_int.
Local Open Scope R_scope.

Lemma wrap_held t z : (1 <= bits t)%Z -> holds t z -> wrap t z = z.
Proof.
  intros B. unfold holds, wrap. assert (P : (2 ^ bits t = 2 * 2 ^ (bits t - 1))%Z).
  { rewrite <- Z.pow_succ_r by lia. f_equal. lia. }
  destruct (signed t); intros H; [rewrite Z.mod_small by lia; lia|now apply Z.mod_small].
Qed.
Lemma fits_holds t z : fits t z = true <-> holds t z.
Proof. unfold fits, holds. destruct (signed t); rewrite Bool.andb_true_iff, Z.leb_le, Z.ltb_lt; reflexivity. Qed.
Lemma shift_zero cs ref w shape dx xmax :
  get_1d_plant (map (fun c => Some (c - ref)) cs) 0 w shape dx xmax = get_1d_plant (map Some cs) ref w shape dx xmax.
Proof.
  unfold get_1d_plant. replace (map (option_map (fun c => c - 0)) (map (fun c => Some (c - ref)) cs))
    with (map (option_map (fun c => c - ref)) (map Some cs)); [reflexivity|].
  rewrite !map_map. apply map_ext. intros c. cbn. f_equal. lra.
Qed.

(*@ C133 Whole numbers give the same plant as the same positions written as floats, in every integer type, provided the reference is a whole
    number too and every distance to it can be stored in the type. *)
Lemma int_plant_exact : forall t centers z width shape dx xmax,
  (1 <= bits t)%Z -> holds t z -> (forall c, In c centers -> holds t (c - z)) ->
  get_1d_plant_int t centers (PyInt z) width shape dx xmax = get_1d_plant (map (fun c => Some (IZR c)) centers) (IZR z) width shape dx xmax.
Proof.
  intros t centers z width shape dx xmax B Hz Hc. unfold get_1d_plant_int, shift_centers. apply fits_holds in Hz. rewrite Hz. cbn [rbind].
  transitivity (get_1d_plant (map (fun c => Some (c - IZR z)) (map IZR centers)) 0 width shape dx xmax).
  - f_equal. rewrite !map_map. apply map_ext_in. intros c I. rewrite wrap_held by auto. now rewrite minus_IZR.
  - rewrite shift_zero. f_equal. now rewrite map_map.
Qed.
(*@ C133 With the default reference 0 every array of whole numbers gives the plant of the same floats. *)
Lemma int_plant_default : forall t centers width shape dx xmax,
  (2 <= bits t)%Z -> (forall c, In c centers -> holds t c) ->
  get_1d_plant_int t centers (PyInt 0) width shape dx xmax = get_1d_plant (map (fun c => Some (IZR c)) centers) 0 width shape dx xmax.
Proof.
  intros t centers width shape dx xmax B Hc. rewrite int_plant_exact; [reflexivity|lia| |].
  - unfold holds. assert (0 < 2 ^ (bits t - 1))%Z by (apply Z.pow_pos_nonneg; lia). assert (0 < 2 ^ bits t)%Z by (apply Z.pow_pos_nonneg; lia).
    destruct (signed t); lia.
  - intros c I. rewrite Z.sub_0_r. now apply Hc.
Qed.

(*@ C133 A reference written as a float (5.0, and even 0.0) makes the call raise TypeError, whatever the positions, shape, width and grid. *)
Lemma int_plant_float_reference : forall t centers r width shape dx xmax,
  get_1d_plant_int t centers (PyFloat r) width shape dx xmax = Err TypeError.
Proof. reflexivity. Qed.

(*@ C133 In an unsigned type every site left of the reference appears 2^bits further right; the other sites are where they belong. *)
Lemma int_plant_unsigned : forall t centers z width shape dx xmax,
  signed t = false -> (1 <= bits t)%Z -> holds t z -> (forall c, In c centers -> holds t c) ->
  get_1d_plant_int t centers (PyInt z) width shape dx xmax
  = get_1d_plant (map (fun c => Some (if (c <? z)%Z then IZR c + 2 ^ Z.to_nat (bits t) else IZR c)) centers) (IZR z) width shape dx xmax.
Proof.
  intros t centers z width shape dx xmax S B Hz Hc. unfold get_1d_plant_int, shift_centers. pose proof Hz as Fz. apply fits_holds in Fz. rewrite Fz.
  cbn [rbind].
  transitivity (get_1d_plant (map (fun c => Some (c - IZR z)) (map (fun c => if (c <? z)%Z then IZR c + 2 ^ Z.to_nat (bits t) else IZR c) centers))
                  0 width shape dx xmax).
  - f_equal. rewrite !map_map. apply map_ext_in. intros c I. f_equal. specialize (Hc c I). unfold holds in Hz, Hc. unfold wrap. rewrite S in *.
    destruct (Z.ltb_spec c z) as [L|L].
    + replace ((c - z) mod 2 ^ bits t)%Z with (c - z + 2 ^ bits t)%Z
        by (rewrite <- (Z.mod_small (c - z + 2 ^ bits t) (2 ^ bits t)) by lia; rewrite <- Z.add_mod_idemp_r by lia;
            rewrite Z.mod_same by lia; f_equal; lia).
      rewrite plus_IZR, minus_IZR. replace (IZR (2 ^ bits t)) with (2 ^ Z.to_nat (bits t)); [lra|].
      rewrite pow_IZR. f_equal. rewrite Z2Nat.id by lia. reflexivity.
    + rewrite Z.mod_small by lia. now rewrite minus_IZR.
  - rewrite shift_zero. f_equal. now rewrite map_map.
Qed.

(** Grid -2, -1, 0, 1 for the examples. *)
Lemma int_part_int z x : x = IZR z -> Int_part x = z.
Proof.
  intros ->. destruct (base_Int_part (IZR z)) as [A B]. apply le_IZR in A. assert (z < Int_part (IZR z) + 1)%Z by (apply lt_IZR; rewrite plus_IZR; lra). lia.
Qed.
Lemma grid4 : arange (half_floor (Ropp 4)) (half_floor 4) 1 = Ok [-2; -1; 0; 1].
Proof.
  unfold arange, half_floor, ceil_nat. rewrite Reqb_false by lra. f_equal.
  rewrite (int_part_int (-2) (Ropp 4 / 2)), (int_part_int 2 (4 / 2)) by lra. rewrite (int_part_int (-4)) by lra.
  change (seq 0 (Z.to_nat (- -4))) with [0; 1; 2; 3]%nat. cbn [map INR]. repeat (f_equal; try lra).
Qed.
Lemma lower_square : lower "square" = "square"%string.
Proof. reflexivity. Qed.
Lemma one_site c : get_1d_plant [Some c] 0 None "square" 1 4
  = Ok (map (fun x => if in_window 1 c x then Some 1 else Some 0) [-2; -1; 0; 1], [-2; -1; 0; 1]).
Proof.
  unfold get_1d_plant. rewrite grid4. cbn [rbind]. rewrite lower_square. cbn [String.eqb Ascii.eqb Bool.eqb map option_map fold_left place_square map2].
  rewrite Rminus_0_r. reflexivity.
Qed.
Lemma out_window w c x : x < c - w / 2 -> in_window w c x = false.
Proof. intros H. unfold in_window. now rewrite Rleb_false by lra. Qed.

Definition uint8 : itype := Int false 8.
(*@ C133 So the plant depends on how the numbers are written: one site 1 left of the reference, on the grid -2, -1, 0, 1. As floats it marks
    the point -1; as uint8 with the reference 1 it marks nothing; with the reference 1.0 the call raises TypeError. *)
Lemma int_plant_refuted :
  get_1d_plant [Some 0] 1 None "square" 1 4 = Ok ([Some 0; Some 1; Some 0; Some 0], [-2; -1; 0; 1]) /\
  get_1d_plant_int uint8 [0%Z] (PyInt 1) None "square" 1 4 = Ok ([Some 0; Some 0; Some 0; Some 0], [-2; -1; 0; 1]) /\
  get_1d_plant_int uint8 [0%Z] (PyFloat 1) None "square" 1 4 = Err TypeError.
Proof.
  split; [|split; [|reflexivity]].
  - rewrite <- (shift_zero [0] 1). cbn [map]. rewrite one_site. unfold in_window. cbn [map].
    rewrite (Rleb_false (0 - 1 - 1 / 2) (-2)), (Rleb_true (0 - 1 - 1 / 2) (-1)), (Rltb_true (-1) (0 - 1 + 1 / 2)),
      (Rltb_false 0 (0 - 1 + 1 / 2)), (Rltb_false 1 (0 - 1 + 1 / 2)) by lra. now rewrite !Bool.andb_false_r.
  - unfold get_1d_plant_int. change (shift_centers uint8 [0%Z] (PyInt 1)) with (Ok [255%Z]). cbn [rbind map].
    rewrite one_site. cbn [map]. now rewrite !out_window by lra.
Qed.

(*@ex C133 Sites at 10, 20 and 35 in int16 with the reference 20 are placed as the floats are. *)
Lemma int_plant_example :
  (1 <= bits (Int true 16))%Z /\ holds (Int true 16) 20 /\ (forall c, In c [10; 20; 35]%Z -> holds (Int true 16) (c - 20)).
Proof.
  split; [cbn; lia|]. split; [cbn; lia|]. intros c [<-|[<-|[<-|[]]]]; cbn; lia.
Qed.
