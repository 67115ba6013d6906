(** Extended floats: exact reals plus the IEEE special values. No rounding, no overflow,
    no signed zero (a zero divisor counts as +0). Comparisons with NaN are false. *)
From Verif Require Export Prelude RealBase.
Local Open Scope R_scope.

Inductive fl : Type := Fin (r : R) | Pinf | Ninf | Nan.

Definition fopp (a : fl) : fl :=
  match a with Fin r => Fin (- r) | Pinf => Ninf | Ninf => Pinf | Nan => Nan end.
Definition fadd (a b : fl) : fl :=
  match a, b with
  | Nan, _ | _, Nan => Nan
  | Fin x, Fin y => Fin (x + y)
  | Pinf, Ninf | Ninf, Pinf => Nan
  | Pinf, _ | _, Pinf => Pinf
  | Ninf, _ | _, Ninf => Ninf
  end.
Definition fsub (a b : fl) : fl := fadd a (fopp b).
(** An infinity carrying the sign of a real; NaN for zero (inf*0, 0/0). *)
Definition sgn_inf (r : R) : fl :=
  if Rltb 0 r then Pinf else if Rltb r 0 then Ninf else Nan.
Definition fmul (a b : fl) : fl :=
  match a, b with
  | Nan, _ | _, Nan => Nan
  | Fin x, Fin y => Fin (x * y)
  | Fin x, Pinf | Pinf, Fin x => sgn_inf x
  | Fin x, Ninf | Ninf, Fin x => sgn_inf (- x)
  | Pinf, Pinf | Ninf, Ninf => Pinf
  | Pinf, Ninf | Ninf, Pinf => Ninf
  end.
Definition fdiv (a b : fl) : fl :=
  match a, b with
  | Nan, _ | _, Nan => Nan
  | Fin x, Fin y => if Reqb y 0 then sgn_inf x else Fin (x / y)
  | Fin _, (Pinf | Ninf) => Fin 0
  | Pinf, Fin y => if Rltb y 0 then Ninf else Pinf
  | Ninf, Fin y => if Rltb y 0 then Pinf else Ninf
  | (Pinf | Ninf), (Pinf | Ninf) => Nan
  end.
Definition fabs (a : fl) : fl :=
  match a with Fin r => Fin (Rabs r) | Pinf | Ninf => Pinf | Nan => Nan end.
Definition fltb (a b : fl) : bool :=
  match a, b with
  | Nan, _ | _, Nan => false
  | Fin x, Fin y => Rltb x y
  | Ninf, Ninf | Pinf, _ | _, Ninf => false
  | _, Pinf | Ninf, _ => true
  end.
Definition fleb (a b : fl) : bool :=
  match a, b with
  | Nan, _ | _, Nan => false
  | Fin x, Fin y => Rleb x y
  | Ninf, _ | _, Pinf => true
  | _, _ => false
  end.
Definition feqb (a b : fl) : bool :=
  match a, b with
  | Fin x, Fin y => Reqb x y
  | Pinf, Pinf | Ninf, Ninf => true
  | _, _ => false
  end.
Definition is_nan (a : fl) : bool := match a with Nan => true | _ => false end.
Definition is_finite (a : fl) : bool := match a with Fin _ => true | _ => false end.
(** The finite entries of a list (what the nan-skipping reductions see once infinities are removed). *)
Definition fin_part (l : list fl) : list R :=
  flat_map (fun a => match a with Fin r => [r] | _ => [] end) l.

Lemma fdiv_fin x y : y <> 0 -> fdiv (Fin x) (Fin y) = Fin (x / y).
Proof. intro N. cbn. now rewrite Reqb_false. Qed.
Lemma fdiv_zero x : fdiv (Fin x) (Fin 0) = sgn_inf x.
Proof. cbn. now rewrite Reqb_true. Qed.
Lemma sgn_inf_not_fin x r : sgn_inf x <> Fin r.
Proof. unfold sgn_inf. destruct (Rltb 0 x); [easy|]. now destruct (Rltb x 0). Qed.
Lemma sgn_inf_0 : sgn_inf 0 = Nan.
Proof. unfold sgn_inf. now rewrite Rltb_false by lra. Qed.
Lemma sgn_inf_pos x : 0 < x -> sgn_inf x = Pinf.
Proof. intro. unfold sgn_inf. now rewrite Rltb_true. Qed.
Lemma fin_part_map_Fin l : fin_part (map Fin l) = l.
Proof. induction l as [|x l IH]; [easy|]. cbn. unfold fin_part in IH. now rewrite IH. Qed.
