(** Inversion of compute_cmv and list facts used by the X_cmv files. *)
From Coq Require Import String Permutation.
From Verif Require Import Prelude PreludeFacts RealBase Fl RealStat M_spatial M_cmv Spec_spatial Spec_cmv.
Local Open Scope R_scope.

Section Inv.
  Context {K : Type} `{Label K}.
  Variable dx dt : list (list (option R)) -> list (list (option R)) -> result delay_out.
  Variable ms : (R -> fl) -> R.
  Variable lsq : (R -> R -> list fl) -> fl * fl.

  Lemma compute_cmv_inv ts pos ref m o bk v t w o' :
    compute_cmv dx dt ms lsq ts pos ref m o bk = Ok ((v, t, w), o') ->
    exists A B d Pb Pa flags0 overall flags,
      let pairs := get_pairs (map fst pos) (Some (ref_ids (map fst pos) ref)) true in
      let vecs := map2 (fun b a => (fst b - fst a, snd b - snd a)) Pb Pa in
      known_method (lower m) /\ (lower bk = "xcorr" \/ lower bk = "tf")%string /\ pairs <> [] /\
      mapM (fun p => lookup ts (fst p)) pairs = Ok A /\
      mapM (fun p => lookup ts (snd p)) pairs = Ok B /\
      (if String.eqb (lower bk) "xcorr" then dx A B else dt A B) = Ok d /\
      mapM (fun p => lookup pos (snd p)) pairs = Ok Pb /\
      mapM (fun p => lookup pos (fst p)) pairs = Ok Pa /\
      validate_method_options (lower m) o = Ok o' /\
      pairwise_qc (lower m) o' (map row_of (combine (combine (combine pairs (combine A B)) vecs)
                                    (combine (combine (d_delay d) (d_peak d)) (d_mean d)))) = Ok flags0 /\
      (overall, flags) = (if String.eqb (lower m) "gagne" then gagne_cascade (d_peak d) flags0 else (GOOD, flags0)) /\
      finish_cmv ms lsq (String.eqb (lower m) "jamaly") (qc_figures (map row_of (combine (combine (combine pairs (combine A B)) vecs)
                                    (combine (combine (d_delay d) (d_peak d)) (d_mean d))))) overall flags pairs vecs d = (v, t, w).
  Proof.
    unfold compute_cmv. intro E. cbv zeta in E.
    destruct (String.eqb (lower m) "jamaly" || String.eqb (lower m) "gagne")%bool eqn:Em; cbn [negb] in E; [|discriminate].
    destruct (String.eqb (lower bk) "xcorr" || String.eqb (lower bk) "tf")%bool eqn:Eb; cbn [negb] in E; [|discriminate].
    set (pairs := get_pairs _ _ _) in *.
    assert (NE : pairs <> []) by (intro N; rewrite N in E; discriminate).
    destruct pairs as [|p0 ps] eqn:Ep; [discriminate|]. rewrite <- Ep in *.
    destruct (mapM (fun p => lookup ts (fst p)) pairs) as [A|] eqn:EA; [|discriminate]. cbn [rbind] in E.
    destruct (mapM (fun p => lookup ts (snd p)) pairs) as [B|] eqn:EB; [|discriminate]. cbn [rbind] in E.
    destruct (if String.eqb (lower bk) "xcorr" then dx A B else dt A B) as [d|] eqn:ED; [|discriminate]. cbn [rbind] in E.
    destruct (mapM (fun p => lookup pos (snd p)) pairs) as [Pb|] eqn:EPb; [|discriminate]. cbn [rbind] in E.
    destruct (mapM (fun p => lookup pos (fst p)) pairs) as [Pa|] eqn:EPa; [|discriminate]. cbn [rbind] in E.
    destruct (validate_method_options (lower m) o) as [o1|] eqn:EV; [|discriminate]. cbn [rbind] in E.
    destruct (pairwise_qc _ _ _) as [flags0|] eqn:EQ; [|discriminate]. cbn [rbind] in E.
    destruct (if String.eqb (lower m) "gagne" then _ else _) as [overall flags] eqn:EG.
    match type of E with Ok (?X, ?Y) = Ok (?Z, ?W) => assert (HD : X = Z) by congruence; assert (HO : Y = W) by congruence end.
    subst o1. exists A, B, d, Pb, Pa, flags0, overall, flags. cbv zeta.
    split. { apply Bool.orb_true_iff in Em. destruct Em as [Em|Em]; apply String.eqb_eq in Em; [now left|now right]. }
    split. { apply Bool.orb_true_iff in Eb. destruct Eb as [Eb|Eb]; apply String.eqb_eq in Eb; auto. }
    split; [exact NE|]. repeat split; auto.
  Qed.
End Inv.
