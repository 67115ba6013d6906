(** Property theorems. Names that may be written in capital or small letters: datasets (hope_campaign.py), methods (cmv.py).
    Proofs are in the X_ file of the same name. *)
From Coq Require Import String Ascii.
From Verif Require Import Prelude M_cmv M_hope_cli Spec_dataset X_dataio_cli.
From Verif Require Import X_dataset_names.

(** C97. The known datasets are the three names, in any mixture of capital and small letters. *)
Theorem C97_names_any_case :
  forall d,
  known_dataset d <-> spells d "HOPE" \/ spells d "HOPE-MELPITZ" \/ spells d "LINDENBERG".
Proof. exact (@names_any_case). Qed.
Print Assumptions C97_names_any_case.

Example C97_names_example :
  known_dataset "hope-Melpitz" /\ ~ known_dataset "melpitz".
Proof. exact (@names_example). Qed.

(** C97. The summary file is named after the dataset in small letters, the cleaned file also after the cleaning option. *)
Theorem C97_file_names :
  forall a qc, exists d q,
  in_small_print (a_dataset a) d /\ in_small_print qc q /\
  h5_name a = (d ++ ".h5")%string /\ qc_name a qc = (d ++ "-qc" ++ q ++ ".h5")%string.
Proof. exact (@file_names). Qed.
Print Assumptions C97_file_names.

(** C15. compute_cmv compares its method and delay options in small letters: the names are accepted in any case. *)
Theorem C15_options_any_case :
  forall s t, lower s = t <-> in_small_print s t.
Proof. exact (@options_any_case). Qed.
Print Assumptions C15_options_any_case.

Example C15_options_example :
  in_small_print "Jamaly" "jamaly" /\ ~ in_small_print "Jamaly" "gagne".
Proof. exact (@options_example). Qed.

