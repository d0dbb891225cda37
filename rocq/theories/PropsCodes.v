(** * The descriptions of the error codes: property C57 *)
From Verif Require Import Api SpecCodes CodesProofs.

(** Wherever a code is described, the description begins with the words of its name. *)
Theorem C57_named n name : enumerators !! n = Some name -> argus_strerror (Z.of_nat n) <> $"Unknown error" ->
  speaks_of name (argus_strerror (Z.of_nat n)).
Proof. exact (strerror_named n name). Qed.
Print Assumptions C57_named.
Example C57_named_example :
  enumerators !! 5%nat = Some ($"ARGUS_ERROR_INVALID_DEFAULT") /\ argus_strerror 5 <> $"Unknown error" /\
  speaks_of ($"ARGUS_ERROR_INVALID_DEFAULT") (argus_strerror 5) /\ ~ speaks_of ($"ARGUS_ERROR_INVALID_GROUP") (argus_strerror 5).
Proof.
  assert (N : argus_strerror 5 <> $"Unknown error") by discriminate.
  split; [reflexivity|]. split; [exact N|]. split; [by apply (C57_named 5)|].
  intros (w & r & E & W & [F|F]).
  - vm_compute in E, F. injection F as <-. vm_compute in E. discriminate.
  - vm_compute in E, F. injection F as <-. vm_compute in E. discriminate.
Qed.
