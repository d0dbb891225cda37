(** * Which options share a variable of the environment: property C86 *)
From Coq Require Import Lia.
From Verif Require Import Macros Validate Api SpecGrammar SpecAfter AfterFacts MoreFacts ExLib ExAfter VariablesProofs.

(** Options that derive their variables listen to the same one exactly if their names differ at most in
    the case of letters and in '-' for '_'. *)
Theorem C86_derived prefix d e n m : derives d n -> derives e m -> bare d = bare e ->
  fits prefix d n -> fits prefix e m ->
  get_env_var_name prefix d = get_env_var_name prefix e <-> alike n m.
Proof. exact (derived_same prefix d e n m). Qed.
Print Assumptions C86_derived.
(** Options that name their variables listen to the same one exactly if the names are equal. *)
Theorem C86_declared prefix d e n m : declares d n -> declares e m -> bare d = bare e ->
  has_prefix prefix n = has_prefix prefix m -> fits prefix d n -> fits prefix e m ->
  get_env_var_name prefix d = get_env_var_name prefix e <-> n = m.
Proof. exact (declared_same prefix d e n m). Qed.
Print Assumptions C86_declared.

Definition ex_shared : list (list opt) :=
  [[HELP_OPTION;
    OPTION_STRING "a" (Some ($"dry-run")) [hlp; FLAGS FLAG_AUTO_ENV];
    OPTION_STRING "b" (Some ($"dry_run")) [hlp; FLAGS FLAG_AUTO_ENV];
    OPTION_STRING "c" (Some ($"depth")) [hlp; FLAGS FLAG_AUTO_ENV];
    OPTION_STRING "d" (Some ($"one")) [hlp; ENV_VAR ($"X")];
    OPTION_STRING "e" (Some ($"two")) [hlp; ENV_VAR ($"APP_X")];
    OPTION_STRING "f" (Some ($"three")) [hlp; ENV_VAR ($"Y")]]].
Definition ex_shared_ctx : argus := make_argus ex_shared 0 (Some ($"APP")).
Definition D_shared (i : nat) : decl := decl_of (opt_at ex_shared_ctx 0 i).
Definition env_shared : Libc := libc_env [($"APP_DRY_RUN", $"yes"); ($"APP_X", $"1")].

Example C86_example :
  derives (D_shared 1) ($"dry-run") /\ derives (D_shared 3) ($"depth") /\ bare (D_shared 1) = bare (D_shared 3) /\
  fits (Some ($"APP")) (D_shared 1) ($"dry-run") /\ fits (Some ($"APP")) (D_shared 3) ($"depth") /\
  get_env_var_name (Some ($"APP")) (D_shared 1) = Some ($"APP_DRY_RUN") /\
  get_env_var_name (Some ($"APP")) (D_shared 3) = Some ($"APP_DEPTH") /\
  ~ alike ($"dry-run") ($"depth") /\ alike ($"dry-run") ($"Dry_RUN").
Proof.
  split; [vm_compute; done|]. split; [vm_compute; done|]. split; [reflexivity|].
  split; [vm_compute; lia|]. split; [vm_compute; lia|]. split; [vm_compute; reflexivity|].
  split; [vm_compute; reflexivity|]. split.
  - intros E. apply Forall2_length in E. discriminate E.
  - apply upper_alike. vm_compute. reflexivity.
Qed.
Example C86_declared_example :
  declares (D_shared 4) ($"X") /\ declares (D_shared 6) ($"Y") /\ bare (D_shared 4) = bare (D_shared 6) /\
  has_prefix (Some ($"APP")) ($"X") = has_prefix (Some ($"APP")) ($"Y") /\
  fits (Some ($"APP")) (D_shared 4) ($"X") /\ fits (Some ($"APP")) (D_shared 6) ($"Y") /\
  get_env_var_name (Some ($"APP")) (D_shared 4) = Some ($"APP_X") /\
  get_env_var_name (Some ($"APP")) (D_shared 6) = Some ($"APP_Y").
Proof.
  split; [reflexivity|]. split; [reflexivity|]. split; [reflexivity|]. split; [vm_compute; reflexivity|].
  split; [vm_compute; lia|]. split; [vm_compute; lia|]. split; vm_compute; reflexivity.
Qed.

(** The check of the description accepts both kinds of sharing: one variable sets `--dry-run` and
    `--dry_run`, another one an option that asks for `X` and one that asks for `APP_X`. *)
Theorem C86_shared_refuted :
  argus_init (H := env_shared) 5 ex_shared 0 0 = Ok (Some (make_argus ex_shared 0 None), O) /\
  let a' := ran env_shared ex_shared_ctx [] in
  argus_parse (H := env_shared) ex_shared_ctx [] = Ok (Returned 0, a') /\
  argus_is_set a' (Some ($"dry-run")) = Ok true /\ argus_is_set a' (Some ($"dry_run")) = Ok true /\
  argus_is_set a' (Some ($"one")) = Ok true /\ argus_is_set a' (Some ($"two")) = Ok true /\
  argus_is_set a' (Some ($"depth")) = Ok false /\ argus_is_set a' (Some ($"three")) = Ok false.
Proof. vm_compute. done. Qed.
Print Assumptions C86_shared_refuted.
