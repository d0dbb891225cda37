(** * C26: what the default of a floating-point option reads as *)
From Verif Require Import Validate Api LibProofs FrameProofs SpecGrammar GrammarProofs GrammarLemmas
  ActiveProofs SpecAfter AfterProofs EnvProofs CallProofs WholeProofs IsolationProofs SpecValues
  ValueProofs AfterFacts LookupProofs MoreFacts CheckFacts ExLib ExGrammar ExAfter PropsAfter
  SpecDefaultFloat DefaultFloatProofs.
From Coq Require Import ZArith Lia.

(** A finite default that is not negative and less than 2^64: the library reads back the double
    whose bits are its whole part, which is the default itself only for zero. *)
Theorem C26_float `{Libc} a argv a' its t i p base m1 b m2 n :
  fresh a -> argus_parse a argv = Ok (Returned 0, a') ->
  reads (decls a) (a_root a) 0 false argv its -> (forall x, x ∈ its -> ~ touches t i x) ->
  entry a t i (with_mods base (m1 ++ DEFAULT (DFloat b) :: m2)) -> Forall no_default m2 ->
  from_env (a_prefix a) (with_mods base (m1 ++ DEFAULT (DFloat b) :: m2)) = None ->
  find_option_by_active_path a' p = Ok (Some (t, i)) ->
  finite_positive b -> whole_part b n -> n < 2 ^ 64 ->
  exists x, argus_get a' p = Ok (x, set_err a' 0) /\ as_float x = Ok n /\ (n = b <-> b = 0).
Proof. exact (float_default a argv a' its t i p base m1 b m2 n). Qed.
Print Assumptions C26_float.

(** DEFAULT(42.75), and a command line that sets another option: the bits of the double are 42. *)
Definition bits_42_75 : Z := 4631213344936689664.
Definition ex_quality : list (list opt) :=
  [[HELP_OPTION; OPTION_FLOAT "q" (Some ($"quality")) [hlp; DEFAULT (DFloat bits_42_75)];
    OPTION_STRING "n" (Some ($"name")) [hlp]]].
Definition quality_ctx : argus := make_argus ex_quality 0 None.
Definition quality_line : list cstr := [$"-n"; $"x"].

Example C26_float_example : exists x,
  argus_get (ran libc0 quality_ctx quality_line) (Some ($"quality"))
    = Ok (x, set_err (ran libc0 quality_ctx quality_line) 0) /\
  as_float x = Ok 42 /\ 42 <> bits_42_75.
Proof.
  assert (Hf : fresh quality_ctx) by (apply freshb_ok; vm_compute; reflexivity).
  destruct (C26_float (H := libc0) quality_ctx quality_line (ran libc0 quality_ctx quality_line)
    (plan_of quality_ctx quality_line) 0 1
    (Some ($"quality")) (blank TOption (Some ($"quality")) "q" (Some ($"quality")) VT_FLOAT (Some FDefault) 0 None)
    [HANDLER HFloat; hlp] bits_42_75 [] 42) as (x & Hx & H1 & H2).
  - exact Hf.
  - vm_compute. reflexivity.
  - apply plan_reads_of, Hf.
  - intros x Hx. vm_compute in Hx. revert Hx. generalize x. untouched.
  - eapply entry_at; reflexivity.
  - constructor.
  - apply (C26_no_environment (H := libc0)); [|reflexivity]. constructor.
  - vm_compute. reflexivity.
  - split; vm_compute; done.
  - split; vm_compute; done.
  - reflexivity.
  - exists x. done.
Qed.
