(** * Dropping rules and rewriting texts *)
From Verif Require Import Validate Api LibProofs FrameProofs SpecGrammar GrammarProofs GrammarLemmas SpecAfter
  SpecEase ExtendProofs EaseProofs EaseWhole EaseAfter EaseCheck ExLib ExGrammar ExAfter.
From Coq Require Import Lia.

(** ** C88 *)

(** A line that is accepted is still accepted when validators, requirements, conflicts, required marks and
    exclusive groups are dropped and texts rewritten, with the same values, memory, messages and selected commands. *)
Theorem C88_accepted `{Libc} a b argv a' :
  subs_present (decls a) -> is_Some (decls a !! a_root a) -> eases a b ->
  argus_parse a argv = Ok (Returned 0, a') ->
  exists b', argus_parse b argv = Ok (Returned 0, b') /\ eases a' b'.
Proof. exact (parse_ease a b argv a'). Qed.
Print Assumptions C88_accepted.

Lemma eased_refl d : eased d d.
Proof. by constructor. Qed.
(** [rules_ctx] with fewer rules and other texts. *)
Definition loose : list (list opt) :=
  [[HELP_OPTION;
    OPTION_STRING "u" (Some ($"user")) [HELP ($"who"); HINT ($"NAME")];
    OPTION_STRING "p" (Some ($"password")) [hlp; ENV_VAR ($"PASSWORD"); FLAGS FLAG_HIDDEN];
    GROUP_START ($"speed") [];
    OPTION_FLAG "f" (Some ($"fast")) [hlp];
    OPTION_FLAG "s" (Some ($"slow")) [hlp];
    GROUP_END;
    OPTION_FLAG "a" (Some ($"all")) [hlp];
    OPTION_FLAG "l" (Some ($"list")) [hlp];
    OPTION_INT "n" (Some ($"num")) [hlp];
    OPTION_INT "d" (Some ($"depth")) [hlp; DEFAULT (DInt 5); ENV_VAR ($"DEPTH")];
    OPTION_BOOL "c" (Some ($"color-mode")) [hlp; FLAGS FLAG_AUTO_ENV];
    OPTION_STRING "r" (Some ($"re")) [hlp];
    POSITIONAL_STRING ($"file") [hlp; FLAGS FLAG_OPTIONAL]]].
Definition loose_ctx : argus := make_argus loose 0 (Some ($"APP")).
Lemma bits_5_13 (x y : N) : forallb (fun b => Bool.eqb (N.testbit x b) (N.testbit y b)) [5;6;7;8;9;10;11;12;13]%N = true ->
  forall b, (5 <= b <= 13)%N -> N.testbit x b = N.testbit y b.
Proof.
  intros F b Hb. rewrite forallb_forall in F. apply Bool.eqb_prop, F. cbn [In].
  lia.
Qed.
Ltac ease := eexists; split;
  [|unfold relabel; cbn; reflexivity];
  first [apply eased_refl
        |constructor; first [reflexivity | (let X := fresh in intros X; vm_compute in X |- *; first [exact X | discriminate X])
          | (apply bits_5_13; vm_compute; reflexivity) | (intros ? X; exact X) | (intros ? X; by apply elem_of_nil in X)
          | (intros ? X; cbn in X |- *; right; exact X)]].
Lemma loose_eases : eases rules_ctx loose_ctx.
Proof.
  constructor; try reflexivity. unfold rules_ctx, loose_ctx. cbn [a_tabs make_argus]. unfold ex_rules, loose.
  constructor; [|constructor].
  repeat (constructor; [ease|]). constructor.
Qed.

(** The line of C88_accepted, and lines that only the looser description accepts: a requirement, an exclusive
    group, a conflict, a range, a pattern, a required argument. *)
Example C88_example :
  (exists b', argus_parse (H := env1) loose_ctx line1 = Ok (Returned 0, b') /\ eases (ran env1 rules_ctx line1) b') /\
  Forall (fun argv => (exists c b', c <> 0 /\ argus_parse (H := libc0) rules_ctx argv = Ok (Returned c, b')) /\
                      exists b', argus_parse (H := libc0) loose_ctx argv = Ok (Returned 0, b'))
    [[$"-u"; $"me"; $"f"]; [$"-fs"; $"f"]; [$"-al"; $"f"]; [$"-n"; $"99"; $"f"]; [$"-r"; $"x"; $"f"]; []].
Proof.
  split.
  - apply (C88_accepted (H := env1) rules_ctx); [|by eexists|exact loose_eases|exact run1].
    apply subs_presentb_ok. vm_compute. reflexivity.
  - repeat (constructor; [split; [do 2 eexists; split; [|vm_compute; reflexivity]; lia|eexists; vm_compute; reflexivity]|]).
    constructor.
Qed.

(** Two descriptions that differ in texts and in the flags hidden, advanced, deprecated and experimental only accept
    the same lines. *)
Theorem C88_texts `{Libc} a b argv :
  subs_present (decls a) -> is_Some (decls a !! a_root a) -> eases a b -> eases b a ->
  (exists a', argus_parse a argv = Ok (Returned 0, a')) <-> (exists b', argus_parse b argv = Ok (Returned 0, b')).
Proof. exact (texts_ease a b argv). Qed.
Print Assumptions C88_texts.

(** What the program reads afterwards is the same, whichever function it uses; so is the action that runs, and all is
    released in the same way. *)
Theorem C88_afterwards a b : eases a b ->
  (forall p v a1, argus_get a p = Ok (v, a1) -> exists b1, argus_get b p = Ok (v, b1) /\ eases a1 b1) /\
  (forall p v, argus_is_set a p = Ok v -> argus_is_set b p = Ok v) /\
  (forall p v, argus_count a p = Ok v -> argus_count b p = Ok v) /\
  (forall p i v a1, argus_array_get a p i = Ok (v, a1) -> exists b1, argus_array_get b p i = Ok (v, b1) /\ eases a1 b1) /\
  (forall p k v a1, argus_map_get a p k = Ok (v, a1) -> exists b1, argus_map_get b p k = Ok (v, b1) /\ eases a1 b1) /\
  (forall act st a1, argus_exec act a = Ok (st, a1) -> exists b1, argus_exec act b = Ok (st, b1) /\ eases a1 b1) /\
  (forall a1, argus_free a = Ok a1 -> exists b1, argus_free b = Ok b1 /\ eases a1 b1).
Proof. exact (afterwards_ease a b). Qed.
Print Assumptions C88_afterwards.
Example C88_afterwards_example : exists b', argus_parse (H := env1) loose_ctx line1 = Ok (Returned 0, b') /\
  (exists a1, argus_get (ran env1 rules_ctx line1) (Some ($"num")) = Ok (of_int64 3, a1)) /\
  exists b1, argus_get b' (Some ($"num")) = Ok (of_int64 3, b1).
Proof.
  destruct C88_example as [(b' & E & X) _]. exists b'. split; [done|].
  assert (G : exists a1, argus_get (ran env1 rules_ctx line1) (Some ($"num")) = Ok (of_int64 3, a1)) by (eexists; vm_compute; reflexivity).
  split; [done|]. destruct G as [a1 G]. destruct (proj1 (C88_afterwards _ _ X) _ _ _ G) as (b1 & G1 & _). eauto.
Qed.

(** The looser description need not pass the structure check.  Two required positionals, of which the first becomes
    optional; a subcommand that loses its help text. *)
Definition firm_pair : list (list opt) := [[HELP_OPTION; POSITIONAL_STRING ($"from") [hlp]; POSITIONAL_STRING ($"to") [hlp]]].
Definition loose_pair : list (list opt) :=
  [[HELP_OPTION; POSITIONAL_STRING ($"from") [hlp; FLAGS FLAG_OPTIONAL]; POSITIONAL_STRING ($"to") [hlp]]].
Definition told : list (list opt) := [[HELP_OPTION; SUBCOMMAND (Some ($"go")) (Some 1%nat) [hlp; ACTION 1]]; [HELP_OPTION]].
Definition untold : list (list opt) := [[HELP_OPTION; SUBCOMMAND (Some ($"go")) (Some 1%nat) [ACTION 1]]; [HELP_OPTION]].
Theorem C88_structure_not_kept :
  (eases (make_argus firm_pair 0 None) (make_argus loose_pair 0 None) /\
   argus_init (H := libc0) 3 firm_pair 0 0 = Ok (Some (make_argus firm_pair 0 None), O) /\
   argus_init (H := libc0) 3 loose_pair 0 0 = Ok (None, O)) /\
  eases (make_argus told 0 None) (make_argus untold 0 None) /\ eases (make_argus untold 0 None) (make_argus told 0 None) /\
  argus_init (H := libc0) 3 told 0 0 = Ok (Some (make_argus told 0 None), O) /\
  argus_init (H := libc0) 3 untold 0 0 = Ok (None, O).
Proof.
  split_and!; try (vm_compute; reflexivity);
    (constructor; try reflexivity; cbn [a_tabs make_argus];
     repeat (constructor; [repeat (constructor; [ease|]); constructor|]); constructor).
Qed.
Print Assumptions C88_structure_not_kept.

(** It does if help texts stay, positionals stay required, no flag is new and no list is given where there was none. *)
Theorem C88_well_formed `{Libc} tabs tabs' root :
  eases (make_argus tabs root None) (make_argus tabs' root None) ->
  tidies (make_argus tabs root None) (make_argus tabs' root None) ->
  (exists fuel, argus_init fuel tabs root 0 = Ok (Some (make_argus tabs root None), O)) ->
  exists fuel, argus_init fuel tabs' root 0 = Ok (Some (make_argus tabs' root None), O).
Proof. exact (init_ease tabs tabs' root). Qed.
Print Assumptions C88_well_formed.
Definition firm_rules : list (list opt) :=
  [[HELP_OPTION;
    OPTION_STRING "u" (Some ($"user")) [hlp; REQUIRE [$"all"; $"num"]];
    GROUP_START ($"speed") [FLAGS FLAG_EXCLUSIVE];
    OPTION_FLAG "a" (Some ($"all")) [hlp; CONFLICT [$"num"]];
    GROUP_END;
    OPTION_INT "n" (Some ($"num")) [hlp; DEFAULT (DInt 5); VALIDATOR [V_RANGE 1 10]];
    POSITIONAL_STRING ($"file") [hlp]]].
Definition trimmed : list (list opt) :=
  [[HELP_OPTION;
    OPTION_STRING "u" (Some ($"user")) [HELP ($"who"); REQUIRE [$"num"]];
    GROUP_START ($"speed") [];
    OPTION_FLAG "a" (Some ($"all")) [hlp];
    GROUP_END;
    OPTION_INT "n" (Some ($"num")) [hlp; DEFAULT (DInt 5)];
    POSITIONAL_STRING ($"file") [HELP ($"what to read")]]].
Ltac tidied := constructor;
  first [(intros _; by eexists) | (intros b X; exact X) | (let X := fresh in intros ? X; exact X) | (intros ? ?; discriminate)
        | (intros b X; vm_compute in X; by destruct b) | (intros X; first [exact X | reflexivity | discriminate X])].
Example C88_well_formed_example : exists fuel,
  argus_init (H := libc0) fuel trimmed 0 0 = Ok (Some (make_argus trimmed 0 None), O).
Proof.
  apply (C88_well_formed (H := libc0) firm_rules).
  - constructor; try reflexivity. cbn [a_tabs make_argus]. constructor; [|constructor].
    repeat (constructor; [ease|]). constructor.
  - unfold tidies, decls. cbn [a_tabs make_argus map firm_rules trimmed]. constructor; [|constructor].
    repeat (constructor; [tidied|]). constructor.
  - exists 3%nat. vm_compute. reflexivity.
Qed.
