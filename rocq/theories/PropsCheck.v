(** * Properties of checking a description *)
From Coq Require Import Lia.
From Verif Require Import SpecCheck StructProofs InitProofs ExLib ExGrammar ExMemory ExStructure.

(** ** C59 *)

(** Checking a description written with the macros ends without undefined behaviour, with the
    context if the description is in order and with a refusal if not, provided its tables form a
    hierarchy and no validator is silent after a refusal. *)
Theorem C59_decides_partial `{Libc} tabs root :
  built_tables tabs -> hierarchy tabs root -> (forall T o, T ∈ tabs -> o ∈ T -> loud fresh_heap o) ->
  exists f0, forall fuel, (f0 <= fuel)%nat ->
    (structure_ok (make_argus tabs root None) /\
       argus_init fuel tabs root 0 = Ok (Some (make_argus tabs root None), O)) \/
    (~ structure_ok (make_argus tabs root None) /\ argus_init fuel tabs root 0 = Ok (None, O)).
Proof. exact (init_decides tabs root). Qed.
Print Assumptions C59_decides_partial.

Ltac checked :=
  builds; intros e He; repeat (apply elem_of_cons in He as [->|He]);
  first [by apply elem_of_nil in He|cbn; done|by vm_compute].
(** A subcommand, and a default that two validators refuse: the description is refused. *)
Definition ex_two : list (list opt) :=
  [[HELP_OPTION; OPTION_INT "n" (Some ($"num")) [hlp; DEFAULT (DInt 50); VALIDATOR [V_RANGE 1 10; V_CHOICE_INT [5; 7]]];
    SUBCOMMAND (Some ($"run")) (Some 1%nat) [hlp; ACTION 1]];
   [HELP_OPTION; OPTION_FLAG "q" (Some ($"quiet")) [hlp]]].
Lemma two_below t t' : below (map (map decl_of) ex_two) t t' -> t = 0%nat /\ t' = 1%nat.
Proof.
  intros (T & i & d & HT & Hi & Ht & Hd). destruct t as [|[|t]]; [| |done]; injection HT as <-.
  - destruct i as [|[|[|i]]]; [| | |done]; injection Hi as <-; try done. by injection Hd.
  - destruct i as [|[|i]]; [| |done]; by injection Hi as <-.
Qed.
Lemma two_hierarchy : hierarchy ex_two 0.
Proof.
  split; [by eexists|]. split.
  - intros t t' X. apply two_below in X as [-> ->]. by eexists.
  - intros t _ W. inversion W as [? X|? ? X W']; subst.
    + apply two_below in X as [-> X]. done.
    + apply two_below in X as [-> ->]. inversion W' as [? X|? ? X ?]; subst; by apply two_below in X as [X _].
Qed.
Lemma two_loud T o : T ∈ ex_two -> o ∈ T -> loud (H := libc0) fresh_heap o.
Proof.
  intros HT Ho Hd i j e e' _ Hi Hj _.
  repeat (apply elem_of_cons in HT as [->|HT]); try (by apply elem_of_nil in HT);
    repeat (apply elem_of_cons in Ho as [->|Ho]); try (by apply elem_of_nil in Ho); try discriminate Hd.
  destruct j as [|[|j]]; [| |discriminate Hj]; injection Hj as <-; (split; [|exact I]).
  - intros (x & Ex & L). vm_compute in Ex. injection Ex as <-. lia.
  - intros (x & Ex & L). vm_compute in Ex. injection Ex as <-. revert L. apply (bool_decide_eq_false_1 _). reflexivity.
Qed.
Example C59_two_refused : exists f0, forall fuel, (f0 <= fuel)%nat ->
  argus_init (H := libc0) fuel ex_two 0 0 = Ok (None, O).
Proof.
  assert (B : built_tables ex_two) by checked.
  destruct (C59_decides_partial (H := libc0) ex_two 0 B two_hierarchy two_loud) as [f0 E].
  exists f0. intros fuel L. destruct (E fuel L) as [[X _]|[_ X]]; [|exact X].
  apply structure_accepts in X as [f F]. exfalso. destruct f as [|[|f]]; discriminate F.
Qed.
(** A hierarchy without defaults: accepted. *)
Example C59_tree_accepted : exists f0, forall fuel, (f0 <= fuel)%nat ->
  argus_init (H := libc0) fuel ex_tree 0 0 = Ok (Some (make_argus ex_tree 0 None), O).
Proof.
  exists 3%nat. intros fuel L. unfold argus_init.
  assert (E : validate_structure (H := libc0) 3 (make_argus ex_tree 0 None) 0 0 = Ok (0, O)) by (vm_compute; reflexivity).
  by rewrite (structure_mono (H := libc0) _ _ _ _ _ _ L E).
Qed.

(** What is missing in the general claim. *)

(** A default refused by one validator of the library and accepted by the next one: the empty
    message of the second one, NULL, is formatted with %s. *)
Definition ex_silent : list (list opt) :=
  [[HELP_OPTION; OPTION_INT "n" (Some ($"num")) [hlp; DEFAULT (DInt 20); VALIDATOR [V_RANGE 1 10; V_CHOICE_INT [20]]]]].
Theorem C59_silent_refuted :
  built_tables ex_silent /\ hierarchy ex_silent 0 /\
  forall fuel, argus_init (H := libc0) (S fuel) ex_silent 0 0 = UB NullDeref.
Proof.
  split; [checked|]. split.
  - assert (X : forall t t', ~ below (map (map decl_of) ex_silent) t t').
    { intros t t' (T & i & d & HT & Hi & Ht & Hd). destruct t as [|t]; [|done]. injection HT as <-.
      destruct i as [|[|i]]; [| |done]; by injection Hi as <-. }
    split; [by eexists|]. split; [intros t t' Y; by apply X in Y|].
    intros t _ W. inversion W as [? Y|? ? Y ?]; by apply X in Y.
  - intros fuel. reflexivity.
Qed.
Print Assumptions C59_silent_refuted.

(** A validator of the program that refuses the default and prints nothing. *)
Definition ex_custom : list (list opt) :=
  [[HELP_OPTION; OPTION_INT "n" (Some ($"num")) [hlp; DEFAULT (DInt 3);
      VALIDATOR [VEntry (VCustomPost (fun v _ => match v with Raw _ z => if Z.even z then 0 else 29 | _ => 29 end)) ORDER_POST]]]].
Theorem C59_custom_refuted :
  built_tables ex_custom /\ forall fuel, argus_init (H := libc0) (S fuel) ex_custom 0 0 = UB NullDeref.
Proof. split; [checked|]. intros fuel. reflexivity. Qed.
Print Assumptions C59_custom_refuted.

(** A subcommand that leads back to its own table: the depth error is reported at every level
    below the limit, but the recursion goes on until the stack is used up. *)
Definition ex_loop : list (list opt) :=
  [[HELP_OPTION; SUBCOMMAND (Some ($"again")) (Some 0%nat) [hlp; ACTION 1]]].
Lemma loop_endless fuel : argus_init (H := libc0) fuel ex_loop 0 0 = UB StackOverflow.
Proof.
  unfold argus_init. set (a := make_argus ex_loop 0 None).
  assert (E : forall f d, validate_structure (H := libc0) f a 0 d = UB StackOverflow).
  { clear. induction f as [|f IH]; intros d; [done|]. rewrite structure_unfold.
    replace (table a 0) with (Ok (default [] (a_tabs a !! 0%nat))) by reflexivity. cbn [rbind].
    replace (validate_type_format (H := libc0) _ _ _ _) with (Ok SUCCESS) by (vm_compute; reflexivity). cbn [rbind].
    change (default [] (a_tabs a !! 0%nat)) with [HELP_OPTION; SUBCOMMAND (Some ($"again")) (Some 0%nat) [hlp; ACTION 1]].
    cbn [validate_subs]. change (d_type (decl_of HELP_OPTION)) with TOption. cbv iota.
    change (d_type (decl_of (SUBCOMMAND (Some ($"again")) (Some 0%nat) [hlp; ACTION 1]))) with TSubcommand.
    change (d_sub (decl_of (SUBCOMMAND (Some ($"again")) (Some 0%nat) [hlp; ACTION 1]))) with (Some 0%nat).
    cbv iota. rewrite IH. done. }
  by rewrite E.
Qed.
Theorem C59_cycle_refuted :
  built_tables ex_loop /\ forall fuel, argus_init (H := libc0) fuel ex_loop 0 0 = UB StackOverflow.
Proof. split; [builds|]. exact loop_endless. Qed.
Print Assumptions C59_cycle_refuted.
