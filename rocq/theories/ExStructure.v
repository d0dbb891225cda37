(** * Concrete tables for the examples of PropsStructure.v *)
From Verif Require Import Validate Api LibProofs SpecGrammar GrammarProofs SpecAfter SpecStructure
  StructProofs ExLib ExAfter.
From Coq Require Import Lia.

Definition leads_to (D : list (list decl)) (t t' : nat) : bool :=
  existsb (fun d => bool_decide (d_type d = TSubcommand) && bool_decide (d_sub d = Some t')) (default [] (D !! t)).
Definition straysb (D : list (list decl)) (root : nat) : bool :=
  forallb (fun t => (t =? root)%nat || existsb (fun t0 => leads_to D t0 t) (seq 0 t)) (seq 0 (length D)).
Lemma leads_to_below D t t' : leads_to D t t' = true -> below D t t'.
Proof.
  unfold leads_to. intros E. apply existsb_exists in E as (d & Hd & E).
  apply andb_true_iff in E as [E1 E2]. apply bool_decide_eq_true in E1, E2.
  destruct (D !! t) as [T|] eqn:ET; [|done]. change (default [] (Some T)) with T in Hd.
  apply elem_of_list_In, elem_of_list_lookup in Hd as [i Hi]. by exists T, i, d.
Qed.
Lemma straysb_ok D root : straysb D root = true -> no_strays D root.
Proof.
  intros E t. induction t as [t IH] using lt_wf_ind. intros Ht.
  unfold straysb in E. rewrite forallb_forall in E. specialize (E t).
  apply lookup_lt_is_Some_1 in Ht. specialize (E ltac:(apply in_seq; lia)).
  apply orb_true_iff in E as [E|E]; [left; by apply Nat.eqb_eq|].
  apply existsb_exists in E as (t0 & H0 & E). apply in_seq in H0. apply leads_to_below in E.
  eapply reach_trans; [apply (IH t0); [lia|apply lookup_lt_is_Some_2; lia]|]. right. by apply wd_one.
Qed.

Lemma flat_accepted : accepted (H := libc0) ex_flat_ctx.
Proof. exists 3%nat, ex_flat, 0%nat, None. split; [exact ex_flat_ok|done]. Qed.
Lemma tree_accepted : accepted (H := libc0) ex_tree_ctx.
Proof. exists 3%nat, ex_tree, 0%nat, None. split; [exact ex_tree_ok|done]. Qed.
Lemma rules_accept : accepted (H := libc0) rules_ctx.
Proof. exists 3%nat, ex_rules, 0%nat, (Some ($"APP")). split; [vm_compute; reflexivity|done]. Qed.
Lemma flat_strays : no_strays (decls ex_flat_ctx) 0.
Proof. apply straysb_ok. vm_compute. reflexivity. Qed.
Lemma tree_strays : no_strays (decls ex_tree_ctx) 0.
Proof. apply straysb_ok. vm_compute. reflexivity. Qed.
Lemma rules_strays : no_strays (decls rules_ctx) 0.
Proof. apply straysb_ok. vm_compute. reflexivity. Qed.

(** A tower of [n] subcommands called "s", each the only one of its table. *)
Definition tower (n : nat) : list (list opt) :=
  map (fun k => [HELP_OPTION; SUBCOMMAND (Some ($"s")) (Some (S k)) [hlp; ACTION 1]]) (seq 0 n) ++
  [[HELP_OPTION; OPTION_FLAG "q" (Some ($"quiet")) [hlp]]].
Definition tower_ctx (n : nat) : argus := make_argus (tower n) 0 None.
Lemma tower_accepted : accepted (H := libc0) (tower_ctx 8).
Proof. exists 9%nat, (tower 8), 0%nat, None. split; [vm_compute; reflexivity|done]. Qed.
Lemma tower_strays : no_strays (decls (tower_ctx 8)) 0.
Proof. apply straysb_ok. vm_compute. reflexivity. Qed.

(** Parsing several command lines with the same context. *)
Fixpoint parse_all `{Libc} (a : argus) (l : list (list cstr)) : res argus :=
  match l with
  | [] => Ok a
  | argv :: l' => let* (o, a') := argus_parse a argv in parse_all a' l'
  end.

(** A positional with the name of a later option. *)
Definition ex_shadow : list (list opt) :=
  [[HELP_OPTION; POSITIONAL_STRING ($"output") [hlp]; OPTION_STRING "o" (Some ($"output")) [hlp]]].
(** Positionals and optional variadics. *)
Definition ex_many : list (list opt) :=
  [[HELP_OPTION; POSITIONAL_MANY_STRING ($"files") [hlp; FLAGS FLAG_OPTIONAL];
    POSITIONAL_MANY_INT ($"nums") [hlp; FLAGS FLAG_OPTIONAL]]].
(** A required variadic beside a subcommand. *)
Definition ex_mixed : list (list opt) :=
  [[HELP_OPTION; POSITIONAL_MANY_STRING ($"files") [hlp]; SUBCOMMAND (Some ($"run")) (Some 1%nat) [hlp]];
   [HELP_OPTION]].
(** A default refused by its validator. *)
Definition ex_bad_default : list (list opt) :=
  [[HELP_OPTION; OPTION_INT "n" (Some ($"num")) [hlp; DEFAULT (DInt 50); VALIDATOR [V_RANGE 1 10]]]].
Definition ex_good_default : list (list opt) :=
  [[HELP_OPTION; OPTION_INT "n" (Some ($"num")) [hlp; DEFAULT (DInt 5); VALIDATOR [V_RANGE 1 10]]]].
