(** * Concrete tables and checkers for the examples about the screens *)
From Coq Require Import Lia.
From stdpp Require Import sets.
From Verif Require Import Validate Macros HelpProofs ExLib.

Definition printf0 : Printf := {| fmt_2f := fun _ => $"1.50" |}.
Lemma printf0_ok env : @printf_ok (libc_env env) printf0.
Proof.
  intros z. cbn. split; [lia|]. unfold c_text.
  split; [apply not_elem_of_nil|]. apply (bool_decide_eq_false_1 _). reflexivity.
Qed.

(** ** Checkers *)
Definition c_textb (s : cstr) : bool := bool_decide (terminator ∉ s).
Lemma c_textb_ok s : c_textb s = true -> c_text s.
Proof. apply bool_decide_eq_true. Qed.
Definition opt_textb (s : option cstr) : bool := match s with Some t => c_textb t | None => true end.
Lemma opt_textb_ok s : opt_textb s = true -> opt_text s.
Proof. destruct s; [apply c_textb_ok|done]. Qed.
Definition int64b (z : Z) : bool := (- 9223372036854775808 <=? z) && (z <? 9223372036854775808).
Definition showable_validatorb (v : ventry) : bool :=
  match v_fun v with
  | VRegex p h => opt_textb p && opt_textb h
  | VChoicesStr l => forallb c_textb l && (Z.of_nat (SpecHelp.total (map length l)) + Z.of_nat (length l) <? two64)
  | VChoicesInt l => forallb int64b l && (Z.of_nat (length l) <=? 100000000000000000)
  | VChoicesFloat l => Z.of_nat (length l) <=? 100000000000000000
  | _ => true
  end.
Lemma forallb_Forall {A} (f : A -> bool) (P : A -> Prop) l :
  (forall x, f x = true -> P x) -> forallb f l = true -> Forall P l.
Proof.
  intros H. induction l as [|x l IH]; cbn; [by constructor|].
  intros E. apply andb_prop in E as [E1 E2]. constructor; auto.
Qed.
Lemma showable_validatorb_ok v : showable_validatorb v = true -> showable_validator v.
Proof.
  unfold showable_validatorb, showable_validator. destruct (v_fun v); try done.
  - intros E. apply andb_prop in E as [E1 E2]. split; by apply opt_textb_ok.
  - intros E. apply andb_prop in E as [E1 E2]. split; [|by apply Z.ltb_lt].
    revert E1. apply forallb_Forall, c_textb_ok.
  - intros E. apply andb_prop in E as [E1 E2]. split; [|by apply Z.leb_le].
    revert E1. apply forallb_Forall. intros z E. apply andb_prop in E as [E3 E4].
    apply Z.leb_le in E3. apply Z.ltb_lt in E4. done.
  - by intros E%Z.leb_le.
Qed.
Definition sane_default (d : decl) : bool :=
  negb (has_default d) ||
  (if N.eqb (d_vtype d) VT_STRING
   then match d_default d with PLit s => c_textb s | Raw W8 0 => true | _ => false end
   else match d_default d with Raw W8 _ => true | _ => false end).
Definition showableb (prefix : option cstr) (d : decl) : bool :=
  forallb opt_textb [prefix; d_name d; d_lname d; d_help d; d_hint d; d_env_name d] &&
  forallb showable_validatorb (default [] (d_validators d)) && sane_default d &&
  (Z.of_nat (length (default [] (d_help d))) +
     256 * Z.of_nat (length (default [] (d_validators d))) + 1000 <? two64).
Lemma showableb_ok prefix d : showableb prefix d = true -> showable prefix d.
Proof.
  unfold showableb. intros E. apply andb_prop in E as [E E4]. apply andb_prop in E as [E E3].
  apply andb_prop in E as [E1 E2]. split.
  - revert E1. apply forallb_Forall, opt_textb_ok.
  - revert E2. apply forallb_Forall, showable_validatorb_ok.
  - intros D. unfold sane_default in E3. rewrite D in E3. cbn [negb orb] in E3. split.
    + intros V. rewrite V in E3. change ((VT_STRING =? VT_STRING)%N) with true in E3. cbn iota in E3.
      destruct (d_default d) as [[] [| |]|s| |]; try discriminate E3; [by left|].
      right. exists s. split; [done|by apply c_textb_ok].
    + intros V.
      assert (X : (d_vtype d =? VT_STRING)%N = false) by (by destruct V as [->|[->| ->]]).
      rewrite X in E3. destruct (d_default d) as [[] z| | |]; try discriminate E3. by exists z.
  - by apply Z.ltb_lt.
Qed.
Definition showable_tableb (prefix : option cstr) (T : list opt) : bool :=
  forallb (fun o => is_group o ||
    showableb prefix (decl_of o) &&
    (negb (entry_is TPositional o || entry_is TSubcommand o) || isSome (d_name (decl_of o)))) T.
Lemma showable_tableb_ok prefix T : showable_tableb prefix T = true -> showable_table prefix T.
Proof.
  intros E o Ho G. unfold showable_tableb in E. rewrite forallb_forall in E.
  specialize (E o ltac:(by apply elem_of_list_In)). cbn beta in E. rewrite G in E. cbn [orb] in E.
  apply andb_prop in E as [E1 E2]. split; [by apply showableb_ok|].
  intros K. assert (X : entry_is TPositional o || entry_is TSubcommand o = true).
  { apply orb_true_iff. done. }
  rewrite X in E2. cbn [negb orb] in E2. destruct (d_name (decl_of o)); [by eexists|discriminate E2].
Qed.

Section fitting.
Context `{Libc, Printf}.
Definition short_validatorb (v : ventry) : bool :=
  (length (validator_note v) <=? 255)%nat &&
  match v_fun v with
  | VRange _ _ | VCount _ _ | VLength _ _ => (length (default [] (validator_words v)) <=? 31)%nat
  | _ => true
  end.
Lemma short_validatorb_ok v : short_validatorb v = true -> short_validator v.
Proof.
  intros E. apply andb_prop in E as [E1 E2]. apply Nat.leb_le in E1. split; [done|].
  destruct (v_fun v); try done; by apply Nat.leb_le in E2.
Qed.
Definition fitsb (prefix : option cstr) (d : decl) : bool :=
  forallb short_validatorb (default [] (d_validators d)) &&
  (length (default_value d) <=? 115)%nat &&
  (length (default [] (env_variable prefix d)) <=? 247)%nat &&
  (length (attribute_notes d) <=? 31)%nat.
Lemma fitsb_ok prefix d : fitsb prefix d = true -> fits prefix d.
Proof.
  intros E. apply andb_prop in E as [E E4]. apply andb_prop in E as [E E3].
  apply andb_prop in E as [E1 E2]. split; try by apply Nat.leb_le.
  revert E1. apply forallb_Forall, short_validatorb_ok.
Qed.
Definition fits_hintb (c : helper_config) (d : decl) : bool :=
  negb (has (d_vtype d) (N.lor VT_VARIADIC (N.lor VT_ARRAY VT_MAP))) ||
  (length (repeated (d_vtype d) (hint_words c d)) <=? 63)%nat.
Lemma fits_hintb_ok c d : fits_hintb c d = true -> fits_hint c d.
Proof. unfold fits_hintb. intros E K. rewrite K in E. by apply Nat.leb_le in E. Qed.
Definition fitting_tableb (c : helper_config) (prefix : option cstr) (T : list opt) : bool :=
  forallb (fun o => is_group o ||
    fitsb prefix (decl_of o) && (negb (entry_is TOption o) || fits_hintb c (decl_of o))) T.
Lemma fitting_tableb_ok c prefix T : fitting_tableb c prefix T = true -> fitting_table c prefix T.
Proof.
  intros E o Ho G. unfold fitting_tableb in E. rewrite forallb_forall in E.
  specialize (E o ltac:(by apply elem_of_list_In)). cbn beta in E. rewrite G in E. cbn [orb] in E.
  apply andb_prop in E as [E1 E2]. split; [by apply fitsb_ok|].
  intros K. rewrite K in E2. by apply fits_hintb_ok.
Qed.
End fitting.

(** ** Tables *)
Definition ex_program : program := Program ($"prog") (Some ($"1.2")) (Some ($"An example")) default_config.

(** Groups, hidden options, validators, defaults, variables, subcommands. *)
Definition ex_help : list (list opt) :=
  [[HELP_OPTION;
    VERSION_OPTION;
    OPTION_INT "p" (Some ($"port"))
      [HELP ($"Port to listen on"); DEFAULT (DInt 80); VALIDATOR [V_RANGE 1 65535]; ENV_VAR ($"PORT")];
    GROUP_START ($"Network") [];
    OPTION_STRING "m" (Some ($"mode"))
      [HELP ($"How to run"); VALIDATOR [VEntry (VChoicesStr [$"fast"; $"slow"; $"automatic"; $"never"]) ORDER_POST];
       FLAGS (N.lor FLAG_AUTO_ENV FLAG_DEPRECATED)];
    OPTION_ARRAY_STRING "t" (Some ($"tags")) [HELP ($"Tags"); HINT ($"TAG")];
    OPTION_FLAG "s" (Some ($"secret")) [HELP ($"Not shown"); FLAGS FLAG_HIDDEN];
    GROUP_END;
    OPTION_FLAG "v" None [HELP ($"Say more about what is done, and why it is done; this text is cut into two lines")];
    SUBCOMMAND (Some ($"run")) (Some 1%nat) [HELP ($"Run it"); ACTION 7];
    SUBCOMMAND (Some ($"inner")) (Some 1%nat) [HELP ($"Not shown"); FLAGS FLAG_HIDDEN; ACTION 8]];
   [HELP_OPTION; POSITIONAL_STRING ($"what") [hlp];
    POSITIONAL_MANY_STRING ($"files") [hlp; FLAGS FLAG_OPTIONAL]]].
Definition ex_help_ctx : argus := make_argus ex_help 0 (Some ($"APP")).
Example ex_help_ok : argus_init (H := libc0) 4 ex_help 0 0 = Ok (Some (make_argus ex_help 0 None), O).
Proof. vm_compute. reflexivity. Qed.
Definition T_help : list opt := default [] (head ex_help).
