(** * Fewer rules: the structure check (C88) *)
From Verif Require Import Validate SpecEase LibProofs FrameProofs GrammarProofs GrammarLemmas ActiveProofs EnvProofs SpecStructure StructProofs
  EaseProofs EaseWhole.
From Coq Require Import Lia.

Section table.
Context (T U : list decl).
Hypothesis TU : Forall2 eased T U.
Lemma in_eased e : e ∈ U -> exists d, d ∈ T /\ eased d e.
Proof.
  intros He. apply elem_of_list_lookup in He as [i Hi]. destruct (ea_lookup_r _ _ TU _ _ Hi) as (d & Hd & X).
  exists d. split; [by eapply elem_of_list_lookup_2|done].
Qed.
Lemma eased_in d : d ∈ T -> exists e, e ∈ U /\ eased d e.
Proof.
  intros He. apply elem_of_list_lookup in He as [i Hi]. destruct (ea_lookup _ _ TU _ _ Hi) as (d' & Hd & X).
  exists d'. split; [by eapply elem_of_list_lookup_2|done].
Qed.
Lemma named_ease : well_named T -> well_named U.
Proof.
  intros [W1 W2 W3 W4 W5 W6]. split.
  - intros e He Ht. destruct (in_eased _ He) as (d & Hd & X). rewrite (ea_name _ _ X). rewrite (ea_type _ _ X) in Ht. by apply W1.
  - intros i j d e N Hd He. destruct (ea_lookup_r _ _ TU _ _ Hd) as (d' & Hd' & X), (ea_lookup_r _ _ TU _ _ He) as (e' & He' & Y).
    rewrite (ea_sname _ _ X), (ea_sname _ _ Y). by eapply W2.
  - intros i j d e l N Hd He. destruct (ea_lookup_r _ _ TU _ _ Hd) as (d' & Hd' & X), (ea_lookup_r _ _ TU _ _ He) as (e' & He' & Y).
    rewrite (ea_lname _ _ X), (ea_lname _ _ Y). by eapply W3.
  - intros i j d e l N Hd He. destruct (ea_lookup_r _ _ TU _ _ Hd) as (d' & Hd' & X), (ea_lookup_r _ _ TU _ _ He) as (e' & He' & Y).
    rewrite (ea_lname _ _ X), (ea_name _ _ Y). by eapply W4.
  - intros e l He. destruct (in_eased _ He) as (d & Hd & X). rewrite (ea_lname _ _ X). by eapply W5.
  - intros e He. destruct (in_eased _ He) as (d & Hd & X). rewrite (ea_sname _ _ X). by apply W6.
Qed.
Hypothesis TT : Forall2 tidy T U.
Lemma still_required i d e : T !! i = Some d -> U !! i = Some e -> positional d -> required d <-> required e.
Proof.
  intros Hd He P. pose proof (Forall2_lookup_lr _ _ _ _ _ _ TT Hd He) as Y. split; [by apply (ti_required _ _ Y)|apply (ti_flags _ _ Y)].
Qed.
Lemma placed_ease : well_placed T -> well_placed U.
Proof.
  intros [(d0 & Hd0 & Ht0 & Hn0) W2 W3 W4 W5]. split.
  - destruct (eased_in _ Hd0) as (e & He & X). exists e. by rewrite (ea_type _ _ X), (ea_name _ _ X).
  - intros i j d e N Hd He Pd Rd Pe Re. destruct (ea_lookup_r _ _ TU _ _ Hd) as (d' & Hd' & X), (ea_lookup_r _ _ TU _ _ He) as (e' & He' & Y).
    apply (ea_positional _ _ X) in Pd. apply (ea_positional _ _ Y) in Pe.
    eapply (W2 i j d' e'); [done..| |done|]; [by rewrite (still_required _ _ _ Hd' Hd)|by rewrite (still_required _ _ _ He' He)].
  - intros i j d e N Hd He Pd Rd Vd Pe. destruct (ea_lookup_r _ _ TU _ _ Hd) as (d' & Hd' & X), (ea_lookup_r _ _ TU _ _ He) as (e' & He' & Y).
    apply (ea_positional _ _ X) in Pd. apply (ea_positional _ _ Y) in Pe. apply (ea_variadic _ _ X) in Vd.
    eapply (W3 i j d' e'); try done. by rewrite (still_required _ _ _ Hd' Hd).
  - intros d e Hd He Pd Rd Vd Ht. apply elem_of_list_lookup in Hd as [i Hd]. destruct (ea_lookup_r _ _ TU _ _ Hd) as (d' & Hd' & X).
    destruct (in_eased _ He) as (e' & He' & Y). apply (ea_positional _ _ X) in Pd. rewrite <- (ea_variadic _ _ X) in Vd.
    rewrite (ea_type _ _ Y) in Ht. eapply (W4 d' e'); try done; [by eapply elem_of_list_lookup_2|].
    by rewrite (still_required _ _ _ Hd' Hd).
  - intros i j d e N Hd He. destruct (ea_lookup_r _ _ TU _ _ Hd) as (d' & Hd' & X), (ea_lookup_r _ _ TU _ _ He) as (e' & He' & Y).
    rewrite (ea_type _ _ X), (ea_type _ _ Y). by eapply W5.
Qed.
Lemma flags_ease d e l : tidy d e -> flags_among d l -> flags_among e l.
Proof. intros X F b Hb. by apply F, (ti_flags _ _ X). Qed.
Lemma option_ease d e : eased d e -> tidy d e -> option_ok T d -> option_ok U e.
Proof.
  intros X Y [W1 W2 W3 W4 W5 (W6 & W7 & W8)]. split.
  - by rewrite (ea_handler _ _ X).
  - by apply (ti_help _ _ Y).
  - by rewrite (ea_sname _ _ X), (ea_lname _ _ X).
  - intros n Hn. destruct (W4 n) as (d' & Hd' & Hn').
    { destruct Hn as [Hn|Hn]; [left; by apply (ea_requires _ _ X)|right; by apply (ea_conflicts _ _ X)]. }
    destruct (eased_in _ Hd') as (e' & He' & Z). exists e'. by rewrite (ea_name _ _ Z).
  - intros n Hn Hc. by apply (W5 n); [apply (ea_requires _ _ X)|apply (ea_conflicts _ _ X)].
  - rewrite (ea_vtype _ _ X). split_and!; intros Ht; eapply flags_ease; eauto.
Qed.
Lemma positional_ease d e : eased d e -> tidy d e -> d_type d = TPositional -> positional_ok d -> positional_ok e.
Proof.
  intros X Y P [W1 W2 W3 W4 (W5 & W5') W6]. split.
  - by rewrite (ea_handler _ _ X).
  - by apply (ti_help _ _ Y).
  - by rewrite (ea_name _ _ X).
  - rewrite (ea_have_default _ _ X). intros R. apply W4. by apply (ti_flags _ _ Y).
  - split; [by apply (ti_require _ _ Y)|by apply (ti_conflict _ _ Y)].
  - by eapply flags_ease.
Qed.
Lemma subcommand_ease d e : eased d e -> tidy d e -> subcommand_ok d -> subcommand_ok e.
Proof.
  intros X Y [W1 W2 W3 (W4 & W5 & W6 & W7 & W8) W9]. split.
  - by rewrite (ea_sub _ _ X).
  - by apply (ti_help _ _ Y).
  - by rewrite (ea_name _ _ X).
  - rewrite (ea_handler _ _ X), (ea_have_default _ _ X). split_and!; try done;
      [by apply (ti_require _ _ Y)|by apply (ti_conflict _ _ Y)|by apply (ti_validators _ _ Y)].
  - by eapply flags_ease.
Qed.
End table.

Section libc.
Context `{Libc}.
Lemma default_ease e o h : eased (decl_of o) e -> default_ok o h -> default_ok (relabel e o) h.
Proof.
  intros X W. unfold default_ok in *. cbn [relabel decl_of]. rewrite (ea_have_default _ _ X), (ea_vtype _ _ X), (ea_default _ _ X).
  intros Hd. destruct (W Hd) as [W1 W2]. split; [done|]. intros x Hx. apply (ea_validators _ _ X) in Hx. specialize (W2 x Hx).
  by destruct (v_order x), (v_fun x).
Qed.
Lemma table_ok_ease T U h : Forall2 eased_opt T U -> Forall2 tidy (map decl_of T) (map decl_of U) -> table_ok T h -> table_ok U h.
Proof.
  intros TU TT [W1 W2 W3].
  assert (TD : Forall2 eased (map decl_of T) (map decl_of U)).
  { apply Forall2_fmap. eapply Forall2_impl; [exact TU|]. by intros o p (e & He & ->). }
  split; [by eapply named_ease|by eapply placed_ease|].
  intros p Hp. apply elem_of_list_lookup in Hp as [i Hp]. destruct (Forall2_lookup_r _ _ _ _ _ TU Hp) as (o & Ho & e & X & ->).
  assert (Y : tidy (decl_of o) e).
  { apply (Forall2_lookup_lr _ _ _ i _ _ TT); rewrite list_lookup_fmap; [by rewrite Ho|by rewrite Hp]. }
  specialize (W3 o (elem_of_list_lookup_2 _ _ _ Ho)). unfold entry_ok in *. cbn [relabel decl_of]. rewrite (ea_type _ _ X).
  destruct (d_type (decl_of o)) eqn:Et.
  all: try (destruct W3 as [W3 W4]; split; [|by apply default_ease]).
  all: first [by eapply option_ease | by eapply positional_ease | by eapply subcommand_ease | by eapply flags_ease].
Qed.
Lemma below_ease D E t t' : Forall2 (Forall2 eased) D E -> below E t t' -> below D t t'.
Proof.
  intros DE (U & i & e & HU & He & Ht & Hs). destruct (Forall2_lookup_r _ _ _ _ _ DE HU) as (T & HT & TU).
  destruct (ea_lookup_r _ _ TU _ _ He) as (d & Hd & X). exists T, i, d. by rewrite <- (ea_type _ _ X), <- (ea_sub _ _ X).
Qed.
Lemma way_ease D E t t' : Forall2 (Forall2 eased) D E -> way_down E t t' -> way_down D t t'.
Proof. intros DE. induction 1; [apply wd_one|eapply wd_more; [|done]]; by eapply below_ease. Qed.
Lemma chain_ease D E stk : Forall2 (Forall2 eased) D E -> forall t, chain E t stk -> chain D t stk.
Proof.
  intros DE. induction stk as [|r stk IH]; intros t; cbn [chain]; [done|].
  intros (U & e & t' & Hr & HU & He & Ht & Hs & [V HV] & C). destruct (Forall2_lookup_r _ _ _ _ _ DE HU) as (T & HT & TU).
  destruct (ea_lookup_r _ _ TU _ _ He) as (d & Hd & X). destruct (Forall2_lookup_r _ _ _ _ _ DE HV) as (W & HW & _).
  exists T, d, t'. rewrite <- (ea_type _ _ X), <- (ea_sub _ _ X). split_and!; try done. by apply IH.
Qed.
Lemma structure_ease a b : eases a b -> tidies a b -> structure_ok a -> structure_ok b.
Proof.
  intros X Y [W1 W2]. pose proof (es_decls _ _ X) as DE. split.
  - intros t Ht. rewrite (es_root _ _ X) in Ht. destruct (W1 t) as (T & HT & WT).
    { destruct Ht as [->|Ht]; [by left|right; by eapply way_ease]. }
    destruct (es_table _ _ _ _ X HT) as (U & HU & TU). exists U. split; [done|]. rewrite (es_heap _ _ X).
    eapply table_ok_ease; [exact TU| |exact WT].
    apply (Forall2_lookup_lr _ _ _ t _ _ Y); unfold decls; rewrite list_lookup_fmap; [by rewrite HT|by rewrite HU].
  - intros stk. rewrite (es_root _ _ X). intros C. apply W2. by eapply chain_ease.
Qed.
Lemma init_ease tabs tabs' root : eases (make_argus tabs root None) (make_argus tabs' root None) ->
  tidies (make_argus tabs root None) (make_argus tabs' root None) ->
  (exists fuel, argus_init fuel tabs root 0 = Ok (Some (make_argus tabs root None), O)) ->
  exists fuel, argus_init fuel tabs' root 0 = Ok (Some (make_argus tabs' root None), O).
Proof.
  intros X Y E. apply init_accepts in E as [_ S]. apply init_accepts. split; [done|]. by eapply structure_ease.
Qed.
End libc.
