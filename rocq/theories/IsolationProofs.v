(** * Proof that parsing touches only the tables in play *)
From Verif Require Import Validate Api LibProofs FrameProofs SpecGrammar GrammarProofs GrammarLemmas
  ActiveProofs SpecAfter AfterProofs EnvProofs CallProofs.
From Coq Require Import Lia.

(** From [a] to [a'] nothing declared changed, the command stack only grew, and every option
    of a table that is not in play in [a'] is as it was. *)
Record steps (a a' : argus) : Prop := Steps {
  st_root : a_root a' = a_root a;
  st_prefix : a_prefix a' = a_prefix a;
  st_decls : decls a' = decls a;
  st_stack : exists more, a_stack a' = a_stack a ++ more;
  st_other : forall t i, ~ in_play a' t -> get_option a' t i = get_option a t i;
}.

Lemma in_play_mono a a' t : a_root a' = a_root a -> decls a' = decls a ->
  (exists more, a_stack a' = a_stack a ++ more) -> in_play a t -> in_play a' t.
Proof.
  intros Hr Hd [more Hs] [->|(r & H1 & H2)]; [by left|right].
  exists r. rewrite Hd, Hs. split; [apply elem_of_app; by left|done].
Qed.
Lemma steps_refl a : steps a a.
Proof. split; try done. exists []. by rewrite app_nil_r. Qed.
Lemma steps_trans a b c : steps a b -> steps b c -> steps a c.
Proof.
  intros [A1 A2 A3 [m1 A4] A5] [B1 B2 B3 [m2 B4] B5]. split; try congruence.
  - exists (m1 ++ m2). rewrite B4, A4, app_assoc. done.
  - intros t i Hn. rewrite B5 by done. apply A5. intros Hi. apply Hn.
    eapply in_play_mono; [done|done| |exact Hi]. eauto.
Qed.
Lemma steps_same_frame a a' t i : in_play a t -> same_frame t i a a' -> steps a a'.
Proof.
  intros Hi [F1 F2 F3 F4 F5]. split; try done.
  - exists []. by rewrite app_nil_r.
  - intros t' i' Hn. apply F5. intros [= -> ->]. apply Hn.
    eapply in_play_mono; [done|done| |done]. exists []. by rewrite app_nil_r.
Qed.
(** Changes of the other components *)
Lemma steps_tabs a a' : a_root a' = a_root a -> a_prefix a' = a_prefix a ->
  a_tabs a' = a_tabs a -> a_stack a' = a_stack a -> steps a a'.
Proof.
  intros H1 H2 H3 H4. split; try done.
  - unfold decls. by rewrite H3.
  - exists []. by rewrite app_nil_r.
  - intros. by apply get_option_tabs.
Qed.
Lemma in_play_steps a a' t : steps a a' -> in_play a t -> in_play a' t.
Proof. intros [] ?. by eapply in_play_mono. Qed.

Section libc.
Context `{Libc}.

Lemma execute_steps a t i v st a' : in_play a t -> execute_callbacks a t i v = Ok (st, a') -> steps a a'.
Proof. intros Hi E. eapply steps_same_frame; [done|]. by eapply execute_callbacks_frame. Qed.

Lemma select_steps a t i a' : in_play a t -> select a t i = Ok a' -> steps a a'.
Proof.
  intros Hi E. apply select_frame in E as (S1 & S2 & S3 & _ & _ & _ & S4 & o & _ & _ & S5).
  assert (Hm : exists more, a_stack a' = a_stack a ++ more) by eauto.
  split; try done. intros t' i' Hn. apply S5. intros [= -> ->]. apply Hn. by eapply in_play_mono.
Qed.

Lemma perform_steps its : forall a t st a', perform a its = Ok (st, a') -> in_play a t ->
  is_Some (ends (decls a) t its) -> steps a a'.
Proof.
  induction its as [|x its IH]; intros a t st a' E Hi He; cbn [perform] in E.
  { injection E as <- <-. apply steps_refl. }
  destruct x as [t0 i v|t0 i|c]; cbn [ends] in He.
  - destruct (decide (t0 = t)) as [->|]; [|by destruct He].
    apply rbind_Ok in E as ([st1 a1] & E1 & E). cbv beta iota in E.
    apply execute_steps in E1; [|done]. destruct (st1 =? 0).
    + eapply steps_trans; [exact E1|]. eapply IH; [exact E|by eapply in_play_steps|].
      by rewrite (st_decls _ _ E1).
    + by injection E as <- <-.
  - destruct (decide (t0 = t)) as [->|]; [|by destruct He].
    apply rbind_Ok in E as (a1 & E1 & E).
    destruct (decls a !! t) as [T|] eqn:ET; [|by destruct He].
    destruct (T !! i) as [d|] eqn:Ed; [|by destruct He].
    destruct (d_sub d) as [t2|] eqn:Es; [|by destruct He].
    pose proof (select_frame _ _ _ _ E1) as (_ & Hstk & _ & _ & _ & _ & Hd & _).
    apply select_steps in E1; [|done].
    eapply steps_trans; [exact E1|]. eapply IH; [exact E| |by rewrite Hd].
    right. exists (t, i). rewrite Hstk, Hd. split; [apply elem_of_app; right; left|].
    unfold subtable. simpl. rewrite ET, Ed. done.
  - injection E as <- <-. by apply steps_tabs.
Qed.

Lemma load_env_from_steps n : forall a t i st a', in_play a t ->
  load_env_from a t i n = Ok (st, a') -> steps a a'.
Proof.
  induction n as [|n IH]; intros a t i st a' Hi E; cbn [load_env_from] in E.
  { injection E as <- <-. apply steps_refl. }
  apply rbind_Ok in E as (o & Ho & E).
  destruct (_ || _); [by eapply IH|]. destruct (_ && _); [by eapply IH|].
  destruct (get_env_var_name _ _) as [nm|]; [|by eapply IH].
  destruct (getenv nm) as [v|]; [|by eapply IH].
  apply rbind_Ok in E as ([st1 a1] & E1 & E). cbv beta iota in E.
  apply execute_steps in E1; [|done].
  pose proof (in_play_steps _ _ _ E1 Hi) as Hi1.
  destruct (st1 =? SUCCESS); [eapply steps_trans; [exact E1|by eapply IH]|].
  destruct (is_set o); [|by injection E as <- <-].
  apply rbind_Ok in E as (o' & Ho' & E). injection E as <- <-.
  eapply steps_trans; [exact E1|]. eapply steps_same_frame; [exact Hi1|].
  eapply same_frame_put; [exact Ho'|done].
Qed.
Lemma load_env_steps a t st a' : in_play a t -> load_env a t = Ok (st, a') -> steps a a'.
Proof.
  unfold load_env. intros Hi E. apply rbind_Ok in E as (T & _ & E). by eapply load_env_from_steps.
Qed.
Lemma sub_of_in_play a r t : r ∈ a_stack a -> sub_of a r = Ok (Some t) -> in_play a t.
Proof.
  intros Hr E. rewrite sub_of_decls in E. right. exists r. split; [done|].
  unfold subtable. destruct (decls a !! fst r) as [T|]; [|done].
  destruct (T !! snd r) as [d|]; [|done]. by injection E.
Qed.
Lemma load_env_stack_steps stk : forall a st a', (forall r, r ∈ stk -> r ∈ a_stack a) ->
  load_env_stack a stk = Ok (st, a') -> steps a a'.
Proof.
  induction stk as [|r stk IH]; intros a st a' Hs E; cbn [load_env_stack] in E.
  { injection E as <- <-. apply steps_refl. }
  apply rbind_Ok in E as (s & Hsub & E).
  assert (Hs' : forall r', r' ∈ stk -> r' ∈ a_stack a) by (intros; apply Hs; by right).
  destruct s as [t|]; [|by eapply IH].
  apply rbind_Ok in E as ([st1 a1] & E1 & E). cbv beta iota in E.
  apply load_env_steps in E1; [|eapply sub_of_in_play; [|exact Hsub]; apply Hs; left].
  destruct (st1 =? SUCCESS); [|by injection E as <- <-].
  eapply steps_trans; [exact E1|]. eapply IH; [|exact E].
  intros r' Hr'. destruct (st_stack _ _ E1) as [more ->]. apply elem_of_app. left. auto.
Qed.
Lemma load_env_vars_steps a st a' : load_env_vars a = Ok (st, a') -> steps a a'.
Proof.
  unfold load_env_vars. intros E. apply rbind_Ok in E as ([st1 a1] & E1 & E). cbv beta iota in E.
  apply load_env_steps in E1; [|by left].
  destruct (st1 =? SUCCESS); [|by injection E as <- <-].
  eapply steps_trans; [exact E1|]. by eapply load_env_stack_steps.
Qed.

Lemma free_option_steps a t i a' : in_play a t -> free_option a t i = Ok a' -> steps a a'.
Proof.
  unfold free_option. intros Hi E. apply rbind_Ok in E as (o & Ho & E).
  apply rbind_Ok in E as ([[] s] & Es & E). injection E as <-.
  apply (steps_trans _ (put_option a t i (h_opt s))); [|by apply steps_tabs].
  eapply steps_same_frame; [exact Hi|]. eapply same_frame_put; [exact Ho|].
  by apply (keeps_free_option _ _ _ Es).
Qed.
Lemma free_options_from_steps n : forall a t i a', in_play a t ->
  free_options_from a t i n = Ok a' -> steps a a'.
Proof.
  induction n as [|n IH]; intros a t i a' Hi E; cbn [free_options_from] in E.
  { injection E as <-. apply steps_refl. }
  apply rbind_Ok in E as (a1 & E1 & E). apply free_option_steps in E1; [|done].
  eapply steps_trans; [exact E1|]. eapply IH; [|exact E]. by eapply in_play_steps.
Qed.
Lemma free_options_steps a t a' : in_play a t -> free_options a (Some t) = Ok a' -> steps a a'.
Proof.
  unfold free_options. intros Hi E. apply rbind_Ok in E as (T & _ & E).
  by eapply free_options_from_steps.
Qed.
Lemma free_stack_steps stk : forall a a', (forall r, r ∈ stk -> r ∈ a_stack a) ->
  free_stack a stk = Ok a' -> steps a a'.
Proof.
  induction stk as [|r stk IH]; intros a a' Hs E; cbn [free_stack] in E.
  { injection E as <-. apply steps_refl. }
  apply rbind_Ok in E as (s & Hsub & E). apply rbind_Ok in E as (a1 & E1 & E).
  destruct s as [t|]; [|done].
  apply free_options_steps in E1; [|eapply sub_of_in_play; [|exact Hsub]; apply Hs; left].
  eapply steps_trans; [exact E1|]. eapply IH; [|exact E].
  intros r' Hr'. destruct (st_stack _ _ E1) as [more ->]. apply elem_of_app. left. apply Hs. by right.
Qed.
Lemma argus_free_steps a a' : argus_free a = Ok a' -> steps a a'.
Proof.
  unfold argus_free. intros E. apply rbind_Ok in E as (a1 & E1 & E).
  apply free_options_steps in E1; [|by left].
  eapply steps_trans; [exact E1|]. by eapply free_stack_steps.
Qed.

Lemma events_steps a l : steps a (apply_events a l).
Proof.
  apply steps_tabs; [apply apply_events_root|apply apply_events_prefix|apply apply_events_tabs|
    apply apply_events_stack].
Qed.
Lemma validate_table_steps a tp st a' : validate_table a tp = Ok (st, a') -> steps a a'.
Proof.
  unfold validate_table. intros E. apply rbind_Ok in E as (T & _ & E).
  apply rbind_Ok in E as ([st1 ev] & _ & E). injection E as <- <-. apply events_steps.
Qed.
Lemma validate_stack_steps stk : forall a st a', validate_stack a stk = Ok (st, a') -> steps a a'.
Proof.
  induction stk as [|r stk IH]; intros a st a' E; cbn [validate_stack] in E.
  { injection E as <- <-. apply steps_refl. }
  apply rbind_Ok in E as (s & _ & E). apply rbind_Ok in E as ([st1 a1] & E1 & E). cbv beta iota in E.
  apply validate_table_steps in E1. destruct (st1 =? SUCCESS); [|by injection E as <- <-].
  eapply steps_trans; [exact E1|]. by eapply IH.
Qed.
Lemma post_steps a st a' : post_parse_validation a = Ok (st, a') -> steps a a'.
Proof.
  unfold post_parse_validation. intros E. apply rbind_Ok in E as ([st1 a1] & E1 & E). cbv beta iota in E.
  apply validate_table_steps in E1. destruct (st1 =? SUCCESS); [|by injection E as <- <-].
  eapply steps_trans; [exact E1|]. by eapply validate_stack_steps.
Qed.

Lemma parse_steps a argv o a' : subs_present (decls a) -> is_Some (decls a !! a_root a) ->
  argus_parse a argv = Ok (o, a') -> steps a a'.
Proof.
  intros HS HR E. destruct (reads_total _ _ 0%nat false argv HS HR) as [its Hr].
  unfold argus_parse in E. rewrite (parse_reads _ _ _ _ _ _ HS HR Hr) in E.
  apply rbind_Ok in E as ([st a1] & Hp & E). cbv beta iota zeta in E.
  apply (perform_steps _ _ (a_root a)) in Hp; [|by left|by eapply reads_ends].
  eapply steps_trans; [exact Hp|].
  destruct (st =? SHOULD_EXIT).
  { apply rbind_Ok in E as (a2 & E2 & E). injection E as <- <-. apply argus_free_steps in E2.
    eapply steps_trans; [|exact E2]. by apply steps_tabs. }
  destruct (negb _).
  { apply rbind_Ok in E as (a2 & E2 & E). injection E as <- <-. apply argus_free_steps in E2.
    eapply steps_trans; [|exact E2]. by apply steps_tabs. }
  apply rbind_Ok in E as ([st2 a2] & E2 & E). cbv beta iota in E.
  apply load_env_vars_steps in E2.
  eapply steps_trans; [|eapply steps_trans; [exact E2|]]; [by apply steps_tabs|].
  destruct (negb _).
  { apply rbind_Ok in E as (a3 & E3 & E). injection E as <- <-. by apply argus_free_steps. }
  apply rbind_Ok in E as ([st3 a3] & E3 & E). cbv beta iota in E. apply post_steps in E3.
  eapply steps_trans; [exact E3|].
  destruct (negb _); [|injection E as <- <-; apply steps_refl].
  apply rbind_Ok in E as (a4 & E4 & E). injection E as <- <-. by apply argus_free_steps.
Qed.

Lemma steps_table a a' t : steps a a' -> ~ in_play a' t -> a_tabs a' !! t = a_tabs a !! t.
Proof.
  intros [S1 S2 S3 S4 S5] Hn. destruct (a_tabs a !! t) as [T|] eqn:ET.
  - eapply same_options_table; [exact S3|exact ET|]. intros i. by apply S5.
  - assert (Hd : decls a' !! t = decls a !! t) by congruence. unfold decls in Hd.
    rewrite !list_lookup_fmap, ET in Hd. by destruct (a_tabs a' !! t).
Qed.

Lemma isolation a argv o a' : subs_present (decls a) -> is_Some (decls a !! a_root a) ->
  argus_parse a argv = Ok (o, a') ->
  decls a' = decls a /\ a_root a' = a_root a /\ a_prefix a' = a_prefix a /\
  forall t, ~ in_play a' t -> a_tabs a' !! t = a_tabs a !! t.
Proof.
  intros HS HR E. apply parse_steps in E; [|done|done]. split_and!; try apply E.
  intros t. by apply steps_table.
Qed.
End libc.
