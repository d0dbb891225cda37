(** * A command seen as a program of its own: the whole parse (C90) *)
From Coq Require Import Lia.
From Verif Require Import SpecNest LibProofs FrameProofs GrammarProofs GrammarLemmas ActiveProofs EnvProofs
  IsolationProofs SpecStructure StructProofs ExtendProofs ExtendWhole NestProofs SpecAfter.

Lemma chain_good D r t stk : (forall t1, reachable D t t1 -> t1 <> r) -> chain D t stk -> forall q, q ∈ stk -> good r D q.
Proof.
  revert t. induction stk as [|q0 stk IH]; intros t K; cbn [chain]; [by intros _ q Hq; apply elem_of_nil in Hq|].
  intros (T & d & t1 & E & HT & Hd & Hty & Hs & _ & Hc) q Hq. assert (B : below D t t1) by (exists T, (snd q0), d; done).
  apply elem_of_cons in Hq as [->|Hq].
  - split; [rewrite E; apply K; by left|]. exists t1. split; [unfold subtable; by rewrite E, HT, Hd|]. apply K. right. by apply wd_one.
  - eapply (IH t1); [|done|done]. intros t2 Ht2. apply K. by eapply reach_step.
Qed.
Lemma reads_clear D r t k only argv its : subs_present D -> is_Some (D !! t) -> (forall t1, reachable D t t1 -> t1 <> r) ->
  reads D t k only argv its -> Forall (clear r D) its.
Proof.
  intros HS HT K Hr. apply Forall_forall. intros [t1 j v|t1 j|c m] Hx; cbn [clear]; [| |done].
  - apply K. by eapply reads_calls.
  - eapply (chain_good D r t (entered its)); [done|by eapply reads_chain|]. apply elem_of_list_omap. by exists (Enter t1 j).
Qed.

Section nest.
Context `{Libc}.

Lemma select_up a T i o0 t' : a_stack a = [] -> a_tabs a !! a_root a = Some T -> T !! i = Some o0 ->
  select a (a_root a) i = Ok (as_command (a_root a) i T (as_program t' a)).
Proof.
  intros Hs HT Hi. unfold select. rewrite (proj2 (get_option_Ok a (a_root a) i o0)) by eauto. cbn [rbind]. rewrite Hs.
  cbn [length]. change (0 <? 8)%nat with true. cbv iota. f_equal. unfold as_command, as_program, set_stack, put_option, set_tabs. cbn.
  rewrite Hs. f_equal. apply list_eq. intros k. destruct (decide (k = a_root a)) as [->|N].
  - rewrite list_lookup_alter, HT. cbn. rewrite list_lookup_insert by (by eapply lookup_lt_Some). f_equal.
    unfold marked. apply list_eq. intros j. destruct (decide (j = i)) as [->|M].
    + rewrite list_lookup_insert by (by eapply lookup_lt_Some). by rewrite list_lookup_alter, Hi.
    + by rewrite list_lookup_insert_ne, list_lookup_alter_ne.
  - by rewrite list_lookup_alter_ne, list_lookup_insert_ne.
Qed.

Lemma steps_length a b : steps a b -> (length (a_stack a) <= length (a_stack b))%nat.
Proof. intros S. destruct (st_stack _ _ S) as [m ->]. rewrite app_length. lia. Qed.

Lemma nested_start a T i o0 t' w argv : fresh a -> a_tabs a !! a_root a = Some T ->
  (forall s, w <> "-"%char :: s) -> selects (map decl_of T) w i -> T !! i = Some o0 -> d_sub (decl_of o0) = Some t' ->
  exists its, reads (decls a) t' 0 false argv its /\
    parse_args (as_program t' a) (Some t') 0 false argv = perform (as_program t' a) its /\
    parse_args a (Some (a_root a)) 0 false (w :: argv) = perform (as_command (a_root a) i T (as_program t' a)) its /\
    inv (a_root a) t' (decls a) (a_prefix a) (as_program t' a) /\ Forall (clear (a_root a) (decls a)) its /\
    decls a !! a_root a = Some (map decl_of T) /\ d_type (decl_of o0) = TSubcommand /\ t' <> a_root a.
Proof.
  intros [Hst Herr HR HS Hac Hnm] HT Hw Hsel Hi Hsub.
  assert (HD : decls a !! a_root a = Some (map decl_of T)) by (unfold decls; by rewrite list_lookup_fmap, HT).
  assert (Hd : map decl_of T !! i = Some (decl_of o0)) by (by rewrite list_lookup_fmap, Hi).
  pose proof (selects_sub _ _ _ _ Hsel Hd) as Hty.
  destruct (HS _ _ _ _ HD Hd Hty) as (t1 & E1 & HR'). rewrite Hsub in E1. injection E1 as <-.
  assert (B : below (decls a) (a_root a) t') by (exists (map decl_of T), i, (decl_of o0); done).
  assert (K : forall t1, reachable (decls a) t' t1 -> t1 <> a_root a).
  { intros t1 Hr ->. apply (Hac (a_root a) (or_introl eq_refl)). destruct Hr as [Hr|Hr].
    - apply wd_one. by rewrite Hr at 2.
    - by eapply wd_more. }
  destruct (reads_total (decls a) t' 0%nat false argv HS HR') as [its Hr]. exists its. split; [done|]. split.
  { by apply (argus_parse_perform (as_program t' a) argv its). }
  split.
  { rewrite (argus_parse_perform a (w :: argv) (Enter (a_root a) i :: its) HS HR).
    - cbn [perform]. by rewrite (select_up a T i o0 t' Hst HT Hi).
    - by eapply r_sub. }
  split_and!; try done.
  - split; try done. cbn. rewrite Hst. intros q Hq. by apply elem_of_nil in Hq.
  - by eapply reads_clear.
  - apply K. by left.
Qed.

Lemma nested a T i o0 t' w argv o b : fresh a -> a_tabs a !! a_root a = Some T ->
  (forall s, w <> "-"%char :: s) -> selects (map decl_of T) w i -> T !! i = Some o0 -> d_sub (decl_of o0) = Some t' ->
  idle a T i -> argus_parse (as_program t' a) argv = Ok (o, b) -> (length (a_stack b) < 8)%nat ->
  argus_parse a (w :: argv) = Ok (o, as_command (a_root a) i T b).
Proof.
  intros Hf HT Hw Hsel Hi Hsub Hid E L.
  destruct (nested_start a T i o0 t' w argv Hf HT Hw Hsel Hi Hsub) as (its & Hr & P & P' & I & Hc & HD & Hty & Htr).
  unfold argus_parse in *. change (a_root (as_program t' a)) with t' in E. rewrite P in E. rewrite P'.
  apply rbind_Ok in E as ([st b1] & E1 & E). cbv beta iota zeta in E.
  assert (L1 : (length (a_stack b1) < MAX_SUBCOMMAND_DEPTH)%nat).
  { eapply Nat.le_lt_trans; [|exact L]. destruct (st =? SHOULD_EXIT).
    { apply rbind_Ok in E as (b2 & E2 & E). injection E as <- <-. apply argus_free_steps, steps_length in E2. exact E2. }
    destruct (negb (st =? SUCCESS)).
    { apply rbind_Ok in E as (b2 & E2 & E). injection E as <- <-. apply argus_free_steps, steps_length in E2. exact E2. }
    apply rbind_Ok in E as ([st2 b2] & E2 & E). apply load_env_vars_steps, steps_length in E2. change (a_stack (set_err b1 st)) with (a_stack b1) in E2.
    destruct (negb (st2 =? SUCCESS)).
    { apply rbind_Ok in E as (b3 & E3 & E). injection E as <- <-. apply argus_free_steps, steps_length in E3. lia. }
    apply rbind_Ok in E as ([st3 b3] & E3 & E). apply post_steps, steps_length in E3.
    destruct (negb (st3 =? SUCCESS)); [|injection E as <- <-; lia].
    apply rbind_Ok in E as (b4 & E4 & E). injection E as <- <-. apply argus_free_steps, steps_length in E4. lia. }
  destruct (perform_up _ _ _ _ _ _ _ Hi Hsub HD Htr its _ _ _ I Hc E1 L1) as [-> I1]. cbn [rbind]. cbv beta iota zeta.
  change (set_err (as_command ?r i T b1) st) with (as_command r i T (set_err b1 st)).
  assert (I2 : inv (a_root a) t' (decls a) (a_prefix a) (set_err b1 st)) by (by destruct I1).
  destruct (st =? SHOULD_EXIT).
  { apply rbind_Ok in E as (b2 & E2 & E). injection E as <- <-.
    by rewrite (free_up _ _ _ _ _ _ _ Hi Hsub HD Htr a Hid _ _ I2 E2). }
  destruct (negb (st =? SUCCESS)).
  { apply rbind_Ok in E as (b2 & E2 & E). injection E as <- <-.
    change (add_log (as_command ?r i T ?c) ?l) with (as_command r i T (add_log c l)).
    assert (I3 : inv (a_root a) t' (decls a) (a_prefix a) (add_log (set_err b1 st) [EUsage])) by (by destruct I1).
    by rewrite (free_up _ _ _ _ _ _ _ Hi Hsub HD Htr a Hid _ _ I3 E2). }
  apply rbind_Ok in E as ([st2 b2] & E2 & E).
  destruct (load_vars_up _ _ _ _ _ _ _ Hi Hsub Hty HD Htr a eq_refl Hid _ _ _ I2 E2) as [-> I3]. cbn [rbind].
  destruct (negb (st2 =? SUCCESS)).
  { apply rbind_Ok in E as (b3 & E3 & E). injection E as <- <-.
    by rewrite (free_up _ _ _ _ _ _ _ Hi Hsub HD Htr a Hid _ _ I3 E3). }
  apply rbind_Ok in E as ([st3 b3] & E3 & E).
  destruct (post_up _ _ _ _ _ _ _ Hi Hsub Hty HD Htr a Hid _ _ _ I3 E3) as [-> I4]. cbn [rbind].
  destruct (negb (st3 =? SUCCESS)); [|by injection E as <- <-].
  apply rbind_Ok in E as (b4 & E4 & E). injection E as <- <-.
  by rewrite (free_up _ _ _ _ _ _ _ Hi Hsub HD Htr a Hid _ _ I4 E4).
Qed.

(** Reading alone needs nothing of the program's own table. *)
Lemma nested_reading a T i o0 t' w argv st b : fresh a -> a_tabs a !! a_root a = Some T ->
  (forall s, w <> "-"%char :: s) -> selects (map decl_of T) w i -> T !! i = Some o0 -> d_sub (decl_of o0) = Some t' ->
  parse_args (as_program t' a) (Some t') 0 false argv = Ok (st, b) -> (length (a_stack b) < 8)%nat ->
  parse_args a (Some (a_root a)) 0 false (w :: argv) = Ok (st, as_command (a_root a) i T b).
Proof.
  intros Hf HT Hw Hsel Hi Hsub E L.
  destruct (nested_start a T i o0 t' w argv Hf HT Hw Hsel Hi Hsub) as (its & Hr & P & P' & I & Hc & HD & Hty & Htr).
  rewrite P in E. rewrite P'. by apply (perform_up _ _ _ _ _ _ _ Hi Hsub HD Htr its _ _ _ I Hc E L).
Qed.
End nest.
