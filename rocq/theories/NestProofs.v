(** * Proofs: a command seen as a program of its own (C90) *)
From Coq Require Import Lia.
From Verif Require Import SpecNest LibProofs FrameProofs GrammarProofs GrammarLemmas ActiveProofs EnvProofs
  IsolationProofs SpecStructure StructProofs ExtendProofs ExtendWhole SpecAfter.

Section nest.
Context `{Libc} (r i t' : nat) (T : list opt) (D : list (list decl)) (pf : option cstr).
Context (o0 : opt) (Hi : T !! i = Some o0) (Hsub : d_sub (decl_of o0) = Some t') (Htype : d_type (decl_of o0) = TSubcommand).
Context (HT : D !! r = Some (map decl_of T)) (Htr : t' <> r).
Notation up := (as_command r i T).
Notation U := (marked i T).

Definition good (q : nat * nat) : Prop := fst q <> r /\ exists t1, subtable D q = Some t1 /\ t1 <> r.
Record inv (b : argus) : Prop := Inv {
  in_decls : decls b = D;
  in_root : a_root b = t';
  in_prefix : a_prefix b = pf;
  in_stack : forall q, q ∈ a_stack b -> good q;
}.

Lemma up_root b : inv b -> a_tabs (up b) !! r = Some U.
Proof.
  intros I. cbn. apply list_lookup_insert. apply lookup_lt_is_Some. pose proof HT as X. rewrite <- (in_decls b I) in X.
  unfold decls in X. rewrite list_lookup_fmap in X. destruct (a_tabs b !! r); [by eexists|done].
Qed.
Lemma up_table b t : t <> r -> a_tabs (up b) !! t = a_tabs b !! t.
Proof. intros N. cbn. by apply list_lookup_insert_ne. Qed.
Lemma up_tab b t : t <> r -> table (up b) t = table b t.
Proof. intros N. unfold table. by rewrite up_table. Qed.
Lemma up_get b t j : t <> r -> get_option (up b) t j = get_option b t j.
Proof. intros N. unfold get_option. by rewrite up_tab. Qed.
Lemma up_put b t j o : t <> r -> put_option (up b) t j o = up (put_option b t j o).
Proof.
  intros N. unfold put_option, as_command, set_tabs. cbn. f_equal.
  apply list_eq. intros k. destruct (decide (k = t)) as [->|Nk].
  - rewrite list_lookup_alter, !list_lookup_insert_ne by done. by rewrite list_lookup_alter.
  - rewrite list_lookup_alter_ne by done. destruct (decide (k = r)) as [->|Nr].
    + destruct (decide (r < length (a_tabs b))%nat) as [L|L].
      * rewrite !list_lookup_insert; [done|by rewrite alter_length|done].
      * rewrite !lookup_ge_None_2; [done|rewrite insert_length, alter_length; lia|rewrite insert_length; lia].
    + rewrite !list_lookup_insert_ne by done. by rewrite list_lookup_alter_ne.
Qed.
Lemma up_events l : forall b, apply_events (up b) l = up (apply_events b l).
Proof.
  induction l as [|e l IH]; intros b; [done|].
  change (apply_events (apply_event (up b) e) l = up (apply_events (apply_event b e) l)). rewrite <- IH. f_equal.
  by destruct e.
Qed.
Lemma up_sub b q : good q -> sub_of (up b) q = sub_of b q.
Proof. intros [N _]. unfold sub_of. by rewrite up_get. Qed.
Lemma good_sub b q s : inv b -> good q -> sub_of b q = Ok s -> exists t1, s = Some t1 /\ t1 <> r.
Proof.
  intros I (_ & t1 & E & N) Hs. rewrite sub_of_decls, (in_decls b I) in Hs. unfold subtable in E.
  destruct (D !! fst q) as [T1|]; [|done]. destruct (T1 !! snd q) as [d|]; [|done]. injection Hs as <-. eauto.
Qed.
Lemma marked_i : U !! i = Some (with_set o0 true).
Proof. unfold marked. by rewrite list_lookup_alter, Hi. Qed.
Lemma up_sub0 b : inv b -> sub_of (up b) (r, i) = Ok (Some t').
Proof.
  intros I. unfold sub_of. cbn [fst snd]. rewrite (proj2 (get_option_Ok (up b) r i (with_set o0 true))); [by cbn; rewrite Hsub|].
  exists U. split; [by apply up_root|apply marked_i].
Qed.
Lemma inv_tabs a b : inv a -> decls b = decls a -> a_root b = a_root a -> a_prefix b = a_prefix a -> a_stack b = a_stack a -> inv b.
Proof. intros [] H1 H2 H3 H4. split; congruence || (by rewrite H4). Qed.
Lemma inv_sized a b : inv a -> sized a b -> inv b.
Proof. intros I (S1 & S2 & S3 & S4). by apply (inv_tabs a). Qed.
Lemma inv_events b l : inv b -> inv (apply_events b l).
Proof.
  intros I. apply (inv_tabs b); [done|unfold decls; by rewrite apply_events_tabs|apply apply_events_root|apply apply_events_prefix|apply apply_events_stack].
Qed.

(** The active options, and that there are some *)
Lemma up_active b act : inv b -> get_active_options b = Ok act -> get_active_options (up b) = Ok act /\ is_Some act.
Proof.
  intros I. unfold get_active_options. cbn [as_command a_stack].
  destruct (a_stack b) as [|q stk] eqn:Es.
  - cbn. intros [= <-]. rewrite (in_root b I). split; [by apply up_sub0|by eexists].
  - assert (L : exists q1, last (q :: stk) = Some q1) by (apply last_is_Some; done). destruct L as [q1 L].
    assert (L2 : last ((r, i) :: q :: stk) = Some q1) by (by rewrite last_cons, L).
    rewrite L, L2. apply last_Some_elem_of in L. rewrite <- Es in L. pose proof (in_stack b I _ L) as G.
    intros E. change (a_stack (up b)) with ((r, i) :: a_stack b). rewrite (up_sub b q1 G). split; [done|].
    destruct (good_sub _ _ _ I G E) as (t1 & -> & _). by eexists.
Qed.

Lemma exec_up b t j v st b' : inv b -> t <> r -> execute_callbacks b t j v = Ok (st, b') ->
  execute_callbacks (up b) t j v = Ok (st, up b').
Proof.
  intros I N. unfold execute_callbacks. intros E. apply rbind_Ok in E as (o & Ho & E). rewrite up_get, Ho by done. cbn [rbind].
  destruct (d_handler (decl_of o)) as [f|]; [|by injection E as <- <-].
  change (a_heap (up b)) with (a_heap b).
  apply rbind_Ok in E as ([st1 ev] & Hv & E). rewrite Hv. cbn [rbind]. rewrite up_events.
  destruct (negb (st1 =? SUCCESS)); [by injection E as <- <-|].
  set (a1 := apply_events b ev) in *. assert (I1 : inv a1) by (by apply inv_events).
  apply rbind_Ok in E as (act & Ha & E). destruct (up_active _ _ I1 Ha) as [-> [t1 ->]]. cbn [rbind default from_option id].
  cbn [default from_option id] in E.
  apply rbind_Ok in E as ([st2 s] & Hs & E). change (a_heap (up a1)) with (a_heap a1). cbv beta iota zeta. rewrite Hs. cbn [rbind].
  rewrite up_put by done. change (set_heap (up ?b) ?h) with (up (set_heap b h)). rewrite up_events.
  set (a2 := apply_events _ (h_log s)) in *.
  destruct (negb (st2 =? SUCCESS)); [by injection E as <- <-|].
  apply rbind_Ok in E as (o2 & Ho2 & E). rewrite up_get, Ho2 by done. cbn [rbind].
  rewrite up_put by done. destruct (has _ FLAG_EXIT); by injection E as <- <-.
Qed.
Lemma exec_inv b t j v st b' : inv b -> execute_callbacks b t j v = Ok (st, b') -> inv b'.
Proof. intros I E. eapply inv_sized; [exact I|]. by eapply exec_sized. Qed.

(** Items that stay clear of the program's own table *)
Definition clear (x : item) : Prop :=
  match x with Call t _ _ => t <> r | Enter t j => good (t, j) | Reject _ _ => True end.
Lemma perform_grows its : forall b st b', perform b its = Ok (st, b') -> (length (a_stack b) <= length (a_stack b'))%nat.
Proof.
  induction its as [|x its IH]; intros b st b'; cbn [perform]; [by intros [= <- <-]|]. destruct x as [t j v|t j|c m].
  - intros E. apply rbind_Ok in E as ([st1 b1] & E1 & E). apply execute_callbacks_frame in E1 as [_ S _ _ _].
    destruct (st1 =? 0); [apply IH in E|injection E as <- <-]; by rewrite <- S.
  - intros E. apply rbind_Ok in E as (b1 & E1 & E). apply select_frame in E1 as (S1 & S2 & S3 & S4 & S5 & S6 & S7 & S8).
    apply IH in E. rewrite S2, app_length in E. lia.
  - by intros [= <- <-].
Qed.
Lemma perform_up its : forall b st b', inv b -> Forall clear its -> perform b its = Ok (st, b') ->
  (length (a_stack b') < MAX_SUBCOMMAND_DEPTH)%nat -> perform (up b) its = Ok (st, up b') /\ inv b'.
Proof.
  induction its as [|x its IH]; intros b st b' I Hc; cbn [perform]; [by intros [= <- <-]|].
  apply Forall_cons in Hc as [Hx Hc]. destruct x as [t j v|t j|c m]; cbn [clear] in Hx.
  - intros E L. apply rbind_Ok in E as ([st1 b1] & E1 & E). rewrite (exec_up _ _ _ _ _ _ I Hx E1). cbn [rbind].
    pose proof (exec_inv _ _ _ _ _ _ I E1). destruct (st1 =? 0); [by apply IH|by injection E as <- <-].
  - intros E L. apply rbind_Ok in E as (b1 & E1 & E). pose proof (perform_grows _ _ _ _ E) as G.
    unfold select in *. apply rbind_Ok in E1 as (o & Ho & E1). rewrite up_get, Ho by apply Hx. cbn [rbind].
    destruct (_ <? _)%nat eqn:El in E1; [|done]. injection E1 as <-. cbn [a_stack set_stack] in G. rewrite app_length in G. cbn [length] in G.
    change (a_stack (up b)) with ((r, i) :: a_stack b). cbn [length].
    assert (El' : (S (length (a_stack b)) <? 8)%nat = true) by (apply Nat.ltb_lt; unfold MAX_SUBCOMMAND_DEPTH in L; lia).
    unfold MAX_SUBCOMMAND_DEPTH. rewrite El'. cbn [rbind]. rewrite up_put by apply Hx.
    eapply (IH (set_stack (put_option b t j (with_set o true)) (a_stack b ++ [(t, j)]))); try done.
    split; try apply I.
    + change (decls (put_option b t j (with_set o true)) = D). rewrite (decls_put _ _ _ _ _ Ho) by done. apply I.
    + cbn. intros q Hq. apply elem_of_app in Hq as [Hq|Hq]; [by apply I|]. apply elem_of_list_singleton in Hq as ->. done.
  - intros [= <- <-] L. split; [by destruct b|]. by apply (inv_events b [EDiag c m]).
Qed.

(** ** The environment *)
Lemma env_up n : forall b t j st b', inv b -> t <> r -> load_env_from b t j n = Ok (st, b') ->
  load_env_from (up b) t j n = Ok (st, up b').
Proof.
  induction n as [|n IH]; intros b t j st b' I N; cbn [load_env_from]; [by intros [= <- <-]|].
  intros E. apply rbind_Ok in E as (o & Ho & E). rewrite up_get, Ho by done. cbn [rbind].
  change (a_prefix (up b)) with (a_prefix b).
  destruct (_ || _); [by apply IH|]. destruct (_ && _); [by apply IH|].
  destruct (get_env_var_name _ _); [|by apply IH]. destruct (getenv _); [|by apply IH].
  apply rbind_Ok in E as ([st1 a1] & E1 & E). rewrite (exec_up _ _ _ _ _ _ I N E1). cbn [rbind].
  pose proof (exec_inv _ _ _ _ _ _ I E1) as I1.
  destruct (st1 =? SUCCESS); [by apply IH|]. destruct (is_set o); [|by injection E as <- <-].
  apply rbind_Ok in E as (o1 & Ho1 & E). rewrite up_get, Ho1 by done. cbn [rbind].
  injection E as <- <-. by rewrite up_put.
Qed.
Lemma load_up b t st b' : inv b -> t <> r -> load_env b t = Ok (st, b') -> load_env (up b) t = Ok (st, up b') /\ inv b'.
Proof.
  unfold load_env. intros I N E. rewrite up_tab by done. destruct (table b t) as [T1|]; [|done]. cbn [rbind] in *.
  split; [by apply env_up|]. eapply inv_sized; [exact I|]. by eapply env_sized.
Qed.
Lemma load_stack_up stk : forall b st b', inv b -> Forall good stk -> load_env_stack b stk = Ok (st, b') ->
  load_env_stack (up b) stk = Ok (st, up b') /\ inv b'.
Proof.
  induction stk as [|q stk IH]; intros b st b' I G; cbn [load_env_stack]; [by intros [= <- <-]|].
  apply Forall_cons in G as [Gq G]. intros E. apply rbind_Ok in E as (s & Hs & E). rewrite up_sub, Hs by done. cbn [rbind].
  destruct (good_sub _ _ _ I Gq Hs) as (t1 & -> & N). apply rbind_Ok in E as ([st1 b1] & E1 & E).
  destruct (load_up _ _ _ _ I N E1) as [-> I1]. cbn [rbind]. destruct (st1 =? SUCCESS); [by apply IH|by injection E as <- <-].
Qed.
Lemma stack_good b : inv b -> Forall good (a_stack b).
Proof. intros I. apply Forall_forall, I. Qed.
Lemma marked_inv j u : U !! j = Some u -> exists o, T !! j = Some o /\ (j <> i /\ u = o \/ j = i /\ u = with_set o true).
Proof.
  unfold marked. destruct (decide (j = i)) as [->|N].
  - rewrite list_lookup_alter. destruct (T !! i) as [o|]; [|done]. intros [= <-]. exists o. eauto.
  - rewrite list_lookup_alter_ne by done. intros E. exists u. eauto.
Qed.
Lemma marked_length : length U = length T.
Proof. apply alter_length. Qed.

Context (a0 : argus) (Hpf : a_prefix a0 = pf) (Hidle : idle a0 T i).
Lemma up_get_root b j u : inv b -> U !! j = Some u -> get_option (up b) r j = Ok u.
Proof. intros I Hu. apply get_option_Ok. exists U. split; [by apply up_root|done]. Qed.
Lemma idle_env n : forall b j, inv b -> (j + n <= length T)%nat -> load_env_from (up b) r j n = Ok (SUCCESS, up b).
Proof.
  induction n as [|n IH]; intros b j I L; cbn [load_env_from]; [done|].
  destruct (lookup_lt_is_Some_2 U j) as [u Hu]; [rewrite marked_length; lia|].
  rewrite (up_get_root _ _ _ I Hu). cbn [rbind]. change (a_prefix (up b)) with (a_prefix b). rewrite (in_prefix b I).
  destruct (marked_inv _ _ Hu) as (o & Ho & [[N ->]|[-> ->]]).
  - rewrite <- env_variable_eq. destruct (_ || _); [apply IH; [done|lia]|]. destruct (_ && _); [apply IH; [done|lia]|].
    destruct (env_variable pf (decl_of o)) as [v|] eqn:Ev; [|apply IH; [done|lia]].
    rewrite (id_environment _ _ _ Hidle o v); [apply IH; [done|lia]|by eapply elem_of_list_lookup_2|by rewrite Hpf].
  - rewrite Hi in Ho. injection Ho as <-. unfold is_type. cbn [with_set decl_of]. rewrite Htype. cbn. apply IH; [done|lia].
Qed.
Lemma load_vars_up b st b' : inv b -> load_env_vars b = Ok (st, b') -> load_env_vars (up b) = Ok (st, up b') /\ inv b'.
Proof.
  intros I. unfold load_env_vars. intros E.
  assert (X : load_env (up b) (a_root (up b)) = Ok (SUCCESS, up b)).
  { unfold load_env, table. cbn [as_command a_root]. fold (up b). rewrite (up_root b I). cbn [rbind]. rewrite marked_length. by apply idle_env. }
  rewrite X. cbn [rbind]. change (SUCCESS =? SUCCESS) with true. cbv iota. change (a_stack (up b)) with ((r, i) :: a_stack b).
  cbn [load_env_stack]. rewrite (up_sub0 b I). cbn [rbind]. apply rbind_Ok in E as ([st1 b1] & E1 & E).
  rewrite (in_root b I) in E1. pose proof E1 as E1'. unfold load_env in E1'. apply rbind_Ok in E1' as (T1 & _ & E1').
  apply env_sized in E1' as (_ & S & _). destruct (load_up _ _ _ _ I Htr E1) as [-> I1]. cbn [rbind].
  destruct (st1 =? SUCCESS); [|by injection E as <- <-]. rewrite <- S. apply load_stack_up; [done|by apply stack_good|done].
Qed.

(** ** The checks *)
Lemma table_up b t st b' : inv b -> t <> r -> validate_table b (Some t) = Ok (st, b') ->
  validate_table (up b) (Some t) = Ok (st, up b') /\ inv b' /\ a_stack b' = a_stack b.
Proof.
  intros I N. unfold validate_table, table_ptr. rewrite up_tab by done. destruct (table b t) as [T1|]; [|done]. cbn [rbind].
  change (a_heap (up b)) with (a_heap b). intros E. apply rbind_Ok in E as ([st1 ev] & -> & E). injection E as <- <-. cbn [rbind].
  rewrite up_events. split_and!; [done|by apply inv_events|apply apply_events_stack].
Qed.
Lemma validate_stack_up stk : forall b st b', inv b -> Forall good stk -> validate_stack b stk = Ok (st, b') ->
  validate_stack (up b) stk = Ok (st, up b') /\ inv b'.
Proof.
  induction stk as [|q stk IH]; intros b st b' I G; cbn [validate_stack]; [by intros [= <- <-]|].
  apply Forall_cons in G as [Gq G]. intros E. apply rbind_Ok in E as (s & Hs & E). rewrite up_sub, Hs by done. cbn [rbind].
  destruct (good_sub _ _ _ I Gq Hs) as (t1 & -> & N). apply rbind_Ok in E as ([st1 b1] & E1 & E).
  destruct (table_up _ _ _ _ I N E1) as (-> & I1 & _). cbn [rbind]. destruct (st1 =? SUCCESS); [by apply IH|by injection E as <- <-].
Qed.
Definition plain (o : opt) : Prop :=
  is_set o = false /\ (d_type (decl_of o) = TPositional -> N.testbit (d_flags (decl_of o)) 0 = false).
Lemma plain_required o : plain o -> is_type TPositional o && has (d_flags (decl_of o)) FLAG_REQUIRED && negb (is_set o) = false.
Proof.
  intros [_ P]. unfold is_type. change FLAG_REQUIRED with (2 ^ 0)%N.
  destruct (d_type (decl_of o)); try done. cbn [andb]. specialize (P eq_refl).
  destruct (has (d_flags (decl_of o)) (2 ^ 0)) eqn:E; [|by rewrite andb_false_r]. apply has_bit in E. congruence.
Qed.
Lemma plain_before h V l rest : Forall plain l -> forall g e, exists g' e',
  validate_options_set h V (l ++ rest) g e None = validate_options_set h V rest g' e' None.
Proof.
  induction 1 as [|o l P _ IH]; intros g e; [by exists g, e|]. cbn [app validate_options_set].
  rewrite (plain_required o P). rewrite (proj1 P). destruct (is_type TGroup o); apply IH.
Qed.
Lemma plain_after h V l : Forall plain l -> forall g e f, validate_options_set h V l g e f = Ok (SUCCESS, []).
Proof.
  induction 1 as [|o l P _ IH]; intros g e f; [done|]. cbn [validate_options_set].
  rewrite (plain_required o P). rewrite (proj1 P). destruct (is_type TGroup o); apply IH.
Qed.
Lemma idle_plain o : o ∈ T -> plain o.
Proof. intros Ho. split; [by apply (id_unset _ _ _ Hidle)|by apply (id_required _ _ _ Hidle)]. Qed.
Lemma idle_checks h : validate_options_set h U U None false None = Ok (SUCCESS, []).
Proof.
  assert (EU : U = take i T ++ with_set o0 true :: drop (S i) T).
  { rewrite <- (take_drop_middle U i (with_set o0 true) marked_i). unfold marked. f_equal; [by rewrite take_alter|].
    f_equal. rewrite drop_alter by lia. done. }
  rewrite EU at 2. destruct (plain_before h U (take i T) (with_set o0 true :: drop (S i) T)) with (g := @None cstr) (e := false) as (g & e & ->).
  { apply Forall_forall. intros o Ho. apply idle_plain. apply elem_of_take in Ho as (k & Ho & _). by eapply elem_of_list_lookup_2. }
  cbn [validate_options_set]. unfold is_type. cbn [with_set decl_of is_set]. rewrite Htype.
  change (bool_decide (TSubcommand = TGroup)) with false. change (bool_decide (TSubcommand = TPositional)) with false.
  cbn [andb]. rewrite andb_false_r. cbv iota zeta.
  destruct (id_rules _ _ _ Hidle o0 Hi) as (R1 & R2 & R3).
  unfold call_validators. cbn [with_set decl_of].
  assert (P : Forall plain (drop (S i) T)).
  { apply Forall_forall. intros o Ho. apply idle_plain. apply elem_of_list_lookup in Ho as (k & Ho). rewrite lookup_drop in Ho. by eapply elem_of_list_lookup_2. }
  assert (V : match d_validators (decl_of o0) with None => Ok (SUCCESS, []) | Some l => run_validators ORDER_POST l (ArgOption (with_set o0 true)) h end = Ok (SUCCESS, [])).
  { destruct (d_validators (decl_of o0)) as [l|]; [|done]. cbn in R3. by subst l. }
  rewrite V. cbn [rbind]. change (negb (SUCCESS =? SUCCESS)) with false. cbv iota.
  destruct (d_require (decl_of o0)) as [l|]; [cbn in R1; subst l; cbn [validate_required]|];
    (change (negb (SUCCESS =? SUCCESS)) with false); cbv iota;
    (destruct (d_conflict (decl_of o0)) as [l2|]; [cbn in R2; subst l2; cbn [validate_conflicts]|]);
    (change (negb (SUCCESS =? SUCCESS)) with false); cbv iota; rewrite plain_after by done; done.
Qed.
Lemma post_up b st b' : inv b -> post_parse_validation b = Ok (st, b') -> post_parse_validation (up b) = Ok (st, up b') /\ inv b'.
Proof.
  intros I. unfold post_parse_validation. intros E.
  assert (X : validate_table (up b) (Some (a_root (up b))) = Ok (SUCCESS, up b)).
  { unfold validate_table, table_ptr, table. cbn [as_command a_root]. fold (up b). rewrite (up_root b I). cbn [rbind].
    rewrite idle_checks. done. }
  rewrite X. cbn [rbind]. change (SUCCESS =? SUCCESS) with true. cbv iota. change (a_stack (up b)) with ((r, i) :: a_stack b).
  cbn [validate_stack]. rewrite (up_sub0 b I). cbn [rbind]. apply rbind_Ok in E as ([st1 b1] & E1 & E).
  rewrite (in_root b I) in E1. destruct (table_up _ _ _ _ I Htr E1) as (-> & I1 & S). cbn [rbind].
  destruct (st1 =? SUCCESS); [|by injection E as <- <-]. rewrite <- S. apply validate_stack_up; [done|by apply stack_good|done].
Qed.

(** ** Releasing *)
Lemma free_one_up b t j b' : t <> r -> free_option b t j = Ok b' -> free_option (up b) t j = Ok (up b').
Proof.
  intros N. unfold free_option. rewrite up_get by done. intros E. apply rbind_Ok in E as (o & -> & E). cbn [rbind].
  change (a_heap (up b)) with (a_heap b). apply rbind_Ok in E as ([u s] & -> & E). cbn [rbind].
  injection E as <-. by rewrite up_put.
Qed.
Lemma free_from_up n : forall b t j b', t <> r -> free_options_from b t j n = Ok b' -> free_options_from (up b) t j n = Ok (up b').
Proof.
  induction n as [|n IH]; intros b t j b' N; cbn [free_options_from]; [by intros [= <-]|].
  intros E. apply rbind_Ok in E as (b1 & E1 & E). rewrite (free_one_up _ _ _ _ N E1). cbn [rbind]. by apply IH.
Qed.
Lemma free_sized n : forall b t j b', free_options_from b t j n = Ok b' -> sized b b'.
Proof.
  induction n as [|n IH]; intros b t j b'; cbn [free_options_from]; [intros [= <-]; apply sized_refl|].
  intros E. apply rbind_Ok in E as (b1 & E1 & E). eapply sized_trans; [|by eapply IH].
  unfold free_option in E1. apply rbind_Ok in E1 as (o & Ho & E1). apply rbind_Ok in E1 as ([[] s] & Es & E1). injection E1 as <-.
  split_and!; try done. apply (decls_put b t j o _ Ho). by apply (keeps_free_option _ _ _ Es).
Qed.
Lemma free_table_up b t b' : inv b -> t <> r -> free_options b (Some t) = Ok b' -> free_options (up b) (Some t) = Ok (up b') /\ sized b b'.
Proof.
  intros I N. unfold free_options, table_ptr. rewrite up_tab by done. destruct (table b t) as [T1|]; [|done]. cbn [rbind].
  intros E. split; [by apply free_from_up|by eapply free_sized].
Qed.
Lemma free_stack_up stk : forall b b', inv b -> Forall good stk -> free_stack b stk = Ok b' -> free_stack (up b) stk = Ok (up b').
Proof.
  induction stk as [|q stk IH]; intros b b' I G; cbn [free_stack]; [by intros [= <-]|].
  apply Forall_cons in G as [Gq G]. intros E. apply rbind_Ok in E as (s & Hs & E). rewrite up_sub, Hs by done. cbn [rbind].
  destruct (good_sub _ _ _ I Gq Hs) as (t1 & -> & N). apply rbind_Ok in E as (b1 & E1 & E).
  destruct (free_table_up _ _ _ I N E1) as (-> & S). cbn [rbind]. apply IH; [by eapply inv_sized|done|done].
Qed.
Lemma idle_free n : forall b j, inv b -> (j + n <= length T)%nat -> free_options_from (up b) r j n = Ok (up b).
Proof.
  induction n as [|n IH]; intros b j I L; cbn [free_options_from]; [done|].
  destruct (lookup_lt_is_Some_2 U j) as [u Hu]; [rewrite marked_length; lia|].
  assert (X : free_option (up b) r j = Ok (up b)).
  { unfold free_option. rewrite (up_get_root _ _ _ I Hu). cbn [rbind].
    assert (A : is_allocated u = false).
    { destruct (marked_inv _ _ Hu) as (o & Ho & [[_ ->]|[_ ->]]); apply (id_unset _ _ _ Hidle o); by eapply elem_of_list_lookup_2. }
    unfold free_option_value, hbind, get_opt. cbn. rewrite A. cbn. f_equal. unfold set_heap, put_option, set_tabs, as_command. cbn. f_equal.
    pose proof (up_root b I) as R. cbn in R. apply list_eq. intros k. destruct (decide (k = r)) as [->|N].
    - rewrite list_lookup_alter, R. cbn. f_equal. by apply list_insert_id.
    - by rewrite list_lookup_alter_ne. }
  rewrite X. cbn [rbind]. apply IH; [done|lia].
Qed.
Lemma free_up b b' : inv b -> argus_free b = Ok b' -> argus_free (up b) = Ok (up b').
Proof.
  intros I. unfold argus_free. intros E.
  assert (X : free_options (up b) (Some (a_root (up b))) = Ok (up b)).
  { unfold free_options, table_ptr, table. cbn [as_command a_root]. fold (up b). rewrite (up_root b I). cbn [rbind].
    rewrite marked_length. by apply idle_free. }
  rewrite X. cbn [rbind]. change (a_stack (up b)) with ((r, i) :: a_stack b). cbn [free_stack]. rewrite (up_sub0 b I). cbn [rbind].
  apply rbind_Ok in E as (b1 & E1 & E). rewrite (in_root b I) in E1. destruct (free_table_up _ _ _ I Htr E1) as (-> & S). cbn [rbind].
  pose proof S as (_ & S2 & _). rewrite <- S2. assert (I1 : inv b1) by (by eapply inv_sized).
  apply free_stack_up; [done|by apply stack_good|done].
Qed.
End nest.
