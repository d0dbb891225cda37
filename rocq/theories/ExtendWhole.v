(** * One more entry at the end of a table: the whole parse (C77) *)
From Verif Require Import SpecExtend LibProofs FrameProofs GrammarProofs GrammarLemmas ActiveProofs EnvProofs
  IsolationProofs ExtendProofs.

Section libc.
Context `{Libc}.
Context (t : nat) (x : opt).
Notation ext := (with_entry t x).

Lemma ext_decls a : decls (ext a) = D' (decls a) t (decl_of x).
Proof.
  unfold decls, with_entry, D'. cbn. apply list_eq. intros j. rewrite list_lookup_fmap.
  destruct (decide (j = t)) as [->|N].
  - rewrite !list_lookup_alter, list_lookup_fmap. destruct (a_tabs a !! t); cbn; [|done]. by rewrite map_app.
  - by rewrite !list_lookup_alter_ne, list_lookup_fmap.
Qed.
Definition grown (T : list opt) (t' : nat) : list opt := if decide (t' = t) then T ++ [x] else T.
Lemma ext_table a t' T : a_tabs a !! t' = Some T -> a_tabs (ext a) !! t' = Some (grown T t').
Proof.
  intros HT. unfold with_entry, grown. cbn. destruct (decide (t' = t)) as [->|N].
  - by rewrite list_lookup_alter, HT.
  - by rewrite list_lookup_alter_ne.
Qed.
Lemma ext_get a t' i o : get_option a t' i = Ok o -> get_option (ext a) t' i = Ok o.
Proof.
  rewrite !get_option_Ok. intros (T & HT & Hi). exists (grown T t'). split; [by apply ext_table|].
  unfold grown. case_decide; [|done]. by apply lookup_app_l_Some.
Qed.
Lemma ext_put a t' i o o' : get_option a t' i = Ok o -> put_option (ext a) t' i o' = ext (put_option a t' i o').
Proof.
  rewrite get_option_Ok. intros (T & HT & Hi). unfold put_option, with_entry, set_tabs. cbn. f_equal.
  apply list_eq. intros j. destruct (decide (j = t')) as [->|N].
  - rewrite list_lookup_alter. destruct (decide (t' = t)) as [->|M].
    + rewrite !list_lookup_alter, HT. cbn. f_equal. apply insert_app_l. by eapply lookup_lt_Some.
    + rewrite !(list_lookup_alter_ne _ _ t) by done. by rewrite list_lookup_alter.
  - rewrite list_lookup_alter_ne by done. destruct (decide (j = t)) as [->|M].
    + by rewrite !list_lookup_alter, list_lookup_alter_ne.
    + by rewrite !list_lookup_alter_ne.
Qed.
Lemma ext_events l : forall a, apply_events (ext a) l = ext (apply_events a l).
Proof.
  induction l as [|e l IH]; intros a; [done|]. unfold apply_events. cbn [fold_left].
  change (apply_events (apply_event (ext a) e) l = ext (apply_events (apply_event a e) l)). rewrite <- IH. f_equal.
  by destruct e.
Qed.
Lemma ext_active a act : get_active_options a = Ok act -> get_active_options (ext a) = Ok act.
Proof.
  unfold get_active_options. change (a_stack (ext a)) with (a_stack a). destruct (last (a_stack a)) as [r|]; [|done].
  unfold sub_of. intros E. apply rbind_Ok in E as (o & Ho & E). by rewrite (ext_get _ _ _ _ Ho).
Qed.
Lemma exec_ext a t' i v st a' : execute_callbacks a t' i v = Ok (st, a') ->
  execute_callbacks (ext a) t' i v = Ok (st, ext a').
Proof.
  unfold execute_callbacks. intros E. apply rbind_Ok in E as (o & Ho & E). rewrite (ext_get _ _ _ _ Ho). cbn [rbind].
  destruct (d_handler (decl_of o)) as [f|]; [|by injection E as <- <-].
  change (a_heap (ext a)) with (a_heap a).
  apply rbind_Ok in E as ([st1 ev] & Hv & E). rewrite Hv. cbn [rbind]. rewrite ext_events.
  destruct (negb (st1 =? SUCCESS)); [by injection E as <- <-|].
  set (a1 := apply_events a ev) in *.
  assert (Ho1 : get_option a1 t' i = Ok o) by (rewrite <- Ho; apply get_option_tabs, apply_events_tabs).
  apply rbind_Ok in E as (act & Ha & E). rewrite (ext_active _ _ Ha). cbn [rbind].
  apply rbind_Ok in E as ([st2 s] & Hs & E). change (a_root (ext a1)) with (a_root a1).
  change (a_heap (ext a1)) with (a_heap a1). rewrite Hs. cbn [rbind].
  rewrite (ext_put _ _ _ _ _ Ho1). change (set_heap (ext ?b) ?h) with (ext (set_heap b h)). rewrite ext_events.
  set (a2 := apply_events _ (h_log s)) in *.
  destruct (negb (st2 =? SUCCESS)); [by injection E as <- <-|].
  apply rbind_Ok in E as (o2 & Ho2 & E). rewrite (ext_get _ _ _ _ Ho2). cbn [rbind].
  rewrite (ext_put _ _ _ _ _ Ho2). destruct (has _ FLAG_EXIT); by injection E as <- <-.
Qed.
Lemma perform_ext its : forall a st a', perform a its = Ok (st, a') -> perform (ext a) its = Ok (st, ext a').
Proof.
  induction its as [|y its IH]; intros a st a'; cbn [perform]; [by intros [= <- <-]|].
  destruct y as [t' i v|t' i|c m].
  - intros E. apply rbind_Ok in E as ([st1 a1] & E1 & E). rewrite (exec_ext _ _ _ _ _ _ E1). cbn [rbind].
    destruct (st1 =? 0); [by apply IH|by injection E as <- <-].
  - intros E. apply rbind_Ok in E as (a1 & E1 & E). unfold select in *. apply rbind_Ok in E1 as (o & Ho & E1).
    rewrite (ext_get _ _ _ _ Ho). cbn [rbind]. change (a_stack (ext a)) with (a_stack a).
    destruct (_ <? _)%nat; [|done]. injection E1 as <-. cbn [rbind]. rewrite (ext_put _ _ _ _ _ Ho).
    apply IH in E. exact E.
  - by intros [= <- <-].
Qed.
Lemma ext_sub a r s : sub_of a r = Ok s -> sub_of (ext a) r = Ok s.
Proof. unfold sub_of. intros E. apply rbind_Ok in E as (o & Ho & E). by rewrite (ext_get _ _ _ _ Ho). Qed.

(** ** The environment *)
Lemma env_more n : forall a t' i, load_env_from a t' i (n + 1) =
  let* (st, a') := load_env_from a t' i n in
  if st =? SUCCESS then load_env_from a' t' (i + n) 1 else Ok (st, a').
Proof.
  induction n as [|n IH]; intros a t' i.
  { cbn [Nat.add load_env_from rbind]. change (SUCCESS =? SUCCESS) with true. cbv iota. by rewrite Nat.add_0_r. }
  cbn [Nat.add]. cbn [load_env_from]. destruct (get_option a t' i) as [o|]; cbn [rbind]; [|done].
  replace (i + S n)%nat with (S i + n)%nat by lia.
  destruct (_ || _); [apply IH|]. destruct (_ && _); [apply IH|].
  destruct (get_env_var_name _ _); [|apply IH]. destruct (getenv _); [|apply IH].
  destruct (execute_callbacks _ _ _ _) as [[st1 a1]|]; cbn [rbind]; [|done].
  destruct (st1 =? SUCCESS) eqn:Es; [apply IH|].
  destruct (is_set o); cbn [rbind]; [|by rewrite Es].
  destruct (get_option a1 t' i); cbn [rbind]; [|done]. by rewrite Es.
Qed.
Lemma env_ext n : forall a t' i st a', load_env_from a t' i n = Ok (st, a') ->
  load_env_from (ext a) t' i n = Ok (st, ext a').
Proof.
  induction n as [|n IH]; intros a t' i st a'; cbn [load_env_from]; [by intros [= <- <-]|].
  intros E. apply rbind_Ok in E as (o & Ho & E). rewrite (ext_get _ _ _ _ Ho). cbn [rbind].
  change (a_prefix (ext a)) with (a_prefix a).
  destruct (_ || _); [by apply IH|]. destruct (_ && _); [by apply IH|].
  destruct (get_env_var_name _ _); [|by apply IH]. destruct (getenv _); [|by apply IH].
  apply rbind_Ok in E as ([st1 a1] & E1 & E). rewrite (exec_ext _ _ _ _ _ _ E1). cbn [rbind].
  destruct (st1 =? SUCCESS); [by apply IH|]. destruct (is_set o); [|by injection E as <- <-].
  apply rbind_Ok in E as (o1 & Ho1 & E). rewrite (ext_get _ _ _ _ Ho1). cbn [rbind].
  injection E as <- <-. by rewrite (ext_put _ _ _ _ _ Ho1).
Qed.
(** Table sizes and the prefix stay. *)
Definition sized (a b : argus) : Prop :=
  a_prefix b = a_prefix a /\ a_stack b = a_stack a /\ a_root b = a_root a /\ decls b = decls a.
Lemma sized_trans a b c : sized a b -> sized b c -> sized a c.
Proof. intros (? & ? & ? & ?) (? & ? & ? & ?). split_and!; congruence. Qed.
Lemma sized_refl a : sized a a.
Proof. done. Qed.
Lemma exec_sized a t' i v st a' : execute_callbacks a t' i v = Ok (st, a') -> sized a a'.
Proof. intros E. apply execute_callbacks_frame in E as []. split_and!; done. Qed.
Lemma env_sized n : forall a t' i st a', load_env_from a t' i n = Ok (st, a') -> sized a a'.
Proof.
  induction n as [|n IH]; intros a t' i st a'; cbn [load_env_from]; [by intros [= <- <-]|].
  intros E. apply rbind_Ok in E as (o & Ho & E).
  destruct (_ || _); [by eapply IH|]. destruct (_ && _); [by eapply IH|].
  destruct (get_env_var_name _ _); [|by eapply IH]. destruct (getenv _); [|by eapply IH].
  apply rbind_Ok in E as ([st1 a1] & E1 & E). apply exec_sized in E1.
  destruct (st1 =? SUCCESS); [eapply sized_trans; [exact E1|by eapply IH]|].
  destruct (is_set o); [|by injection E as <- <-].
  apply rbind_Ok in E as (o1 & Ho1 & E). injection E as <- <-. eapply sized_trans; [exact E1|].
  split_and!; try done. by apply (decls_put _ _ _ _ _ Ho1).
Qed.
Lemma sized_length a b t' T : sized a b -> a_tabs a !! t' = Some T ->
  exists T', a_tabs b !! t' = Some T' /\ length T' = length T.
Proof.
  intros (_ & _ & _ & E) HT. assert (X : decls a !! t' = Some (map decl_of T)) by (unfold decls; by rewrite list_lookup_fmap, HT).
  rewrite <- E in X. unfold decls in X. rewrite list_lookup_fmap in X. destruct (a_tabs b !! t') as [T'|]; [|done].
  cbn in X. injection X as X. exists T'. split; [done|]. apply (f_equal length) in X. by rewrite !map_length in X.
Qed.
Lemma ext_last a T : a_tabs a !! t = Some T -> get_option (ext a) t (length T) = Ok x.
Proof.
  intros HT. apply get_option_Ok. exists (grown T t). split; [by apply ext_table|]. unfold grown.
  rewrite decide_True by done. by rewrite lookup_app_r, Nat.sub_diag by lia.
Qed.

Section newcomer.
Context (a0 : argus).
Hypothesis Hx : newcomer a0 t x.

Lemma newcomer_env a T : a_prefix a = a_prefix a0 -> a_tabs a !! t = Some T ->
  load_env_from (ext a) t (length T) 1 = Ok (SUCCESS, ext a).
Proof.
  intros Hp HT. cbn [load_env_from]. rewrite (ext_last _ _ HT). cbn [rbind].
  change (a_prefix (ext a)) with (a_prefix a). rewrite Hp, <- env_variable_eq.
  pose proof (nc_environment _ _ _ Hx) as E. pose proof (nc_unset _ _ _ Hx) as U. unfold from_env in E. rewrite U in *.
  cbn [andb] in *. destruct (nc_kind _ _ _ Hx) as [K|K]; unfold is_type; rewrite K in *; cbn; [|done].
  destruct (env_variable _ _); [|done]. by rewrite E.
Qed.
Lemma load_ext a t' st a' : a_prefix a = a_prefix a0 -> load_env a t' = Ok (st, a') ->
  load_env (ext a) t' = Ok (st, ext a') /\ sized a a'.
Proof.
  unfold load_env, table. intros Hp E. apply rbind_Ok in E as (T & HT & E). destruct (a_tabs a !! t') as [T'|] eqn:HT'; [|done].
  injection HT as ->. pose proof (env_sized _ _ _ _ _ _ E) as S. split; [|done].
  rewrite (ext_table _ _ _ HT'). cbn [rbind]. unfold grown. case_decide as Dt; [|by apply env_ext].
  subst t'. rewrite app_length. cbn [length]. rewrite env_more, (env_ext _ _ _ _ _ _ E). cbn [rbind].
  destruct (Z.eqb_spec st SUCCESS) as [->|]; [|done]. destruct (sized_length _ _ _ _ S HT') as (T2 & HT2 & <-).
  cbn [Nat.add]. apply newcomer_env; [|done]. destruct S as (-> & _). done.
Qed.
Lemma load_stack_ext stk : forall a st a', a_prefix a = a_prefix a0 -> load_env_stack a stk = Ok (st, a') ->
  load_env_stack (ext a) stk = Ok (st, ext a') /\ sized a a'.
Proof.
  induction stk as [|r stk IH]; intros a st a' Hp; cbn [load_env_stack]; [by intros [= <- <-]|].
  intros E. apply rbind_Ok in E as (s & Hs & E). rewrite (ext_sub _ _ _ Hs). cbn [rbind].
  destruct s as [t'|]; [|by apply IH]. apply rbind_Ok in E as ([st1 a1] & E1 & E).
  apply load_ext in E1 as [E1 S1]; [|done]. rewrite E1. cbn [rbind].
  destruct (st1 =? SUCCESS); [|by injection E as <- <-].
  apply IH in E as [E S]; [|destruct S1 as (-> & _); done]. split; [done|]. by eapply sized_trans.
Qed.
Lemma load_vars_ext a st a' : a_prefix a = a_prefix a0 -> load_env_vars a = Ok (st, a') ->
  load_env_vars (ext a) = Ok (st, ext a') /\ sized a a'.
Proof.
  unfold load_env_vars. intros Hp E. apply rbind_Ok in E as ([st1 a1] & E1 & E).
  apply load_ext in E1 as [E1 S1]; [|done]. change (a_root (ext a)) with (a_root a). rewrite E1. cbn [rbind].
  destruct (st1 =? SUCCESS); [|by injection E as <- <-]. change (a_stack (ext a1)) with (a_stack a1).
  apply load_stack_ext in E as [E S]; [|destruct S1 as (-> & _); done]. split; [done|]. by eapply sized_trans.
Qed.

(** ** The checks *)
Lemma find_app {A} (p : A -> bool) l l' : find_index p (l ++ l') =
  match find_index p l with Some i => Some i | None => option_map (fun i => length l + i)%nat (find_index p l') end.
Proof.
  induction l as [|y l IH]; cbn [app find_index length]; [by destruct (find_index p l')|].
  destruct (p y); [done|]. rewrite IH. destruct (find_index p l); [done|]. by destruct (find_index p l').
Qed.
Lemma find_name_more T n : find_option_by_name (T ++ [x]) n = find_option_by_name T n \/
  find_option_by_name T n = None /\ find_option_by_name (T ++ [x]) n = Some (length T) /\ d_name (decl_of x) = Some n.
Proof.
  unfold find_option_by_name. rewrite find_app. destruct (find_index _ T) as [i|]; [by left|]. cbn [find_index].
  destruct (d_name (decl_of x)) as [m|]; [|by left]. destruct (Z.eqb_spec (strcmp m n) 0) as [E|]; [|by left].
  right. split; [done|]. cbn. rewrite Nat.add_0_r. split; [done|]. f_equal. by apply strcmp_0.
Qed.
Lemma find_name_lt T n i : find_option_by_name T n = Some i -> (T ++ [x]) !! i = T !! i.
Proof.
  intros E. apply lookup_app_l. revert i E. unfold find_option_by_name.
  induction T as [|o T IH]; intros i; cbn [find_index length]; [done|].
  destruct (match d_name _ with Some _ => _ | None => _ end); [intros [= <-]; lia|].
  destruct (find_index _ T) as [j|] eqn:Ej; [|done]. intros [= <-]. specialize (IH j eq_refl). lia.
Qed.
Lemma required_more T name l : (forall n, n ∈ l -> d_name (decl_of x) <> Some n) ->
  validate_required (T ++ [x]) name l = validate_required T name l.
Proof.
  induction l as [|n l IH]; intros Hn; [done|]. cbn [validate_required].
  rewrite IH by (intros m Hm; apply Hn; by right).
  destruct (find_name_more T n) as [->|(_ & _ & E)]; [|destruct (Hn n); [left|done]].
  destruct (find_option_by_name T n) as [i|] eqn:Ei; [|done]. by rewrite (find_name_lt _ _ _ Ei).
Qed.
Lemma conflicts_more T name l : validate_conflicts (T ++ [x]) name l = validate_conflicts T name l.
Proof.
  induction l as [|n l IH]; [done|]. cbn [validate_conflicts]. rewrite IH.
  destruct (find_name_more T n) as [->|(-> & -> & E)].
  - destruct (find_option_by_name T n) as [i|] eqn:Ei; [|done]. by rewrite (find_name_lt _ _ _ Ei).
  - rewrite lookup_app_r, Nat.sub_diag by lia. cbn. by rewrite (nc_unset _ _ _ Hx).
Qed.
Lemma set_more h T l : (forall o n, o ∈ l -> n ∈ default [] (d_require (decl_of o)) -> d_name (decl_of x) <> Some n) ->
  forall group excl fst, validate_options_set h (T ++ [x]) (l ++ [x]) group excl fst = validate_options_set h T l group excl fst.
Proof.
  induction l as [|o l IH]; intros Hn group excl fst.
  - cbn [app validate_options_set]. rewrite (nc_unset _ _ _ Hx). cbn [negb].
    destruct (nc_kind _ _ _ Hx) as [K|K]; unfold is_type; rewrite K; cbn; done.
  - cbn [app validate_options_set]. rewrite !IH by (intros o' n Ho; apply Hn; by right).
    destruct (is_type TGroup o); [done|]. destruct (is_type TPositional o && _ && _); [done|].
    destruct (is_set o); [|done].
    destruct (excl && _); [done|]. destruct (call_validators o h) as [[st ev]|]; cbn [rbind]; [|done].
    destruct (negb (st =? SUCCESS)); [done|].
    assert (R : match d_require (decl_of o) with Some r => validate_required (T ++ [x]) (d_name (decl_of o)) r | None => (SUCCESS, []) end =
      match d_require (decl_of o) with Some r => validate_required T (d_name (decl_of o)) r | None => (SUCCESS, []) end).
    { destruct (d_require (decl_of o)) as [r|] eqn:Er; [|done]. apply required_more. intros n Hr. apply (Hn o); [left|]. by rewrite Er. }
    assert (C : match d_conflict (decl_of o) with Some r => validate_conflicts (T ++ [x]) (d_name (decl_of o)) r | None => (SUCCESS, []) end =
      match d_conflict (decl_of o) with Some r => validate_conflicts T (d_name (decl_of o)) r | None => (SUCCESS, []) end).
    { destruct (d_conflict (decl_of o)); [|done]. apply conflicts_more. }
    rewrite R, C. reflexivity.
Qed.
Lemma table_ext a tp st a' : decls a = decls a0 -> validate_table a tp = Ok (st, a') ->
  validate_table (ext a) tp = Ok (st, ext a') /\ sized a a'.
Proof.
  intros Hd. unfold validate_table. intros E. apply rbind_Ok in E as (T & HT & E). destruct tp as [t'|]; [|done].
  unfold table_ptr, table in *. destruct (a_tabs a !! t') as [T'|] eqn:HT'; [|done]. injection HT as ->.
  rewrite (ext_table _ _ _ HT'). cbn [rbind]. change (a_heap (ext a)) with (a_heap a).
  apply rbind_Ok in E as ([st1 ev] & E1 & E). injection E as <- <-.
  assert (X : validate_options_set (a_heap a) (grown T t') (grown T t') None false None = Ok (st1, ev)).
  { unfold grown. case_decide as Dt; [|done]. subst t'. rewrite set_more; [done|]. intros o n Ho Hn.
    apply (nc_not_required _ _ _ Hx (map decl_of T) (decl_of o)).
    - rewrite <- Hd. unfold decls. by rewrite list_lookup_fmap, HT'.
    - apply elem_of_list_fmap. by exists o.
    - done. }
  rewrite X. cbn [rbind]. rewrite ext_events. split; [done|].
  split_and!; [apply apply_events_prefix|apply apply_events_stack|apply apply_events_root|].
  unfold decls. by rewrite apply_events_tabs.
Qed.
Lemma stack_ext stk : forall a st a', decls a = decls a0 -> validate_stack a stk = Ok (st, a') ->
  validate_stack (ext a) stk = Ok (st, ext a').
Proof.
  induction stk as [|r stk IH]; intros a st a' Hd; cbn [validate_stack]; [by intros [= <- <-]|].
  intros E. apply rbind_Ok in E as (s & Hs & E). rewrite (ext_sub _ _ _ Hs). cbn [rbind].
  apply rbind_Ok in E as ([st1 a1] & E1 & E). apply table_ext in E1 as [E1 S1]; [|done]. rewrite E1. cbn [rbind].
  destruct (st1 =? SUCCESS); [|by injection E as <- <-]. apply IH; [|done]. destruct S1 as (_ & _ & _ & ->). done.
Qed.
Lemma post_ext a st a' : decls a = decls a0 -> post_parse_validation a = Ok (st, a') ->
  post_parse_validation (ext a) = Ok (st, ext a').
Proof.
  unfold post_parse_validation. intros Hd E. apply rbind_Ok in E as ([st1 a1] & E1 & E).
  change (a_root (ext a)) with (a_root a). apply table_ext in E1 as [E1 S1]; [|done]. rewrite E1. cbn [rbind].
  destruct (st1 =? SUCCESS); [|by injection E as <- <-]. change (a_stack (ext a1)) with (a_stack a1).
  apply stack_ext; [|done]. destruct S1 as (_ & _ & _ & ->). done.
Qed.

(** ** Releasing *)
Lemma free_one_ext a t' i a' : free_option a t' i = Ok a' -> free_option (ext a) t' i = Ok (ext a').
Proof.
  unfold free_option. intros E. apply rbind_Ok in E as (o & Ho & E). rewrite (ext_get _ _ _ _ Ho). cbn [rbind].
  change (a_heap (ext a)) with (a_heap a). apply rbind_Ok in E as ([u s] & Es & E). rewrite Es. cbn [rbind].
  injection E as <-. by rewrite (ext_put _ _ _ _ _ Ho).
Qed.
Lemma free_from_ext n : forall a t' i a', free_options_from a t' i n = Ok a' -> free_options_from (ext a) t' i n = Ok (ext a').
Proof.
  induction n as [|n IH]; intros a t' i a'; cbn [free_options_from]; [by intros [= <-]|].
  intros E. apply rbind_Ok in E as (a1 & E1 & E). rewrite (free_one_ext _ _ _ _ E1). cbn [rbind]. by apply IH.
Qed.
Lemma free_more n : forall a t' i, free_options_from a t' i (n + 1) =
  let* a' := free_options_from a t' i n in free_option a' t' (i + n).
Proof.
  induction n as [|n IH]; intros a t' i.
  { cbn [Nat.add free_options_from rbind]. rewrite Nat.add_0_r. by destruct (free_option a t' i). }
  cbn [Nat.add free_options_from]. destruct (free_option a t' i) as [a1|]; cbn [rbind]; [|done].
  rewrite IH. by replace (i + S n)%nat with (S i + n)%nat by lia.
Qed.
Lemma newcomer_free a T : a_tabs a !! t = Some T -> free_option (ext a) t (length T) = Ok (ext a).
Proof.
  intros HT. unfold free_option. pose proof (ext_last _ _ HT) as G. rewrite G. cbn [rbind].
  unfold free_option_value, hbind, get_opt. cbn. rewrite (nc_unallocated _ _ _ Hx). cbn.
  f_equal. apply get_option_Ok in G as (T2 & H2 & G). destruct (ext a) as [tabs root stk err hp lg pf] eqn:Ea.
  unfold set_heap, put_option, set_tabs. cbn in *. f_equal; [|by injection Ea]. apply list_eq. intros j.
  destruct (decide (j = t)) as [->|N]; [|by rewrite list_lookup_alter_ne].
  rewrite list_lookup_alter, H2. cbn. f_equal. by apply list_insert_id.
Qed.
Lemma free_from_length n : forall a t' i a' t2 T, free_options_from a t' i n = Ok a' -> a_tabs a !! t2 = Some T ->
  exists T', a_tabs a' !! t2 = Some T' /\ length T' = length T.
Proof.
  induction n as [|n IH]; intros a t' i a' t2 T; cbn [free_options_from]; [intros [= <-]; by exists T|].
  intros E HT. apply rbind_Ok in E as (a1 & E1 & E). unfold free_option in E1.
  apply rbind_Ok in E1 as (o & Ho & E1). apply rbind_Ok in E1 as ([u s] & Es & E1). injection E1 as <-.
  destruct (IH _ _ _ _ t2 (if decide (t2 = t') then <[i := h_opt s]> T else T) E) as (T' & HT' & L').
  - cbn. case_decide as Dt; [subst; by rewrite list_lookup_alter, HT|by rewrite list_lookup_alter_ne].
  - exists T'. split; [done|]. rewrite L'. case_decide; [by rewrite insert_length|done].
Qed.
Lemma free_table_ext a tp a' : free_options a tp = Ok a' -> free_options (ext a) tp = Ok (ext a').
Proof.
  unfold free_options. intros E. apply rbind_Ok in E as (T & HT & E). destruct tp as [t'|]; [|done].
  unfold table_ptr, table in *. destruct (a_tabs a !! t') as [T'|] eqn:HT'; [|done]. injection HT as ->.
  rewrite (ext_table _ _ _ HT'). cbn [rbind]. unfold grown. case_decide as Dt; [|by apply free_from_ext].
  subst t'. rewrite app_length. cbn [length]. rewrite free_more, (free_from_ext _ _ _ _ _ E). cbn [rbind Nat.add].
  destruct (free_from_length _ _ _ _ _ _ _ E HT') as (T2 & HT2 & <-). by apply newcomer_free.
Qed.
Lemma free_stack_ext stk : forall a a', free_stack a stk = Ok a' -> free_stack (ext a) stk = Ok (ext a').
Proof.
  induction stk as [|r stk IH]; intros a a'; cbn [free_stack]; [by intros [= <-]|].
  intros E. apply rbind_Ok in E as (s & Hs & E). rewrite (ext_sub _ _ _ Hs). cbn [rbind].
  apply rbind_Ok in E as (a1 & E1 & E). rewrite (free_table_ext _ _ _ E1). cbn [rbind]. by apply IH.
Qed.
Lemma free_ext a a' : argus_free a = Ok a' -> argus_free (ext a) = Ok (ext a').
Proof.
  unfold argus_free. intros E. apply rbind_Ok in E as (a1 & E1 & E). change (a_root (ext a)) with (a_root a).
  rewrite (free_table_ext _ _ _ E1). cbn [rbind]. change (a_stack (ext a1)) with (a_stack a1). by apply free_stack_ext.
Qed.

Lemma ext_subs : subs_present (decls a0) -> subs_present (decls (ext a0)).
Proof.
  intros S t' T i d HT Hi Hd. rewrite ext_decls in *. unfold D' in HT.
  assert (X : exists T0, decls a0 !! t' = Some T0 /\ T = more t (decl_of x) T0 t').
  { unfold more. destruct (decide (t' = t)) as [->|N].
    - rewrite list_lookup_alter in HT. destruct (decls a0 !! t) as [T0|]; [|done]. injection HT as <-. eauto.
    - rewrite list_lookup_alter_ne in HT by done. eauto. }
  destruct X as (T0 & HT0 & ->). apply more_inv in Hi as [Hi|[_ ->]].
  - destruct (S t' T0 i d HT0 Hi Hd) as (t2 & E2 & [T2 H2]). exists t2. split; [done|]. eexists. by eapply more_table.
  - destruct (nc_kind _ _ _ Hx); congruence.
Qed.

Lemma extended argv its o a' : subs_present (decls a0) -> is_Some (decls a0 !! a_root a0) ->
  reads (decls a0) (a_root a0) 0 false argv its -> (forall c m, Reject c m ∉ its) ->
  argus_parse a0 argv = Ok (o, a') -> argus_parse (ext a0) argv = Ok (o, ext a').
Proof.
  intros S R Hr N E. unfold argus_parse in *.
  assert (P : parse_args a0 (Some (a_root a0)) 0 false argv = perform a0 its) by (by apply argus_parse_perform).
  assert (P' : parse_args (ext a0) (Some (a_root (ext a0))) 0 false argv = perform (ext a0) its).
  { apply argus_parse_perform.
    - by apply ext_subs.
    - rewrite ext_decls. destruct R as [T HT]. eexists. change (a_root (ext a0)) with (a_root a0). by eapply more_table.
    - rewrite ext_decls. apply more_reads; [|done|done]. apply (nc_kind _ _ _ Hx). }
  rewrite P in E. rewrite P'. apply rbind_Ok in E as ([st a1] & E1 & E). rewrite (perform_ext _ _ _ _ E1). cbn [rbind].
  cbv beta iota zeta in *. change (set_err (ext a1) st) with (ext (set_err a1 st)).
  destruct (perform_stack _ _ _ _ E1 N) as (_ & Pf & D1 & _).
  destruct (st =? SHOULD_EXIT).
  { apply rbind_Ok in E as (a2 & E2 & E). rewrite (free_ext _ _ E2). cbn [rbind]. by injection E as <- <-. }
  destruct (negb (st =? SUCCESS)).
  { apply rbind_Ok in E as (a2 & E2 & E). change (add_log (ext ?b) ?l) with (ext (add_log b l)).
    rewrite (free_ext _ _ E2). cbn [rbind]. by injection E as <- <-. }
  apply rbind_Ok in E as ([st2 a2] & E2 & E). apply load_vars_ext in E2 as [E2 S2]; [|done]. rewrite E2. cbn [rbind].
  destruct (negb (st2 =? SUCCESS)).
  { apply rbind_Ok in E as (a3 & E3 & E). rewrite (free_ext _ _ E3). cbn [rbind]. by injection E as <- <-. }
  apply rbind_Ok in E as ([st3 a3] & E3 & E). rewrite (post_ext _ _ _ (eq_trans (proj2 (proj2 (proj2 S2))) D1) E3). cbn [rbind].
  destruct (negb (st3 =? SUCCESS)).
  { apply rbind_Ok in E as (a4 & E4 & E). rewrite (free_ext _ _ E4). cbn [rbind]. by injection E as <- <-. }
  by injection E as <- <-.
Qed.
End newcomer.
End libc.

Lemma still_accepted `{Libc} a t x argv a' : subs_present (decls a) -> is_Some (decls a !! a_root a) -> newcomer a t x ->
  argus_parse a argv = Ok (Returned 0, a') ->
  argus_parse (with_entry t x a) argv = Ok (Returned 0, with_entry t x a').
Proof.
  intros S R Hx E. destruct (success_accepted _ _ _ S R E) as (its & Hr & N). by eapply extended.
Qed.
