(** * Proofs about the environment phase *)
From Verif Require Import Api LibProofs FrameProofs SpecGrammar GrammarProofs GrammarLemmas
  ActiveProofs SpecAfter AfterProofs.
From Coq Require Import Lia.

Lemma upper_case_eq c : upper_case c = env_upper c.
Proof. destruct c as [[] [] [] [] [] [] [] []]; reflexivity. Qed.

Lemma last_app_cons {A} (l : list A) x : exists l' y, l ++ [x] = l' ++ [y].
Proof. eauto. Qed.

Lemma env_variable_eq prefix d : env_variable prefix d = get_env_var_name prefix d.
Proof.
  unfold env_variable, get_env_var_name.
  assert (H8 : N.testbit (d_flags d) 8 = has (d_flags d) FLAG_NO_ENV_PREFIX).
  { apply eq_true_iff_eq. change FLAG_NO_ENV_PREFIX with (2 ^ 8)%N. by rewrite has_bit. }
  assert (H7 : N.testbit (d_flags d) 7 = has (d_flags d) FLAG_AUTO_ENV).
  { apply eq_true_iff_eq. change FLAG_AUTO_ENV with (2 ^ 7)%N. by rewrite has_bit. }
  rewrite H8, H7.
  assert (Hpre : forall n, prefixed prefix n =
    if match last (default [] prefix) with Some c => negb (Ascii.eqb c underscore) | None => false end
    then default [] prefix ++ [underscore] ++ n else default [] prefix ++ n).
  { intros n. unfold prefixed. destruct prefix as [[|x p]|]; [done| |done]. simpl default.
    destruct (last (x :: p)) as [c|] eqn:El.
    - destruct (Ascii.eqb_spec c underscore) as [->|Hne]; simpl negb.
      + rewrite bool_decide_true by done. done.
      + rewrite bool_decide_false by (intros [= ?]; done). done.
    - apply last_None in El. done. }
  destruct (d_env_name d) as [e|].
  - destruct (has (d_flags d) FLAG_NO_ENV_PREFIX); [done|]. simpl orb.
    assert (Hhas : has_prefix prefix e =
      match prefix with Some p => strncmp e p (length p) =? 0 | None => false end).
    { unfold has_prefix. destruct prefix as [p|]; [|done]. apply eq_true_iff_eq.
      rewrite bool_decide_eq_true, strncmp_app. done. }
    rewrite Hhas. destruct (match prefix with Some p => _ | None => false end); [done|].
    rewrite Hpre. unfold snprintf. destruct (match last _ with Some c => _ | None => false end); done.
  - destruct (has (d_flags d) FLAG_AUTO_ENV); [|done]. f_equal.
    rewrite (map_ext _ _ upper_case_eq). f_equal. unfold snprintf.
    destruct (has (d_flags d) FLAG_NO_ENV_PREFIX); [done|].
    rewrite Hpre. destruct (match last _ with Some c => _ | None => false end); done.
Qed.

Section libc.
Context `{Libc}.

(** ** What a list of calls leaves alone *)
Definition calls_only (its : list item) : Prop :=
  forall x, x ∈ its -> exists t i v, x = Call t i v.

Lemma perform_frame its : forall a st a', calls_only its -> perform a its = Ok (st, a') ->
  a_root a' = a_root a /\ a_stack a' = a_stack a /\ a_prefix a' = a_prefix a /\
  decls a' = decls a /\
  forall t i, (forall v, Call t i v ∉ its) -> get_option a' t i = get_option a t i.
Proof.
  induction its as [|x its IH]; intros a st a' Hc E; cbn [perform] in E.
  { injection E as <- <-. done. }
  destruct (Hc x) as (t & i & v & ->); [left|].
  apply rbind_Ok in E as ([st1 a1] & E1 & E). cbv beta iota in E.
  apply execute_callbacks_frame in E1 as [F1 F2 F3 F4 F5].
  destruct (Z.eqb_spec st1 0) as [->|].
  - apply IH in E as (I1 & I2 & I3 & I4 & I5); [|intros y Hy; apply Hc; by right].
    split_and!; try congruence. intros t' i' Hn. rewrite I5.
    + apply F5. intros [= -> ->]. apply (Hn v). left.
    + intros v' Hv. apply (Hn v'). by right.
  - injection E as <- <-. split_and!; try done. intros t' i' Hn. apply F5. intros [= -> ->].
    apply (Hn v). left.
Qed.

Lemma env_calls_only prefix t T : forall i, calls_only (env_calls prefix t i T).
Proof.
  induction T as [|o T IH]; intros i x Hx; simpl in Hx; [by apply elem_of_nil in Hx|].
  apply elem_of_app in Hx as [Hx|Hx]; [|by eapply IH].
  destruct (from_env prefix o) as [v|]; [|by apply elem_of_nil in Hx].
  apply elem_of_list_singleton in Hx as ->. eauto.
Qed.
Lemma env_calls_at prefix t T t' i' v : forall i, Call t' i' v ∈ env_calls prefix t i T -> t' = t /\ (i <= i')%nat.
Proof.
  induction T as [|o T IH]; intros i Hx; simpl in Hx; [by apply elem_of_nil in Hx|].
  apply elem_of_app in Hx as [Hx|Hx].
  - destruct (from_env prefix o); [|by apply elem_of_nil in Hx].
    apply elem_of_list_singleton in Hx. injection Hx as -> -> _. split; [done|lia].
  - apply IH in Hx as [-> Hx]. split; [done|lia].
Qed.

(** ** load_env and its calls *)

(** Same result; after a failure the option concerned may have got its old value back. *)
Definition restored (a a' : argus) : Prop :=
  a_tabs a = a_tabs a' \/
  exists t i o v, get_option a' t i = Ok o /\ N.testbit (d_flags (decl_of o)) 6 = true /\
    a_tabs a = a_tabs (put_option a' t i (with_value (with_set o true) v)).
Definition env_same (r1 r2 : res (Z * argus)) : Prop :=
  match r1, r2 with
  | UB u, UB u' => u = u'
  | Ok (st, a), Ok (st', a') =>
      st = st' /\ if st =? 0 then a = a'
      else a_root a = a_root a' /\ a_stack a = a_stack a' /\ a_prefix a = a_prefix a' /\
           a_err a = a_err a' /\ a_heap a = a_heap a' /\ a_log a = a_log a' /\ decls a = decls a' /\ restored a a'
  | _, _ => False
  end.
Lemma env_same_refl r : env_same r r.
Proof. destruct r as [[st a]|u]; simpl; [|done]. split; [done|]. destruct (st =? 0); [done|]. split_and!; try done. by left. Qed.

Lemma override_dec o : has (d_flags (decl_of o)) FLAG_ENV_OVERRIDE = N.testbit (d_flags (decl_of o)) 6.
Proof. apply eq_true_iff_eq. change FLAG_ENV_OVERRIDE with (2 ^ 6)%N. by rewrite has_bit. Qed.

Lemma env_calls_ext prefix t T1 : forall T2 i, T1 = T2 -> env_calls prefix t i T1 = env_calls prefix t i T2.
Proof. by intros ? ? ->. Qed.

Lemma load_env_from_spec t n : forall a i T,
  a_tabs a !! t = Some T -> (i + n = length T)%nat ->
  env_same (load_env_from a t i n) (perform a (env_calls (a_prefix a) t i (drop i T))).
Proof.
  induction n as [|n IH]; intros a i T HT Hlen; cbn [load_env_from].
  { rewrite drop_ge by lia. cbn. done. }
  destruct (lookup_lt_is_Some_2 T i) as [o Ho]; [lia|].
  assert (Hget : get_option a t i = Ok o) by (apply get_option_Ok; eauto).
  rewrite Hget. cbn [rbind].
  rewrite (drop_S _ _ _ Ho). cbn [env_calls].
  assert (Hskip : from_env (a_prefix a) o = None ->
    env_same (load_env_from a t (S i) n)
      (perform a (match from_env (a_prefix a) o with Some v => [Call t i (Some v)] | None => [] end
        ++ env_calls (a_prefix a) t (S i) (drop (S i) T)))).
  { intros ->. simpl app. apply IH; [done|lia]. }
  unfold from_env in Hskip |- *. rewrite <- override_dec, env_variable_eq in *.
  unfold is_type.
  destruct (d_type (decl_of o)) eqn:Ety; simpl bool_decide; simpl orb; cbv iota;
    try (by apply Hskip).
  all: destruct (is_set o && negb (has (d_flags (decl_of o)) FLAG_ENV_OVERRIDE)) eqn:Eis; [by apply Hskip|];
    destruct (get_env_var_name (a_prefix a) (decl_of o)) as [nm|]; [|by apply Hskip];
    destruct (getenv nm) as [v|]; [|by apply Hskip];
    simpl app; cbn [perform];
    destruct (execute_callbacks a t i (Some v)) as [[st a1]|] eqn:Ex; cbn [rbind]; [|done];
    pose proof (execute_callbacks_frame _ _ _ _ _ _ Ex) as [F1 F2 F3 F4 F5];
    change SUCCESS with 0; destruct (Z.eqb_spec st 0) as [->|Hst].
  1,3: (assert (HT1 : exists T1, a_tabs a1 !! t = Some T1 /\ map decl_of T1 = map decl_of T /\
           forall j, j <> i -> T1 !! j = T !! j) by
      (assert (Hd : decls a1 !! t = decls a !! t) by (by rewrite F4);
       unfold decls in Hd; rewrite !list_lookup_fmap, HT in Hd;
       destruct (a_tabs a1 !! t) as [T1|] eqn:ET1; [|done];
       exists T1; split; [done|]; simpl in Hd; injection Hd as Hd; split; [done|];
       intros j Hj; specialize (F5 t j ltac:(congruence));
       unfold get_option, table, cell in F5; rewrite HT, ET1 in F5; simpl in F5;
       assert (Hl : length T1 = length T) by
         (rewrite <- (map_length decl_of T1), <- (map_length decl_of T), Hd; done);
       destruct (T1 !! j) eqn:E1, (T !! j) eqn:E2; try congruence)).
  1,2: destruct HT1 as (T1 & HT1 & Hd1 & Hsame);
    assert (Hl : length T1 = length T) by
      (rewrite <- (map_length decl_of T1), <- (map_length decl_of T), Hd1; done);
    specialize (IH a1 (S i) T1 HT1 ltac:(lia));
    rewrite F3 in IH;
    assert (Hdr : drop (S i) T1 = drop (S i) T) by
      (apply list_eq; intros j; rewrite !lookup_drop; apply Hsame; lia);
    rewrite Hdr in IH; exact IH.
  all: destruct (is_set o);
    [|split; [done|]; destruct (Z.eqb_spec st 0); [done|]; split_and!; try done; by left].
  all: destruct (has (d_flags (decl_of o)) FLAG_ENV_OVERRIDE) eqn:Eov; [|done].
  all: assert (exists o', get_option a1 t i = Ok o' /\ decl_of o' = decl_of o) as (o' & Ho' & Hdo') by
    (assert (Hd : decls a1 !! t = decls a !! t) by (by rewrite F4);
     unfold decls in Hd; rewrite !list_lookup_fmap, HT in Hd;
     destruct (a_tabs a1 !! t) as [T1|] eqn:ET1; [|done]; simpl in Hd; injection Hd as Hd;
     assert (Hl : length T1 = length T) by
       (rewrite <- (map_length decl_of T1), <- (map_length decl_of T), Hd; done);
     destruct (lookup_lt_is_Some_2 T1 i) as [o' Ho']; [lia|];
     exists o'; split; [apply get_option_Ok; eauto|];
     assert (Hdi : map decl_of T1 !! i = map decl_of T !! i) by (by rewrite Hd);
     rewrite !list_lookup_fmap, Ho, Ho' in Hdi; by injection Hdi).
  all: rewrite Ho'; cbn [rbind]; split; [done|]; destruct (Z.eqb_spec st 0); [done|];
    split_and!; try done; [eapply decls_put; [exact Ho'|done]|];
    right; exists t, i, o', (value o); split; [done|]; split; [by rewrite Hdo', <- override_dec|done].
Qed.

Lemma load_env_spec a t T : a_tabs a !! t = Some T ->
  env_same (load_env a t) (perform a (env_calls (a_prefix a) t 0 T)).
Proof.
  intros HT. unfold load_env, table. rewrite HT. cbn [rbind].
  apply (load_env_from_spec t (length T) a 0 T HT). lia.
Qed.

Definition env_of (tabs : list (list opt)) (prefix : option cstr) (ts : list nat) : list item :=
  concat (map (fun t => env_calls prefix t 0 (default [] (tabs !! t))) ts).
Lemma env_items_of a : env_items a = env_of (a_tabs a) (a_prefix a) (tables_in_play a).
Proof. done. Qed.
Lemma env_of_calls tabs prefix ts : calls_only (env_of tabs prefix ts).
Proof.
  induction ts as [|t ts IH]; intros x Hx; cbn in Hx; [by apply elem_of_nil in Hx|].
  apply elem_of_app in Hx as [Hx|Hx]; [by eapply env_calls_only|by apply IH].
Qed.
Lemma calls_no_reject its : calls_only its -> forall c m, Reject c m ∉ its.
Proof. intros Hc c m Hx. apply Hc in Hx as (? & ? & ? & [=]). Qed.

Lemma same_options_table a a' t T :
  decls a' = decls a -> a_tabs a !! t = Some T ->
  (forall i, get_option a' t i = get_option a t i) -> a_tabs a' !! t = Some T.
Proof.
  intros Hd HT Hg. assert (Hd' : decls a' !! t = decls a !! t) by congruence.
  unfold decls in Hd'. rewrite !list_lookup_fmap, HT in Hd'.
  destruct (a_tabs a' !! t) as [T'|] eqn:ET; [|done]. simpl in Hd'. injection Hd' as Hd'.
  f_equal. apply list_eq. intros i. specialize (Hg i).
  unfold get_option, table, cell in Hg. rewrite HT, ET in Hg. simpl in Hg.
  assert (Hl : length T' = length T).
  { rewrite <- (map_length decl_of T'), <- (map_length decl_of T), Hd'. done. }
  destruct (T' !! i) eqn:E1, (T !! i) eqn:E2; congruence.
Qed.

Lemma env_same_bind its2 r1 r2 (k : argus -> res (Z * argus)) :
  env_same r1 r2 ->
  (forall a', r2 = Ok (0, a') -> env_same (k a') (perform a' its2)) ->
  env_same (let* (st, a') := r1 in if st =? 0 then k a' else Ok (st, a'))
           (let* (st, a') := r2 in if st =? 0 then perform a' its2 else Ok (st, a')).
Proof.
  intros Hs Hk. destruct r1 as [[st a]|u], r2 as [[st' a']|u']; cbn [rbind]; try done.
  destruct Hs as [<- Hs]. destruct (Z.eqb_spec st 0) as [->|Hne].
  - subst a'. by apply Hk.
  - simpl. split; [done|]. destruct (Z.eqb_spec st 0); done.
Qed.

Lemma load_env_stack_spec stk : forall a tabs,
  (forall r, r ∈ stk -> exists t, subtable (decls a) r = Some t /\ is_Some (decls a !! t)) ->
  NoDup (omap (subtable (decls a)) stk) ->
  (forall t, t ∈ omap (subtable (decls a)) stk -> a_tabs a !! t = tabs !! t) ->
  env_same (load_env_stack a stk)
    (perform a (env_of tabs (a_prefix a) (omap (subtable (decls a)) stk))).
Proof.
  induction stk as [|r stk IH]; intros a tabs Hs Hnd Hsame; cbn [load_env_stack].
  { simpl. done. }
  destruct (Hs r) as (t & Ht & HT); [left|].
  assert (Hsub : sub_of a r = Ok (Some t)).
  { rewrite sub_of_decls. unfold subtable in Ht. destruct (decls a !! fst r) as [T|]; [|done].
    destruct (T !! snd r); [|done]. by rewrite Ht. }
  rewrite Hsub. cbn [rbind omap list_omap] in Hnd, Hsame |- *. rewrite Ht in Hnd, Hsame |- *.
  apply NoDup_cons in Hnd as [Hni Hnd].
  assert (HT2 : exists T, a_tabs a !! t = Some T).
  { unfold decls in HT. rewrite list_lookup_fmap in HT. destruct (a_tabs a !! t); [eauto|by destruct HT]. }
  destruct HT2 as [T HT2].
  unfold env_of. cbn [map concat]. rewrite <- (Hsame t) by left. rewrite HT2. cbn [default].
  rewrite perform_app by (apply calls_no_reject, env_calls_only).
  apply env_same_bind; [by apply load_env_spec|].
  intros a' Ha'. pose proof (perform_frame _ _ _ _ (env_calls_only _ _ _ _) Ha') as (P1 & P2 & P3 & P4 & P5).
  specialize (IH a' tabs). rewrite P4, P3 in IH. apply IH; [|done|].
  - intros r' Hr'. apply Hs. by right.
  - intros t' Ht'. rewrite <- Hsame by (by right).
    assert (HTt : exists T', a_tabs a !! t' = Some T').
    { apply elem_of_list_omap in Ht' as (r' & Hr' & Hrt). destruct (Hs r') as (t1 & Ht1 & H1); [by right|].
      assert (t1 = t') as -> by congruence. unfold decls in H1. rewrite list_lookup_fmap in H1.
      destruct (a_tabs a !! t'); [eauto|by destruct H1]. }
    destruct HTt as [T' HT']. rewrite HT'.
    eapply same_options_table; [done|done|]. intros i. apply P5. intros v Hv.
    apply env_calls_at in Hv as [-> _]. done.
Qed.

Lemma load_env_vars_spec a :
  is_Some (decls a !! a_root a) ->
  (forall r, r ∈ a_stack a -> exists t, subtable (decls a) r = Some t /\ is_Some (decls a !! t)) ->
  NoDup (tables_in_play a) ->
  env_same (load_env_vars a) (perform a (env_items a)).
Proof.
  intros HR Hs Hnd. unfold load_env_vars. rewrite env_items_of. unfold tables_in_play in *.
  unfold env_of. cbn [map concat].
  apply NoDup_cons in Hnd as [Hni Hnd].
  assert (HT2 : exists T, a_tabs a !! a_root a = Some T).
  { unfold decls in HR. rewrite list_lookup_fmap in HR. destruct (a_tabs a !! a_root a); [eauto|by destruct HR]. }
  destruct HT2 as [T HT2]. rewrite HT2. cbn [default].
  rewrite perform_app by (apply calls_no_reject, env_calls_only).
  apply (env_same_bind _ _ _ (fun a' => load_env_stack a' (a_stack a'))); [by apply load_env_spec|].
  intros a' Ha'. pose proof (perform_frame _ _ _ _ (env_calls_only _ _ _ _) Ha') as (P1 & P2 & P3 & P4 & P5).
  pose proof (load_env_stack_spec (a_stack a') a' (a_tabs a)) as L. rewrite P2, P3, P4 in L. rewrite P2.
  apply L; [done|done|].
  intros t' Ht'.
  assert (HTt : exists T', a_tabs a !! t' = Some T').
  { apply elem_of_list_omap in Ht' as (r' & Hr' & Hrt). destruct (Hs r') as (t1 & Ht1 & H1); [done|].
    assert (t1 = t') as -> by congruence. unfold decls in H1. rewrite list_lookup_fmap in H1.
    destruct (a_tabs a !! t'); [eauto|by destruct H1]. }
  destruct HTt as [T' HT']. rewrite HT'.
  eapply same_options_table; [done|done|]. intros i. apply P5. intros v Hv.
  apply env_calls_at in Hv as [-> _]. done.
Qed.

(** ** The command stack after reading *)
Lemma entered_app its1 its2 : entered (its1 ++ its2) = entered its1 ++ entered its2.
Proof.
  unfold entered. induction its1 as [|[] ? IH]; [done|..]; cbn [app omap list_omap]; rewrite IH; done.
Qed.

Lemma select_frame a t i a' : select a t i = Ok a' ->
  a_root a' = a_root a /\ a_stack a' = a_stack a ++ [(t, i)] /\ a_prefix a' = a_prefix a /\
  a_heap a' = a_heap a /\ a_err a' = a_err a /\ a_log a' = a_log a /\
  decls a' = decls a /\
  exists o, get_option a t i = Ok o /\ get_option a' t i = Ok (with_set o true) /\
  forall t' i', (t', i') <> (t, i) -> get_option a' t' i' = get_option a t' i'.
Proof.
  intros E. pose proof (select_decls _ _ _ _ E) as Hd. unfold select in E.
  apply rbind_Ok in E as (o & Ho & E). destruct (_ <? _)%nat; [|done]. injection E as <-.
  split_and!; try done. exists o. split; [done|]. split.
  - apply (get_put_same a t i o (with_set o true) Ho).
  - intros. by apply (get_put_other a t i (with_set o true)).
Qed.

Lemma perform_stack its : forall a st a', perform a its = Ok (st, a') ->
  (forall c m, Reject c m ∉ its) ->
  a_root a' = a_root a /\ a_prefix a' = a_prefix a /\ decls a' = decls a /\
  (st = 0 -> a_stack a' = a_stack a ++ entered its) /\
  exists its1 its2, its = its1 ++ its2 /\ a_stack a' = a_stack a ++ entered its1.
Proof.
  induction its as [|x its IH]; intros a st a' E Hr; cbn [perform] in E.
  { injection E as <- <-. split_and!; try done; [by rewrite app_nil_r|].
    exists [], []. split; [done|]. by rewrite app_nil_r. }
  assert (Hr' : forall c m, Reject c m ∉ its) by (intros c m Hc; apply (Hr c m); by right).
  destruct x as [t i v|t i|c m]; [..|destruct (Hr c m); by left].
  - apply rbind_Ok in E as ([st1 a1] & E1 & E). cbv beta iota in E.
    apply execute_callbacks_frame in E1 as [F1 F2 F3 F4 F5].
    destruct (Z.eqb_spec st1 0) as [->|].
    + apply IH in E as (I1 & I2 & I3 & I4 & its1 & its2 & -> & I5); [|done].
      split_and!; try congruence.
      * intros Hst. rewrite I4, F2 by done. done.
      * exists (Call t i v :: its1), its2. split; [done|]. rewrite I5, F2. done.
    + injection E as <- <-. split_and!; try done.
      exists [], (Call t i v :: its). split; [done|]. by rewrite app_nil_r.
  - apply rbind_Ok in E as (a1 & E1 & E).
    apply select_frame in E1 as (S1 & S2 & S3 & _ & _ & _ & S4 & _).
    apply IH in E as (I1 & I2 & I3 & I4 & its1 & its2 & -> & I5); [|done].
    split_and!; try congruence.
    + intros Hst. rewrite I4, S2 by done. rewrite <- app_assoc. done.
    + exists (Enter t i :: its1), its2. split; [done|]. rewrite I5, S2, <- app_assoc. done.
Qed.

Lemma ends_chain D its : forall t, subs_present D -> is_Some (D !! t) ->
  is_Some (ends D t its) ->
  (forall t i T d, Enter t i ∈ its -> D !! t = Some T -> T !! i = Some d -> d_type d = TSubcommand) ->
  chain D t (entered its).
Proof.
  induction its as [|[t' i v|t' i|c] its IH]; intros t HS HT He Hty; cbn [ends entered omap list_omap] in *; [done|..].
  - destruct (decide (t' = t)); [|by destruct He]. apply IH; auto. intros. eapply Hty; eauto. by right.
  - destruct (decide (t' = t)) as [->|]; [|by destruct He].
    destruct (D !! t) as [T|] eqn:ET; [|by destruct He].
    destruct (T !! i) as [d|] eqn:Ed; [|by destruct He].
    destruct (d_sub d) as [t2|] eqn:E2; [|by destruct He]. cbn [chain fst snd].
    assert (Hsub : d_type d = TSubcommand) by (eapply Hty; eauto; left).
    destruct (HS t T i d ET Ed Hsub) as (t3 & E3 & HT3). assert (t3 = t2) as -> by congruence.
    exists T, d, t2. split_and!; try done. apply IH; auto. intros. eapply Hty; eauto. by right.
  - apply IH; auto. intros. eapply Hty; eauto. by right.
Qed.

Lemma cluster_no_enter T t rest cs its r t' i' : cluster T t rest cs its r -> Enter t' i' ∉ its.
Proof.
  induction 1; intros Hx; repeat (apply elem_of_cons in Hx as [Hx|Hx]; [done|]); auto;
    by apply elem_of_nil in Hx.
Qed.
Lemma reads_enter D t k only argv its : reads D t k only argv its ->
  forall t i T d, Enter t i ∈ its -> D !! t = Some T -> T !! i = Some d -> d_type d = TSubcommand.
Proof.
  induction 1; intros t0 i0 T0 d0 Hx HT0 Hd0;
    try (apply elem_of_cons in Hx as [Hx|Hx]; [try done|]);
    try (by apply elem_of_nil in Hx); try (by eauto).
  - apply elem_of_app in Hx as [Hx|Hx]; [|eauto]. exfalso. eapply cluster_no_enter; eauto.
  - exfalso. eapply cluster_no_enter; eauto.
  - injection Hx as -> ->. rewrite HT0 in H0. injection H0 as <-. eapply selects_sub; eauto. 
Qed.
Lemma reads_chain D t k only argv its : subs_present D -> is_Some (D !! t) ->
  reads D t k only argv its -> chain D t (entered its).
Proof.
  intros HS HT Hr. apply ends_chain; [done|done|by eapply reads_ends|by eapply reads_enter].
Qed.

Lemma chain_subtables D stk : forall t, chain D t stk ->
  forall r, r ∈ stk -> exists t', subtable D r = Some t' /\ is_Some (D !! t').
Proof.
  induction stk as [|r0 stk IH]; intros t Hc r Hr; [by apply elem_of_nil in Hr|].
  cbn [chain] in Hc. destruct Hc as (T & d & t' & E1 & E2 & E3 & E4 & E5 & E6 & Hc).
  apply elem_of_cons in Hr as [->|Hr]; [|by eapply IH].
  exists t'. split; [|done]. unfold subtable. rewrite E1, E2, E3. done.
Qed.
Lemma way_down_trans D t1 t2 t3 : way_down D t1 t2 -> way_down D t2 t3 -> way_down D t1 t3.
Proof. induction 1; intros; [eapply wd_more; eauto|]. eapply wd_more; eauto. Qed.
Lemma chain_way D stk : forall t, chain D t stk ->
  forall t', t' ∈ omap (subtable D) stk -> way_down D t t'.
Proof.
  induction stk as [|r0 stk IH]; intros t Hc t1 Hr; [by apply elem_of_nil in Hr|].
  cbn [chain] in Hc. destruct Hc as (T & d & t' & E1 & E2 & E3 & E4 & E5 & E6 & Hc).
  assert (Hst : subtable D r0 = Some t') by (unfold subtable; rewrite E1, E2, E3; done).
  assert (Hb : below D t t') by (exists T, (snd r0), d; done).
  cbn [omap list_omap] in Hr. rewrite Hst in Hr.
  apply elem_of_cons in Hr as [->|Hr]; [by apply wd_one|]. eapply wd_more; eauto.
Qed.
Lemma chain_nodup D root stk : forall t, acyclic D root -> t = root \/ way_down D root t ->
  chain D t stk -> NoDup (t :: omap (subtable D) stk).
Proof.
  induction stk as [|r0 stk IH]; intros t Ha Ht Hc.
  { cbn. apply NoDup_singleton. }
  pose proof (chain_way D _ _ Hc) as Hw.
  apply NoDup_cons. split.
  { intros Hin. apply (Ha t Ht). by apply Hw. }
  cbn [chain] in Hc. destruct Hc as (T & d & t' & E1 & E2 & E3 & E4 & E5 & E6 & Hc).
  assert (Hst : subtable D r0 = Some t') by (unfold subtable; rewrite E1, E2, E3; done).
  assert (Hb : below D t t') by (exists T, (snd r0), d; done).
  cbn [omap list_omap]. rewrite Hst. apply IH; [done| |done].
  right. destruct Ht as [->|Ht]; [by apply wd_one|]. eapply way_down_trans; [done|]. by apply wd_one.
Qed.

(** ** The whole parse of a fresh context *)
Lemma set_err_decls a e : decls (set_err a e) = decls a.
Proof. done. Qed.

Lemma parsed_stack a argv its st a1 :
  subs_present (decls a) -> is_Some (decls a !! a_root a) -> acyclic (decls a) (a_root a) ->
  a_stack a = [] ->
  reads (decls a) (a_root a) 0 false argv its -> perform a its = Ok (0, a1) ->
  (forall r, r ∈ a_stack (set_err a1 st) -> exists t, subtable (decls a1) r = Some t /\ is_Some (decls a1 !! t)) /\
  NoDup (tables_in_play (set_err a1 st)) /\ a_root a1 = a_root a /\ decls a1 = decls a /\
  a_stack a1 = entered its /\ a_prefix a1 = a_prefix a /\ forall c m, Reject c m ∉ its.
Proof.
  intros HS HR Hac Hst Hrd Hp.
  assert (Hrj : forall c m, Reject c m ∉ its).
  { eapply perform_no_reject; [|exact Hp]. intros c m Hc.
    destruct (reads_codes _ _ _ _ _ _ _ _ Hrd Hc) as [->|[->| ->]]; done. }
  pose proof (perform_stack _ _ _ _ Hp Hrj) as (P1 & P2 & P3 & P4 & _).
  specialize (P4 eq_refl). rewrite Hst in P4. simpl in P4.
  assert (Hch : chain (decls a) (a_root a) (entered its)) by (by eapply reads_chain).
  split_and!; try done.
  - simpl. rewrite P3, P4. by eapply chain_subtables.
  - unfold tables_in_play. simpl. rewrite set_err_decls, P1, P3, P4.
    eapply chain_nodup; [done|by left|done].
Qed.

End libc.
