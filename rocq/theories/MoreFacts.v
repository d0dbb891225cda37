(** * Access functions, defaults, environment names, commands and error codes *)
From Verif Require Import Validate Api LibProofs FrameProofs SpecGrammar GrammarProofs GrammarLemmas
  ActiveProofs SpecAfter AfterProofs EnvProofs CallProofs WholeProofs SpecValues ValueProofs AfterFacts
  LookupProofs.
From Coq Require Import Lia.

(** ** Access functions *)
Lemma relative_err a e stk n : find_from_relative (set_err a e) stk n = find_from_relative a stk n.
Proof. induction stk as [|r stk IH]; [done|]. cbn [find_from_relative]. by rewrite IH. Qed.
Lemma walk_err a e n : forall stk c t, walk_path (set_err a e) stk c t n = walk_path a stk c t n.
Proof.
  induction n as [|n IH]; intros stk c t; [destruct stk; reflexivity|].
  destruct stk as [|r stk]; cbn [walk_path]; (destruct (strchr c dot); [|reflexivity]); [reflexivity|].
  change (get_option (set_err a e)) with (get_option a).
  destruct (get_option a r.1 r.2) as [o|]; [|done]. cbn [rbind].
  destruct (d_name (decl_of o)); [|done]. destruct (_ =? 0); [|done]. apply IH.
Qed.
Lemma path_err a e p : find_option_by_active_path (set_err a e) p = find_option_by_active_path a p.
Proof.
  unfold find_option_by_active_path. destruct p as [p|]; [|done].
  change (a_stack (set_err a e)) with (a_stack a). change (a_root (set_err a e)) with (a_root a).
  rewrite relative_err, walk_err. done.
Qed.
Lemma found_access a p t i o : find_option_by_active_path a p = Ok (Some (t, i)) -> entry a t i o ->
  argus_get a p = Ok (value o, set_err a 0) /\ argus_is_set a p = Ok (is_set o) /\
  argus_count a p = Ok (value_count o).
Proof.
  intros Hp Ho. apply entry_get in Ho. unfold argus_get, argus_is_set, argus_count, lookup_option.
  rewrite path_err, Hp. cbn [rbind].
  change (get_option (set_err a 0)) with (get_option a). rewrite Ho. done.
Qed.
Lemma unknown_access a p : find_option_by_active_path a p = Ok None ->
  argus_get a p = Ok (VNull, set_err a 22) /\ argus_is_set a p = Ok false /\ argus_count a p = Ok 0%nat.
Proof.
  intros Hp. unfold argus_get, argus_is_set, argus_count, lookup_option.
  rewrite path_err, Hp. done.
Qed.

(** ** Defaults *)
Definition no_default (m : modifier) : Prop := forall d, m <> DEFAULT d.
Lemma no_default_value o m : no_default m -> value (apply_modifier o m) = value o /\
  is_set (apply_modifier o m) = is_set o.
Proof. destruct m; try done. intros Hm. by destruct (Hm d). Qed.
Lemma default_mods m2 : forall o, Forall no_default m2 -> value (with_mods o m2) = value o /\
  is_set (with_mods o m2) = is_set o.
Proof.
  unfold with_mods. induction m2 as [|m m2 IH]; intros o HF; [done|]. inversion HF; subst.
  cbn [fold_left]. destruct (IH (apply_modifier o m)) as [-> ->]; [done|]. by apply no_default_value.
Qed.
Lemma default_value o m1 d m2 : Forall no_default m2 ->
  value (with_mods o (m1 ++ DEFAULT d :: m2)) = default_raw d /\
  is_set (with_mods o (m1 ++ DEFAULT d :: m2)) = true.
Proof.
  intros HF. unfold with_mods. rewrite fold_left_app. cbn [fold_left].
  destruct (default_mods m2 (apply_modifier (fold_left apply_modifier m1 o) (DEFAULT d)) HF) as [H1 H2].
  unfold with_mods in H1, H2. by rewrite H1, H2.
Qed.
(** Reading [x] gives what was written in DEFAULT. *)
Definition reads_default (d : default_arg) (x : uval) : Prop :=
  match d with
  | DInt n => (- 2 ^ 63 <= n < 2 ^ 63 -> as_int64 x = Ok n) /\ (- 2 ^ 31 <= n < 2 ^ 31 -> as_int x = Ok n)
  | DString s => forall h, deref_str x h = Ok s
  | DBool b => as_bool x = Ok b
  | DFloat bits => as_float x = Ok bits
  end.
Lemma default_reads d : (forall b, d <> DFloat b) -> reads_default d (default_raw d).
Proof.
  intros Hd. destruct d as [n|s|[]|b]; simpl; try done.
  - split; intros Hn; [by apply of_int64_as|by apply of_int64_as_int].
  - by destruct (Hd b).
Qed.

(** ** Environment names *)
Lemma upper_not_lower c : upper_case c ∉ lower_chars.
Proof.
  destruct c as [[] [] [] [] [] [] [] []];
  (apply (bool_decide_eq_true_1 (_ ∉ _)); vm_compute; reflexivity).
Qed.

Lemma derived_upper prefix d n : d_env_name d = None -> get_env_var_name prefix d = Some n ->
  forall c, c ∈ n -> c ∉ lower_chars.
Proof.
  intros Hd. rewrite <- env_variable_eq. unfold env_variable. rewrite Hd. destruct (N.testbit (d_flags d) 7); [|discriminate].
  intros E. injection E as <-. intros c Hc. apply elem_of_list_fmap in Hc as (x & -> & _). apply upper_not_lower.
Qed.

(** ** Commands *)
Lemma last_lookup_in {A} (l : list A) x : last l = Some x -> x ∈ l.
Proof. intros E. rewrite last_lookup in E. by eapply elem_of_list_lookup_2. Qed.

(** ** Examples of fresh contexts *)
Definition freshb (a : argus) : bool :=
  forallb (fun T => forallb (fun o =>
    bool_decide (d_type (decl_of o) = TGroup) || bool_decide (is_Some (d_name (decl_of o)))) T) (a_tabs a) &&
  forallb (fun '(t, T) => forallb (fun d => negb (bool_decide (d_type d = TSubcommand)) ||
    match d_sub d with Some t' => (t <? t')%nat && (t' <? length (decls a))%nat | None => false end) T)
    (imap pair (decls a)) &&
  bool_decide (a_stack a = []) && (a_err a =? 0) && (a_root a <? length (decls a))%nat.
Lemma freshb_ok a : freshb a = true -> fresh a.
Proof.
  unfold freshb. rewrite !andb_true_iff. intros [[[[Hn Hs] Hst] He] Hr].
  assert (Hsub : forall t T i d, decls a !! t = Some T -> T !! i = Some d -> d_type d = TSubcommand ->
    exists t', d_sub d = Some t' /\ (t < t')%nat /\ (t' < length (decls a))%nat).
  { intros t T i d HT Hi Hd. rewrite forallb_forall in Hs. specialize (Hs (t, T)). cbv beta iota in Hs.
    rewrite forallb_forall in Hs.
    assert (Hin : In (t, T) (imap pair (decls a))).
    { apply elem_of_list_In, elem_of_list_lookup. exists t. rewrite list_lookup_imap, HT. done. }
    specialize (Hs Hin d ltac:(apply elem_of_list_In; by eapply elem_of_list_lookup_2)).
    rewrite bool_decide_eq_true_2 in Hs by done. simpl in Hs. destruct (d_sub d) as [t'|]; [|done].
    apply andb_true_iff in Hs as [H1 H2]. apply Nat.ltb_lt in H1, H2. eauto. }
  split.
  - by apply bool_decide_eq_true in Hst.
  - by apply Z.eqb_eq.
  - apply Nat.ltb_lt in Hr. by apply lookup_lt_is_Some_2.
  - intros t T i d HT Hi Hd. destruct (Hsub t T i d HT Hi Hd) as (t' & ? & _ & ?). exists t'.
    split; [done|]. by apply lookup_lt_is_Some_2.
  - assert (Hb : forall t t', below (decls a) t t' -> (t < t')%nat).
    { intros t t' (T & i & d & HT & Hi & Hd & Ht). destruct (Hsub t T i d HT Hi Hd) as (t2 & ? & ? & _).
      assert (t2 = t') as -> by congruence. done. }
    assert (Hw : forall t t', way_down (decls a) t t' -> (t < t')%nat).
    { induction 1 as [t t' Hbl|t t' t'' Hbl _ IH]; [by apply Hb|]. apply Hb in Hbl. lia. }
    intros t _ Hc. apply Hw in Hc. lia.
  - intros t T HT o Ho Hg. rewrite forallb_forall in Hn. specialize (Hn T).
    rewrite forallb_forall in Hn.
    specialize (Hn ltac:(apply elem_of_list_In; by eapply elem_of_list_lookup_2) o ltac:(by apply elem_of_list_In)).
    apply orb_true_iff in Hn as [Hn|Hn]; apply bool_decide_eq_true in Hn; done.
Qed.

Section libc.
Context `{Libc}.

Lemma default_kept a argv a' its t i p base m1 d m2 :
  fresh a -> argus_parse a argv = Ok (Returned 0, a') ->
  reads (decls a) (a_root a) 0 false argv its -> (forall x, x ∈ its -> ~ touches t i x) ->
  entry a t i (with_mods base (m1 ++ DEFAULT d :: m2)) -> Forall no_default m2 ->
  from_env (a_prefix a) (with_mods base (m1 ++ DEFAULT d :: m2)) = None ->
  find_option_by_active_path a' p = Ok (Some (t, i)) -> (forall b, d <> DFloat b) ->
  exists x, argus_get a' p = Ok (x, set_err a' 0) /\ reads_default d x.
Proof.
  intros Hf E Hr Hno Ho HF Hfe Hp Hd. eapply not_supplied in Ho; try done.
  destruct (found_access _ _ _ _ _ Hp Ho) as (Hg & _ & _).
  destruct (default_value base m1 d m2 HF) as [Hv _].
  eexists. split; [exact Hg|]. rewrite Hv. by apply default_reads.
Qed.
(** A default already counts as set, so the environment is consulted only with the override flag. *)
Lemma default_no_env prefix base m1 d m2 : Forall no_default m2 ->
  N.testbit (d_flags (decl_of (with_mods base (m1 ++ DEFAULT d :: m2)))) 6 = false ->
  from_env prefix (with_mods base (m1 ++ DEFAULT d :: m2)) = None.
Proof.
  intros HF Hfl. unfold from_env. destruct (default_value base m1 d m2 HF) as [_ ->].
  rewrite Hfl. simpl. by destruct (d_type _).
Qed.

Lemma exec_selected act a argv a' its :
  fresh a -> argus_parse a argv = Ok (Returned 0, a') ->
  reads (decls a) (a_root a) 0 false argv its ->
  match last (entered its) with
  | None => argus_exec act a' = Ok (21, add_log a' [ECommands])
  | Some r => exists T d, decls a !! fst r = Some T /\ T !! snd r = Some d /\ d_type d = TSubcommand /\
      argus_exec act a' = match d_action d with
                          | Some f => Ok (act f, add_log a' [EAction f])
                          | None => Ok (4, add_log a' [ECommands])
                          end
  end.
Proof.
  intros Hf E Hr. pose proof Hf as [Hst Herr HR HS Hac Hnm].
  destruct (success_parts _ _ _ _ Hf E Hr) as (a1 & _ & _ & _ & _ & _ & _ & _ & _ & Hd & Hs).
  unfold argus_exec. rewrite Hs. destruct (last (entered its)) as [r|] eqn:El; [|done].
  assert (Hin : r ∈ entered its) by (by apply last_lookup_in).
  pose proof (reads_chain _ _ _ _ _ _ HS HR Hr) as Hc.
  assert (Hx : exists T d, decls a !! fst r = Some T /\ T !! snd r = Some d /\ d_type d = TSubcommand).
  { clear -Hc Hin. revert Hc Hin. generalize (a_root a) as t0. induction (entered its) as [|r0 stk IH]; intros t0 Hc Hin.
    { by apply elem_of_nil in Hin. }
    cbn [chain] in Hc. destruct Hc as (T & d & t' & E1 & E2 & E3 & E4 & E5 & E6 & Hc).
    apply elem_of_cons in Hin as [->|Hin]; [|by eapply IH]. rewrite E1. eauto. }
  destruct Hx as (T & d & HT & Hi & Hty). exists T, d. split_and!; try done.
  rewrite <- Hd in HT. destruct (decls_entry _ _ _ _ _ HT Hi) as (o & Ho & Hdo).
  apply entry_get in Ho. rewrite Ho. cbn [rbind]. rewrite Hdo. by destruct (d_action d).
Qed.

Lemma success_err a argv a' : fresh a -> argus_parse a argv = Ok (Returned 0, a') -> a_err a' = 0.
Proof. intros Hf E. apply parse_success in E as (its & _ & _ & _ & _ & _ & _ & ? & _); done. Qed.
Lemma reading_error a argv its c a1 : fresh a -> reads (decls a) (a_root a) 0 false argv its ->
  perform a its = Ok (c, a1) -> c <> 0 -> c <> 1 ->
  forall o a', argus_parse a argv = Ok (o, a') -> o = Returned c /\ a_err a' = c.
Proof.
  intros Hf Hr Hp H0 H1 o a' E. apply parse_ends in E as (its' & Hr' & D); [|done].
  assert (its' = its) as -> by (by eapply reads_unique). rewrite Hp in D.
  destruct D as [(a0 & [= -> <-] & ? & _)|[(c0 & a0 & ? & _ & [= <- <-] & -> & Hfr)|
    [(a0 & c0 & a3 & a4 & [= ] & _)|[(a0 & c0 & a3 & ev & [= ] & _)|(a0 & [= ] & _)]]]]; try done.
  split; [done|]. apply argus_free_err in Hfr as (-> & _). done.
Qed.
Lemma checking_error a argv its a2 c o a' : fresh a ->
  assigned a argv its -> perform a its = Ok (0, a2) -> first_problem a2 c ->
  (forall t i o, entry a2 t i o -> only_builtin o) ->
  argus_parse a argv = Ok (o, a') -> o = Returned c /\ a_err a' = c.
Proof.
  intros Hf (its1 & a1 & Hr & Hp & ->) Hall Hfp Hb E. pose proof Hf as [Hst Herr HR HS Hac Hnm].
  destruct (parsed_stack a argv its1 0 a1 HS HR Hac Hst Hr Hp) as (Q1 & Q2 & Q3 & Q4 & Q5 & Q6 & Q7).
  assert (Hall' := Hall). rewrite perform_app, Hp in Hall by done. cbn [rbind] in Hall.
  change (0 =? 0) with true in Hall. cbv iota in Hall.
  assert (Ha : assigned a argv (its1 ++ env_items a1)) by (exists its1, a1; done).
  destruct (parse_first_problem _ _ _ _ _ _ _ Hf Ha Hall' Hfp E) as [-> Hc].
  split; [done|].
  apply parse_ends in E as (its & Hr' & D); [|done].
  assert (its = its1) as -> by (by eapply reads_unique).
  rewrite Hp in D.
  destruct D as [(a0 & [=] & _)|[(c0 & a0 & ? & _ & [= <- <-] & _)|
    [(a0 & c0 & a3 & a4 & [= <-] & ? & E3 & _)|[(a0 & c0 & a3 & ev & [= <-] & E3 & _ & _ & [= ->] & _ & Hx)|
     (a0 & [= <-] & He & [= ->] & Hio)]]]]; try done.
  - rewrite E3 in Hall. injection Hall as -> _. done.
  - rewrite E3 in Hall. injection Hall as ->. by apply Hx.
Qed.
End libc.
