(** * A program written like the examples: proofs *)
From Coq Require Import Lia.
From Verif Require Import Api LibProofs FrameProofs SpecGrammar GrammarProofs GrammarLemmas SpecAfter AfterProofs EnvProofs WholeProofs AfterFacts
  SpecTold ToldProofs SpecMessages MessageProofs SpecStructure StructProofs MoreFacts SpecMemory SpecContents SpecSafe SpecCollections
  SafeProofs SafeContext SafePerform CollProofs SafeFacts SafeWhole SpecLeak LeakProofs StdoutProofs Program SpecProgram.
From Verif Require Import SpecAfter.

(** ** Parsing runs no action *)
Local Notation fine := (MessageProofs.fine (fun s => s)).
Lemma actions_app l1 l2 : actions (l1 ++ l2) = actions l1 ++ actions l2.
Proof. apply omap_app. Qed.

Lemma events_actions l : forall a, actions (a_log (apply_events a l)) = actions (a_log a) ++ actions l.
Proof.
  induction l as [|e l IH]; intros a; [by rewrite app_nil_r|]. change (apply_events a (e :: l)) with (apply_events (apply_event a e) l).
  rewrite IH. assert (L : a_log (apply_event a e) = a_log a ++ [e]) by (by destruct e).
  rewrite L, actions_app, <- app_assoc, <- (actions_app [e] l). done.
Qed.

Section program.
Context `{Libc}.
Lemma fine_actions b l : Forall (fine b) l -> actions l = [].
Proof. induction 1 as [|e l He _ IH]; [done|]. destruct e; done. Qed.
Lemma required_fine T n l st ev : validate_required T n l = (st, ev) -> Forall (fine false) ev.
Proof.
  induction l as [|x l IH]; cbn [validate_required]; [by intros [= <- <-]|].
  destruct (find_option_by_name T x) as [i|]; [|apply IH]. destruct (T !! i) as [r|]; [|apply IH].
  destruct (is_set r); [apply IH|]. intros [= <- <-]. by apply Forall_singleton.
Qed.
Lemma conflicts_fine T n l st ev : validate_conflicts T n l = (st, ev) -> Forall (fine false) ev.
Proof.
  induction l as [|x l IH]; cbn [validate_conflicts]; [by intros [= <- <-]|].
  destruct (find_option_by_name T x) as [i|]; [|apply IH]. destruct (T !! i) as [r|]; [|apply IH].
  destruct (is_set r); [|apply IH]. intros [= <- <-]. by apply Forall_singleton.
Qed.
Lemma set_fine h T l : forall gn excl fst st ev, validate_options_set h T l gn excl fst = Ok (st, ev) -> Forall (fine false) ev.
Proof.
  induction l as [|o l IH]; intros gn excl fst st ev; cbn [validate_options_set]; [by intros [= <- <-]|].
  destruct (is_type TGroup o); [apply IH|]. destruct (_ && _ && _); [intros [= <- <-]; by apply Forall_singleton|].
  destruct (is_set o); [|apply IH]. destruct (_ && _); [intros [= <- <-]; by apply Forall_singleton|].
  intros E. apply rbind_Ok in E as ([st1 ev1] & E1 & E). cbv beta iota in E.
  assert (F1 : Forall (fine false) ev1).
  { unfold call_validators in E1. destruct (d_validators (decl_of o)) as [vs|]; [|by injection E1 as <- <-].
    by eapply (validators_fine (fun s => s) false) in E1. }
  destruct (negb _); [by injection E as <- <-|].
  destruct (match d_require (decl_of o) with Some r => _ | None => _ end) as [st2 ev2] eqn:E2.
  assert (F2 : Forall (fine false) ev2).
  { destruct (d_require (decl_of o)); [by eapply required_fine|by injection E2 as <- <-]. }
  destruct (negb _); [injection E as <- <-; by apply Forall_app|].
  destruct (match d_conflict (decl_of o) with Some r => _ | None => _ end) as [st3 ev3] eqn:E3.
  assert (F3 : Forall (fine false) ev3).
  { destruct (d_conflict (decl_of o)); [by eapply conflicts_fine|by injection E3 as <- <-]. }
  destruct (negb _); [injection E as <- <-; by apply Forall_app|].
  apply rbind_Ok in E as ([st' ev'] & E' & E). injection E as <- <-. apply Forall_app. split; [done|]. by eapply IH.
Qed.
Lemma table_actions a tp st a' : validate_table a tp = Ok (st, a') -> actions (a_log a') = actions (a_log a).
Proof.
  unfold validate_table. intros E. apply rbind_Ok in E as (T & _ & E). apply rbind_Ok in E as ([st1 ev] & E1 & E).
  injection E as <- <-. apply set_fine, fine_actions in E1. by rewrite events_actions, E1, app_nil_r.
Qed.
Lemma post_actions a st a' : post_parse_validation a = Ok (st, a') -> actions (a_log a') = actions (a_log a).
Proof.
  intros E. unfold post_parse_validation in E. apply rbind_Ok in E as ([st1 a1] & E1 & E). apply table_actions in E1.
  destruct (st1 =? SUCCESS); [|by injection E as <- <-]. rewrite <- E1. clear E1. revert E. generalize (a_stack a1) as stk. intros stk.
  revert a1. induction stk as [|r stk IH]; intros a1 E; cbn [validate_stack] in E; [by injection E as <- <-|].
  apply rbind_Ok in E as (s & _ & E). apply rbind_Ok in E as ([st2 a2] & E1 & E). apply table_actions in E1.
  destruct (st2 =? SUCCESS); [|by injection E as <- <-]. rewrite <- E1. by apply IH.
Qed.
Lemma parse_actions a argv o a' : subs_present (decls a) -> is_Some (decls a !! a_root a) ->
  argus_parse a argv = Ok (o, a') -> actions (a_log a') = actions (a_log a).
Proof.
  intros HS HR E. unfold argus_parse in E. apply rbind_Ok in E as ([st a1] & E1 & E). cbv beta iota zeta in E.
  apply (parse_continues (fun s => s) false) in E1 as [D1 (l1 & L1 & X1)]; [|done..]. apply fine_actions in X1.
  assert (A1 : actions (a_log a1) = actions (a_log a)) by (by rewrite L1, actions_app, X1, app_nil_r).
  destruct (st =? SHOULD_EXIT).
  { apply rbind_Ok in E as (a2 & E2 & E). injection E as <- <-. apply free_log in E2. by rewrite E2. }
  destruct (st =? SUCCESS); cbn [negb] in E.
  2:{ apply rbind_Ok in E as (a2 & E2 & E). injection E as <- <-. apply free_log in E2. rewrite E2. cbn [add_log a_log set_err]. by rewrite actions_app, A1, app_nil_r. }
  apply rbind_Ok in E as ([st2 a2] & E2 & E).
  apply (env_vars_continues (fun s => s) false) in E2 as [D2 (l2 & L2 & X2)]; [|done]. apply fine_actions in X2.
  change (a_log (set_err a1 st)) with (a_log a1) in L2.
  assert (A2 : actions (a_log a2) = actions (a_log a)) by (by rewrite L2, actions_app, X2, app_nil_r).
  destruct (st2 =? SUCCESS); cbn [negb] in E.
  2:{ apply rbind_Ok in E as (a3 & E3 & E). injection E as <- <-. apply free_log in E3. by rewrite E3. }
  apply rbind_Ok in E as ([st3 a3] & E3 & E). apply post_actions in E3. cbv beta iota in E.
  destruct (st3 =? SUCCESS); cbn [negb] in E; [injection E as <- <-; congruence|].
  apply rbind_Ok in E as (a4 & E4 & E). injection E as <- <-. apply free_log in E4. congruence.
Qed.

(** ** Freeing does not depend on the log *)
Lemma free_from_log l t : forall n i a, free_options_from (add_log a l) t i n = (let* a' := free_options_from a t i n in Ok (add_log a' l)).
Proof.
  induction n as [|n IH]; intros i a; [done|]. cbn [free_options_from]. unfold free_option.
  change (get_option (add_log a l)) with (get_option a). destruct (get_option a t i) as [o|u]; [|done]. cbn [rbind].
  change (a_heap (add_log a l)) with (a_heap a). destruct (free_option_value _) as [[x s]|u]; [|done]. cbn [rbind].
  change (set_heap (put_option (add_log a l) t i (h_opt s)) (h_heap s)) with (add_log (set_heap (put_option a t i (h_opt s)) (h_heap s)) l).
  by rewrite IH.
Qed.
Lemma free_table_log l tp a : free_options (add_log a l) tp = (let* a' := free_options a tp in Ok (add_log a' l)).
Proof.
  unfold free_options. change (table_ptr tp (add_log a l)) with (table_ptr tp a). destruct (table_ptr tp a) as [T|u]; [|done]. cbn [rbind].
  destruct tp; [by rewrite free_from_log|done].
Qed.
Lemma free_stack_log l stk : forall a, free_stack (add_log a l) stk = (let* a' := free_stack a stk in Ok (add_log a' l)).
Proof.
  induction stk as [|r stk IH]; intros a; [done|]. cbn [free_stack].
  change (sub_of (add_log a l) r) with (sub_of a r). destruct (sub_of a r) as [s|u]; [|done]. cbn [rbind].
  rewrite free_table_log. destruct (free_options a s) as [a1|u]; [|done]. cbn [rbind]. by rewrite IH.
Qed.
Lemma free_add_log a l : argus_free (add_log a l) = (let* a' := argus_free a in Ok (add_log a' l)).
Proof.
  unfold argus_free. change (a_root (add_log a l)) with (a_root a). rewrite free_table_log.
  destruct (free_options a _) as [a1|u]; [|done]. cbn [rbind]. change (a_stack (add_log a1 l)) with (a_stack a1). by rewrite free_stack_log.
Qed.

(** ** The program *)
Lemma main_failed act look look' a argv o a1 : argus_parse a argv = Ok (o, a1) -> o <> Returned 0 ->
  example_main act look look' a argv = Ok (match o with Returned c | Exited c => c end, a1).
Proof.
  intros E Ho. unfold example_main. rewrite E. cbn [rbind]. destruct o as [c|c]; [|done].
  change SUCCESS with 0. destruct (Z.eqb_spec c 0) as [->|]; done.
Qed.
(** After a success: the log, and the heap that argus_free leaves. *)
Lemma main_success act look look' a argv its a1 a2 : fresh a -> only_reads look -> only_reads look' ->
  reads (decls a) (a_root a) 0 false argv its -> argus_parse a argv = Ok (Returned 0, a1) -> argus_free a1 = Ok a2 ->
  exists e l, example_main act look look' a argv = Ok (0, set_err (add_log a2 l) e) /\
    actions l = asked_action (decls a) its /\ messages l = [].
Proof.
  intros Hf Hl Hl' Hr E E2. unfold example_main. rewrite E. cbn [rbind]. change (negb (0 =? SUCCESS)) with false. cbv iota zeta.
  destruct (accesses_err _ _ (Hl a1)) as [e ->]. pose proof (exec_selected act a argv a1 its Hf E Hr) as X.
  assert (S : a_stack a1 = entered its).
  { destruct (success_parts _ _ _ _ Hf E Hr) as (? & _ & _ & _ & _ & _ & _ & _ & _ & _ & Hs). exact Hs. }
  assert (F : forall l, exists e', (let* a4 := argus_free (look' (set_err (add_log a1 l) e)) in Ok (0, a4)) = Ok (0, set_err (add_log a2 l) e')).
  { intros l. destruct (accesses_err _ _ (Hl' (set_err (add_log a1 l) e))) as [e' ->]. exists e'.
    change (set_err (set_err (add_log a1 l) e) e') with (set_err (add_log a1 l) e').
    rewrite free_err, free_add_log, E2. done. }
  assert (F0 : exists e', (let* a4 := argus_free (look' (set_err a1 e)) in Ok (0, a4)) = Ok (0, set_err (add_log a2 []) e')).
  { destruct (accesses_err _ _ (Hl' (set_err a1 e))) as [e' ->]. exists e'.
    change (set_err (set_err a1 e) e') with (set_err a1 e').
    rewrite free_err, E2. cbn. f_equal. f_equal. unfold add_log. rewrite app_nil_r. by destruct a2. }
  assert (EX : argus_exec act (set_err a1 e) = (let* (c, a3) := argus_exec act a1 in Ok (c, set_err a3 e))).
  { unfold argus_exec. change (a_stack (set_err a1 e)) with (a_stack a1). destruct (last (a_stack a1)) as [r|]; [|done].
    change (get_option (set_err a1 e)) with (get_option a1). destruct (get_option a1 _ _) as [o|u]; [|done]. cbn [rbind].
    by destruct (d_action (decl_of o)). }
  unfold argus_has_command. change (a_stack (set_err a1 e)) with (a_stack a1). rewrite S, EX. unfold asked_action.
  destruct (entered its) as [|r0 rs] eqn:En.
  { cbn [length last]. destruct F0 as [e' F0]. exists e', []. split; [exact F0|done]. }
  cbn [length]. change (0 <? Datatypes.S (length rs))%nat with true. cbv iota.
  destruct (last (r0 :: rs)) as [r|] eqn:El.
  2:{ by apply last_None in El. }
  destruct X as (T & d & HT & Hd & _ & X). rewrite X, HT. cbn [mbind option_bind]. rewrite Hd.
  destruct (d_action d) as [f|]; cbn [rbind].
  - destruct (F [EAction f]) as [e' F1]. exists e', [EAction f]. split; [exact F1|done].
  - destruct (F [ECommands]) as [e' F1]. exists e', [ECommands]. split; [exact F1|done].
Qed.
Lemma main_total act look look' a argv : accepted a -> no_strays (decls a) (a_root a) -> SpecSafe.ready a ->
  (forall t i o, entry a t i o -> single_typed (decl_of o)) -> qsort_sorts -> harmless_input a argv ->
  only_reads look -> only_reads look' ->
  exists o a1 c a', argus_parse a argv = Ok (o, a1) /\ example_main act look look' a argv = Ok (c, a') /\
    o = match o with Returned _ => Returned c | Exited _ => Exited c end.
Proof.
  intros Ha Hn Hr Hs HQ Hh Hl Hl'. destruct (whole_safe a argv Ha Hn Hr Hs HQ Hh) as (o & a1 & E & _ & HF).
  exists o, a1. 
  assert (Hdec : o = Returned 0 \/ o <> Returned 0) by (destruct o as [c|c]; [destruct (Z.eq_dec c 0); [left; congruence|right; congruence]|by right]).
  destruct Hdec as [->|No].
  - pose proof (accepted_ready _ Ha Hn) as Hf. pose proof Hf as [_ _ HR HS _ _].
    destruct (reads_total _ _ 0%nat false argv HS HR) as [its Hi]. destruct (HF a1 (ac_none a1)) as (a2 & E2 & _).
    destruct (main_success act look look' a argv its a1 a2 Hf Hl Hl' Hi E E2) as (e & l & E3 & _).
    eexists _, _. split; [exact E|]. split; [exact E3|done].
  - eexists _, _. split; [exact E|]. split; [exact (main_failed act look look' a argv o a1 E No)|]. by destruct o.
Qed.
(** An accepted line: the action of the last subcommand runs, and nothing else. *)
Lemma main_action act look look' a argv its a1 : accepted a -> no_strays (decls a) (a_root a) -> SpecSafe.ready a ->
  (forall t i o, entry a t i o -> single_typed (decl_of o)) -> qsort_sorts -> harmless_input a argv -> library_only (decls a) ->
  only_reads look -> only_reads look' -> reads (decls a) (a_root a) 0 false argv its ->
  argus_parse a argv = Ok (Returned 0, a1) ->
  exists a', example_main act look look' a argv = Ok (0, a') /\ actions (a_log a') = asked_action (decls a) its /\
    messages (a_log a') = [].
Proof.
  intros Ha Hn Hr Hs HQ Hh Hlib Hl Hl' Hi E. pose proof (accepted_ready _ Ha Hn) as Hf. pose proof Hf as [_ _ HR HS _ _].
  destruct (whole_safe a argv Ha Hn Hr Hs HQ Hh) as (o & a1' & E' & _ & HF). rewrite E in E'. injection E' as <- <-.
  destruct (HF a1 (ac_none a1)) as (a2 & E2 & _). destruct (main_success act look look' a argv its a1 a2 Hf Hl Hl' Hi E E2) as (e & l & E3 & A & M).
  eexists. split; [exact E3|]. cbn [set_err add_log a_log]. apply free_log in E2. rewrite E2.
  pose proof (parse_actions _ _ _ _ HS HR E) as Hpa. pose proof (parse_told _ _ _ _ Hlib E) as (lt & Lt & X).
  rewrite (accepted_log a Ha) in Hpa, Lt. cbn [app] in Lt. split; [by rewrite actions_app, Hpa, A|].
  rewrite messages_app, M, app_nil_r, Lt. apply X. by left.
Qed.
(** Any other line: no action runs. *)
Lemma main_none act look look' a argv o a1 : accepted a -> no_strays (decls a) (a_root a) -> library_only (decls a) ->
  argus_parse a argv = Ok (o, a1) -> o <> Returned 0 ->
  exists c a', example_main act look look' a argv = Ok (c, a') /\ o = match o with Returned _ => Returned c | Exited _ => Exited c end /\
    actions (a_log a') = [] /\ explained c (a_log a').
Proof.
  intros Ha Hn Hlib E No. pose proof (accepted_ready _ Ha Hn) as Hf. pose proof Hf as [_ _ HR HS _ _].
  eexists _, _. split; [exact (main_failed act look look' a argv o a1 E No)|].
  pose proof (parse_actions _ _ _ _ HS HR E) as Hpa. pose proof (parse_told _ _ _ _ Hlib E) as (lt & Lt & X).
  rewrite (accepted_log a Ha) in Hpa, Lt. cbn [app] in Lt. split; [by destruct o|]. split; [exact Hpa|]. rewrite Lt.
  destruct o as [c|c]; [exact X|]. split; [done|]. assert (c = 0) as ->; [|done].
  unfold argus_parse in E. apply rbind_Ok in E as ([st b] & _ & E). cbv beta iota zeta in E.
  destruct (st =? SHOULD_EXIT); [apply rbind_Ok in E as (? & _ & E); by injection E as <- _|].
  destruct (negb (st =? SUCCESS)); [apply rbind_Ok in E as (? & _ & E); done|].
  apply rbind_Ok in E as ([st2 b2] & _ & E). destruct (negb (st2 =? SUCCESS)); [apply rbind_Ok in E as (? & _ & E); done|].
  apply rbind_Ok in E as ([st3 b3] & _ & E). destruct (negb (st3 =? SUCCESS)); [apply rbind_Ok in E as (? & _ & E); done|done].
Qed.
(** All memory is released when the program ends. *)
Lemma main_released act look look' a argv its x : accepted a -> no_strays (decls a) (a_root a) -> SpecSafe.ready a -> library_only (decls a) ->
  qsort_sorts -> harmless_input a argv -> only_reads look -> only_reads look' ->
  ending a argv its x -> keys_once a its -> not_begun a its x ->
  exists c a', example_main act look look' a argv = Ok (c, a') /\ no_live_block a'.
Proof.
  intros Ha Hn Hr Hlib HQ Hh Hl Hl' He Hk Hb. pose proof (accepted_ready _ Ha Hn) as Hf. pose proof Hf as [_ _ HR HS _ _].
  destruct (ended a argv its x Ha Hn Hr Hlib HQ Hh He Hk Hb) as (o & a1 & a2 & E & E2 & NB & Heq).
  assert (Hdec : o = Returned 0 \/ o <> Returned 0) by (destruct o as [c|c]; [destruct (Z.eq_dec c 0); [left; congruence|right; congruence]|by right]).
  destruct Hdec as [->|No].
  - destruct (reads_total _ _ 0%nat false argv HS HR) as [its0 Hi].
    destruct (main_success act look look' a argv its0 a1 a2 Hf Hl Hl' Hi E E2) as (e & l & E3 & _). eexists _, _. split; [exact E3|exact NB].
  - eexists _, _. split; [exact (main_failed act look look' a argv o a1 E No)|]. rewrite <- (Heq No). exact NB.
Qed.
End program.
