(** * Fewer rules: what the program reads afterwards (C88) *)
From Verif Require Import SpecEase LibProofs FrameProofs GrammarProofs GrammarLemmas ActiveProofs EnvProofs ExtendProofs EaseProofs EaseWhole.
From Coq Require Import Lia.

Lemma relative_ease stk : forall a b n r, eases a b -> find_from_relative a stk n = Ok r -> find_from_relative b stk n = Ok r.
Proof.
  induction stk as [|y stk IH]; intros a b n r X; cbn [find_from_relative].
  - rewrite (es_root _ _ X). intros E. apply rbind_Ok in E as (T & HT & E). destruct (es_length _ _ _ _ X HT) as (U & -> & TU).
    cbn [rbind]. by rewrite (find_eased _ _ _ TU).
  - intros E. apply rbind_Ok in E as (s & Hs & E). rewrite (es_sub _ _ _ _ X Hs). cbn [rbind].
    apply rbind_Ok in E as (T & HT & E). destruct s as [t|]; [|done]. cbn [table_ptr] in *.
    destruct (es_length _ _ _ _ X HT) as (U & -> & TU). cbn [rbind]. rewrite (find_eased _ _ _ TU).
    destruct (find_option_by_name T n); [done|by eapply IH].
Qed.
Lemma walk_ease stk : forall a b c t n r, eases a b -> walk_path a stk c t n = Ok r -> walk_path b stk c t n = Ok r.
Proof.
  induction stk as [|y stk IH]; intros a b c t n r X E; destruct n as [|n]; cbn [walk_path] in *;
    [exact E| |exact E|]; destruct (strchr c dot); try exact E; try done.
  apply rbind_Ok in E as (o & Ho & E). destruct (es_get _ _ _ _ _ X Ho) as (e & He & ->).
  cbn [rbind relabel decl_of]. rewrite (ea_name _ _ He), (ea_sub _ _ He). destruct (d_name (decl_of o)); [|done].
  destruct (_ =? 0); [by eapply IH|exact E].
Qed.
Lemma find_path_ease a b p r : eases a b -> find_option_by_active_path a p = Ok r -> find_option_by_active_path b p = Ok r.
Proof.
  intros X. unfold find_option_by_active_path. destruct p as [p|]; [|by intros]. rewrite (es_stack _ _ X), (es_root _ _ X).
  destruct (strchr p dot) as [[|n]|].
  - intros E. apply rbind_Ok in E as (T & HT & E). destruct (es_length _ _ _ _ X HT) as (U & -> & TU).
    cbn [rbind]. by rewrite (find_eased _ _ _ TU).
  - destruct (_ <? _)%nat; [by intros|]. intros E. apply rbind_Ok in E as (w & Hw & E). rewrite (walk_ease _ _ _ _ _ _ _ X Hw).
    cbn [rbind]. destruct w as [[t c]|]; [|done]. apply rbind_Ok in E as (T & HT & E). destruct t as [t|]; [|done].
    cbn [table_ptr] in *. destruct (es_length _ _ _ _ X HT) as (U & -> & TU).
    cbn [rbind]. by rewrite (find_eased _ _ _ TU).
  - by apply relative_ease.
Qed.
Lemma lookup_ease a b p r : eases a b -> lookup_option a p = Ok r ->
  match r with
  | None => lookup_option b p = Ok None
  | Some o => exists e, eased (decl_of o) e /\ lookup_option b p = Ok (Some (relabel e o))
  end.
Proof.
  intros X. unfold lookup_option. intros E. apply rbind_Ok in E as (w & Hw & E). rewrite (find_path_ease _ _ _ _ X Hw).
  cbn [rbind]. destruct w as [[t i]|]; [|by injection E as <-].
  apply rbind_Ok in E as (o & Ho & E). injection E as <-. destruct (es_get _ _ _ _ _ X Ho) as (e & He & ->). by exists e.
Qed.
Lemma get_ease a b p v a1 : eases a b -> argus_get a p = Ok (v, a1) -> exists b1, argus_get b p = Ok (v, b1) /\ eases a1 b1.
Proof.
  intros X0. unfold argus_get. pose proof (es_set_err _ _ 0 X0) as X. intros E. apply rbind_Ok in E as (r & Hr & E).
  pose proof (lookup_ease _ _ _ _ X Hr) as L. destruct r as [o|].
  - destruct L as (e & He & ->). cbn [rbind]. injection E as <- <-. eauto.
  - rewrite L. cbn [rbind]. injection E as <- <-. eexists. split; [done|]. by apply es_set_err.
Qed.
Lemma is_set_ease a b p v : eases a b -> argus_is_set a p = Ok v -> argus_is_set b p = Ok v.
Proof.
  intros X. unfold argus_is_set. intros E. apply rbind_Ok in E as (r & Hr & E). pose proof (lookup_ease _ _ _ _ X Hr) as L.
  destruct r as [o|]; [destruct L as (e & He & ->)|rewrite L]; done.
Qed.
Lemma count_ease a b p v : eases a b -> argus_count a p = Ok v -> argus_count b p = Ok v.
Proof.
  intros X. unfold argus_count. intros E. apply rbind_Ok in E as (r & Hr & E). pose proof (lookup_ease _ _ _ _ X Hr) as L.
  destruct r as [o|]; [destruct L as (e & He & ->)|rewrite L]; done.
Qed.
Lemma array_get_ease a b p i v a1 : eases a b -> argus_array_get a p i = Ok (v, a1) ->
  exists b1, argus_array_get b p i = Ok (v, b1) /\ eases a1 b1.
Proof.
  intros X0. unfold argus_array_get. pose proof (es_set_err _ _ 0 X0) as X. intros E. apply rbind_Ok in E as (r & Hr & E).
  pose proof (lookup_ease _ _ _ _ X Hr) as L. destruct r as [o|].
  - destruct L as (e & He & ->). cbn [rbind relabel decl_of value value_count]. rewrite (ea_vtype _ _ He).
    destruct (negb _); [injection E as <- <-; eexists; split; [done|]; by apply es_set_err|].
    destruct (_ <=? _)%nat; [injection E as <- <-; eexists; split; [done|]; by apply es_set_err|].
    rewrite (es_heap _ _ X). apply rbind_Ok in E as (cs & -> & E). cbn [rbind].
    apply rbind_Ok in E as (x & -> & E). cbn [rbind]. injection E as <- <-. eauto.
  - rewrite L. cbn [rbind]. injection E as <- <-. eexists. split; [done|]. by apply es_set_err.
Qed.
Lemma map_get_ease a b p k v a1 : eases a b -> argus_map_get a p k = Ok (v, a1) ->
  exists b1, argus_map_get b p k = Ok (v, b1) /\ eases a1 b1.
Proof.
  intros X0. unfold argus_map_get. pose proof (es_set_err _ _ 0 X0) as X. intros E. apply rbind_Ok in E as (r & Hr & E).
  pose proof (lookup_ease _ _ _ _ X Hr) as L. destruct r as [o|].
  - destruct L as (e & He & ->). cbn [rbind relabel decl_of value value_count]. rewrite (ea_vtype _ _ He).
    destruct (negb _); [injection E as <- <-; eexists; split; [done|]; by apply es_set_err|].
    rewrite (es_heap _ _ X). apply rbind_Ok in E as (x & -> & E). cbn [rbind].
    destruct x; injection E as <- <-; eexists; (split; [done|]); [done|by apply es_set_err].
  - rewrite L. cbn [rbind]. injection E as <- <-. eexists. split; [done|]. by apply es_set_err.
Qed.
Lemma es_add_log a b l : eases a b -> eases (add_log a l) (add_log b l).
Proof. intros []. split; cbn; congruence || done. Qed.
Lemma exec_action_ease act a b st a1 : eases a b -> argus_exec act a = Ok (st, a1) ->
  exists b1, argus_exec act b = Ok (st, b1) /\ eases a1 b1.
Proof.
  intros X. unfold argus_exec. rewrite (es_stack _ _ X). destruct (last (a_stack a)) as [r|].
  - intros E. apply rbind_Ok in E as (o & Ho & E). destruct (es_get _ _ _ _ _ X Ho) as (e & He & ->).
    cbn [rbind relabel decl_of]. rewrite (ea_action _ _ He).
    destruct (d_action (decl_of o)); injection E as <- <-; eexists; (split; [done|]); by apply es_add_log.
  - intros [= <- <-]. eexists. split; [done|]. by apply es_add_log.
Qed.

(** ** Releasing *)
Lemma sim_free_pairs v p i n : sim (free_pairs v p i n) (free_pairs v p i n).
Proof. revert i. induction n; intros; simpl; sim. Qed.
Global Hint Resolve sim_free_pairs : sim.
Lemma sim_free_option : sim free_option_value free_option_value.
Proof. unfold free_option_value, run_free, free_map. sim. Qed.

Lemma free_one_ease a b t i a' : eases a b -> free_option a t i = Ok a' -> exists b', free_option b t i = Ok b' /\ eases a' b'.
Proof.
  intros X. unfold free_option. intros E. apply rbind_Ok in E as (o & Ho & E).
  destruct (es_get _ _ _ _ _ X Ho) as (e & He & ->). cbn [rbind].
  apply rbind_Ok in E as ([u s] & Hs & E). rewrite (es_heap _ _ X).
  assert (R0 : alike_st (Hst o (a_heap a) []) (Hst (relabel e o) (a_heap a) [])) by (split; [by exists e|done]).
  destruct (sim_free_option _ _ _ _ R0 Hs) as (p & -> & R & Hh & _). cbn [rbind]. injection E as <-. rewrite Hh.
  eexists. split; [done|]. by apply es_set_heap, es_put.
Qed.
Lemma free_from_ease n : forall a b t i a', eases a b -> free_options_from a t i n = Ok a' ->
  exists b', free_options_from b t i n = Ok b' /\ eases a' b'.
Proof.
  induction n as [|n IH]; intros a b t i a' X; cbn [free_options_from]; [intros [= <-]; eauto|].
  intros E. apply rbind_Ok in E as (a1 & E1 & E). destruct (free_one_ease _ _ _ _ _ X E1) as (b1 & -> & X1). cbn [rbind].
  by eapply IH.
Qed.
Lemma free_table_ease a b tp a' : eases a b -> free_options a tp = Ok a' -> exists b', free_options b tp = Ok b' /\ eases a' b'.
Proof.
  intros X. unfold free_options. intros E. apply rbind_Ok in E as (T & HT & E). destruct tp as [t|]; [|done].
  cbn [table_ptr] in *. destruct (es_length _ _ _ _ X HT) as (U & -> & TU). cbn [rbind].
  rewrite <- (Forall2_length _ _ _ TU). by eapply free_from_ease.
Qed.
Lemma free_stack_ease stk : forall a b a', eases a b -> free_stack a stk = Ok a' -> exists b', free_stack b stk = Ok b' /\ eases a' b'.
Proof.
  induction stk as [|r stk IH]; intros a b a' X; cbn [free_stack]; [intros [= <-]; eauto|].
  intros E. apply rbind_Ok in E as (s & Hs & E). rewrite (es_sub _ _ _ _ X Hs). cbn [rbind].
  apply rbind_Ok in E as (a1 & E1 & E). destruct (free_table_ease _ _ _ _ X E1) as (b1 & -> & X1). cbn [rbind]. by eapply IH.
Qed.
Lemma free_ease a b a' : eases a b -> argus_free a = Ok a' -> exists b', argus_free b = Ok b' /\ eases a' b'.
Proof.
  intros X. unfold argus_free. rewrite (es_root _ _ X). intros E. apply rbind_Ok in E as (a1 & E1 & E).
  destruct (free_table_ease _ _ _ _ X E1) as (b1 & -> & X1). cbn [rbind]. rewrite (es_stack _ _ X1). by eapply free_stack_ease.
Qed.

Lemma texts_ease `{Libc} a b argv :
  subs_present (decls a) -> is_Some (decls a !! a_root a) -> eases a b -> eases b a ->
  (exists a', argus_parse a argv = Ok (Returned 0, a')) <-> (exists b', argus_parse b argv = Ok (Returned 0, b')).
Proof.
  intros S R X Y. split; intros [c E].
  - destruct (parse_ease _ _ _ _ S R X E) as (b' & ? & _). eauto.
  - destruct (parse_ease b a argv c) as (b' & ? & _); [|..|done|done|eauto].
    + eapply ea_subs; [by apply es_decls|done].
    + destruct R as [T HT]. rewrite (es_root _ _ X). destruct (ea_table _ _ (es_decls _ _ X) _ _ HT) as (U & -> & _). done.
Qed.
Lemma afterwards_ease a b : eases a b ->
  (forall p v a1, argus_get a p = Ok (v, a1) -> exists b1, argus_get b p = Ok (v, b1) /\ eases a1 b1) /\
  (forall p v, argus_is_set a p = Ok v -> argus_is_set b p = Ok v) /\
  (forall p v, argus_count a p = Ok v -> argus_count b p = Ok v) /\
  (forall p i v a1, argus_array_get a p i = Ok (v, a1) -> exists b1, argus_array_get b p i = Ok (v, b1) /\ eases a1 b1) /\
  (forall p k v a1, argus_map_get a p k = Ok (v, a1) -> exists b1, argus_map_get b p k = Ok (v, b1) /\ eases a1 b1) /\
  (forall act st a1, argus_exec act a = Ok (st, a1) -> exists b1, argus_exec act b = Ok (st, b1) /\ eases a1 b1) /\
  (forall a1, argus_free a = Ok a1 -> exists b1, argus_free b = Ok b1 /\ eases a1 b1).
Proof.
  intros X. split_and!; intros.
  - by eapply get_ease.
  - by eapply is_set_ease.
  - by eapply count_ease.
  - by eapply array_get_ease.
  - by eapply map_get_ease.
  - by eapply exec_action_ease.
  - by eapply free_ease.
Qed.
