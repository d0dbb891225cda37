(** * Fewer rules: the reading and the handlers (C88) *)
From Verif Require Import SpecEase LibProofs FrameProofs GrammarProofs GrammarLemmas ActiveProofs EnvProofs ExtendProofs.
From Coq Require Import Lia.

(** ** The reading *)
Section reading.
Context (D E : list (list decl)).
Hypothesis DE : Forall2 (Forall2 eased) D E.

Lemma ea_table t T : D !! t = Some T -> exists U, E !! t = Some U /\ Forall2 eased T U.
Proof. intros HT. by destruct (Forall2_lookup_l _ _ _ _ _ DE HT) as (U & ? & ?); eauto. Qed.

Section table.
Context (T U : list decl).
Hypothesis TU : Forall2 eased T U.
Lemma ea_lookup i d : T !! i = Some d -> exists e, U !! i = Some e /\ eased d e.
Proof. apply (Forall2_lookup_l _ _ _ _ _ TU). Qed.
Lemma ea_lookup_r i e : U !! i = Some e -> exists d, T !! i = Some d /\ eased d e.
Proof. apply (Forall2_lookup_r _ _ _ _ _ TU). Qed.
Lemma ea_first (P : decl -> Prop) i : (forall d e, eased d e -> P d <-> P e) -> first P T i -> first P U i.
Proof.
  intros HP (d & Hi & Hp & Hn). destruct (ea_lookup _ _ Hi) as (e & He & X). exists e. split; [done|].
  split; [by apply (HP _ _ X)|]. intros j y Hj Hy Hq. destruct (ea_lookup_r _ _ Hy) as (d' & Hd' & X').
  apply (Hn j d' Hj Hd'). by apply (HP _ _ X').
Qed.
Lemma ea_positional d e : eased d e -> positional d <-> positional e.
Proof. intros X. unfold positional. by rewrite (ea_type _ _ X). Qed.
Lemma ea_variadic d e : eased d e -> variadic d <-> variadic e.
Proof. intros X. unfold variadic. by rewrite (ea_vtype _ _ X). Qed.
Lemma ea_long n d e : eased d e -> long_named n d <-> long_named n e.
Proof. intros X. unfold long_named. by rewrite (ea_type _ _ X), (ea_lname _ _ X). Qed.
Lemma ea_short n d e : eased d e -> short_named n d <-> short_named n e.
Proof. intros X. unfold short_named. by rewrite (ea_type _ _ X), (ea_sname _ _ X). Qed.
Lemma ea_flag d e : eased d e -> flag_option d <-> flag_option e.
Proof. intros X. unfold flag_option. by rewrite (ea_vtype _ _ X). Qed.
Lemma ea_match w d e : eased d e -> sub_match w d <-> sub_match w e.
Proof. intros X. unfold sub_match. by rewrite (ea_type _ _ X), (ea_name _ _ X). Qed.
End table.

Lemma ea_before T U : Forall2 eased T U -> forall i, positionals_before U i = positionals_before T i.
Proof.
  induction 1 as [|d e T U X TU IH]; intros [|i]; try done. specialize (IH i).
  unfold positionals_before in *. cbn [take List.filter]. rewrite (ea_type _ _ X).
  destruct (bool_decide _); cbn [length]; by rewrite IH.
Qed.
Lemma ea_receives T U k i : Forall2 eased T U -> receives T k i <-> receives U k i.
Proof.
  intros TU. split.
  - intros (d & Hi & Hp & Hn & Hk). destruct (ea_lookup _ _ TU _ _ Hi) as (e & He & X). exists e.
    split; [done|]. split; [by apply (ea_positional _ _ X)|]. split.
    + intros j y Hj Hy P V. destruct (ea_lookup_r _ _ TU _ _ Hy) as (z & Hz & Y).
      apply (Hn j z Hj Hz); [by apply (ea_positional _ _ Y)|by apply (ea_variadic _ _ Y)].
    + rewrite (ea_before _ _ TU), <- (ea_variadic _ _ X). done.
  - intros (e & Hi & Hp & Hn & Hk). destruct (ea_lookup_r _ _ TU _ _ Hi) as (d & He & X). exists d.
    split; [done|]. split; [by apply (ea_positional _ _ X)|]. split.
    + intros j y Hj Hy P V. destruct (ea_lookup _ _ TU _ _ Hy) as (z & Hz & Y).
      apply (Hn j z Hj Hz); [by apply (ea_positional _ _ Y)|by apply (ea_variadic _ _ Y)].
    + rewrite (ea_before _ _ TU), <- (ea_variadic _ _ X) in Hk. done.
Qed.
Lemma ea_negative T U k s : Forall2 eased T U -> negative_for T k s <-> negative_for U k s.
Proof.
  intros TU. split; intros [Hs (i & d & Hi & Hd & Hn)]; (split; [done|]).
  - destruct (ea_lookup _ _ TU _ _ Hd) as (e & He & X). exists i, e. split; [by apply (ea_receives _ _ _ _ TU)|].
    split; [done|]. unfold numeric in *. by rewrite (ea_vtype _ _ X).
  - destruct (ea_lookup_r _ _ TU _ _ Hd) as (e & He & X). exists i, e. split; [by apply (ea_receives _ _ _ _ TU)|].
    split; [done|]. unfold numeric in *. by rewrite <- (ea_vtype _ _ X).
Qed.
Lemma ea_selects T U w i : Forall2 eased T U -> selects T w i -> selects U w i.
Proof.
  intros TU [F X]. split; [by apply (ea_first _ _ TU _ _ (ea_match w))|]. destruct X as [(d & Hd & Hx)|X].
  - left. destruct (ea_lookup _ _ TU _ _ Hd) as (e & He & Y). exists e. split; [done|].
    unfold sub_exact. by rewrite (ea_type _ _ Y), (ea_name _ _ Y).
  - right. intros j e Hj Hm. destruct (ea_lookup_r _ _ TU _ _ Hj) as (d & Hd & Y). apply (X j d Hd).
    by apply (ea_match w _ _ Y).
Qed.
Lemma ea_no_sub T U w : Forall2 eased T U -> no_subcommand T w -> no_subcommand U w.
Proof.
  intros TU N e He Hm. apply elem_of_list_lookup in He as [i Hi]. destruct (ea_lookup_r _ _ TU _ _ Hi) as (d & Hd & Y).
  apply (N d); [by eapply elem_of_list_lookup_2|]. by apply (ea_match w _ _ Y).
Qed.
Lemma ea_cluster T U t rest cs its r : Forall2 eased T U -> cluster T t rest cs its r ->
  (forall c m, Reject c m ∉ its) -> cluster U t rest cs its r.
Proof.
  intros TU. induction 1; intros N.
  - constructor.
  - destruct (ea_lookup _ _ TU _ _ H0) as (e & He & X).
    econstructor; [by apply (ea_first _ _ TU _ _ (ea_short c))|exact He|by apply (ea_flag _ _ X)|].
    apply IHcluster. intros c0 m Hm. apply (N c0 m). by right.
  - destruct (ea_lookup _ _ TU _ _ H0) as (e & He & X).
    econstructor; [by apply (ea_first _ _ TU _ _ (ea_short c))|exact He|by rewrite <- (ea_flag _ _ X)|done].
  - destruct (ea_lookup _ _ TU _ _ H0) as (e & He & X).
    eapply cl_separate; [by apply (ea_first _ _ TU _ _ (ea_short c))|exact He|by rewrite <- (ea_flag _ _ X)|done].
  - destruct (N E_MISSING_VALUE (quoted_short $"Missing value for option: " c)). left.
  - destruct (N E_INVALID_ARGUMENT (quoted_short $"Unknown option: " c)). left.
Qed.
Lemma ea_reads t k only argv its : reads D t k only argv its -> (forall c m, Reject c m ∉ its) ->
  reads E t k only argv its.
Proof.
  induction 1; intros N;
    try (exfalso; eapply (N _ _); left).
  - constructor.
  - constructor. by apply IHreads.
  - destruct (ea_table _ _ H) as (U & HU & TU).
    econstructor; [exact HU|done|by apply (ea_receives _ _ _ _ TU)|]. apply IHreads. by eapply not_cons.
  - destruct (ea_table _ _ H) as (U & HU & TU). destruct (ea_lookup _ _ TU _ _ H4) as (e & He & X).
    eapply r_long_flag; [exact HU|done|done|done|by apply (ea_first _ _ TU _ _ (ea_long _))|exact He|by apply (ea_flag _ _ X)|].
    apply IHreads. by eapply not_cons.
  - destruct (ea_table _ _ H) as (U & HU & TU). destruct (ea_lookup _ _ TU _ _ H2) as (e & He & X).
    eapply r_long_equal; [exact HU|done|by apply (ea_first _ _ TU _ _ (ea_long _))|exact He|by rewrite <- (ea_flag _ _ X)|].
    apply IHreads. by eapply not_cons.
  - destruct (ea_table _ _ H) as (U & HU & TU). destruct (ea_lookup _ _ TU _ _ H3) as (e & He & X).
    eapply r_long_separate; [exact HU|done|done|by apply (ea_first _ _ TU _ _ (ea_long _))|exact He|by rewrite <- (ea_flag _ _ X)|].
    apply IHreads. by eapply not_cons.
  - destruct (ea_table _ _ H) as (U & HU & TU).
    eapply r_negative; [exact HU|by apply (ea_negative _ _ _ _ TU)|by apply (ea_receives _ _ _ _ TU)|].
    apply IHreads. by eapply not_cons.
  - destruct (ea_table _ _ H) as (U & HU & TU). apply not_app in N as [N1 N2].
    eapply r_short; [exact HU|done| |by eapply ea_cluster|by apply IHreads].
    by rewrite <- (ea_negative _ _ _ _ TU).
  - apply cluster_refused in H2 as (c & m & Hm). destruct (N c m Hm).
  - destruct (ea_table _ _ H) as (U & HU & TU). destruct (ea_lookup _ _ TU _ _ H2) as (e & He & X).
    eapply r_sub; [exact HU|done|by eapply ea_selects|exact He|by rewrite (ea_sub _ _ X)|].
    apply IHreads. by eapply not_cons.
  - destruct (ea_table _ _ H) as (U & HU & TU).
    eapply r_word; [exact HU|done|by eapply ea_no_sub|by apply (ea_receives _ _ _ _ TU)|].
    apply IHreads. by eapply not_cons.
Qed.
Lemma ea_subs : subs_present D -> subs_present E.
Proof.
  intros S t U i e HU He Ht. destruct (Forall2_lookup_r _ _ _ _ _ DE HU) as (T & HT & TU).
  destruct (ea_lookup_r _ _ TU _ _ He) as (d & Hd & X). rewrite (ea_type _ _ X) in Ht.
  destruct (S t T i d HT Hd Ht) as (t' & Hs & [T' HT']). exists t'. rewrite (ea_sub _ _ X). split; [done|].
  destruct (ea_table _ _ HT') as (U' & HU' & _). eauto.
Qed.
End reading.

(** ** The handlers *)
Definition alike_st (s p : hst) : Prop :=
  eased_opt (h_opt s) (h_opt p) /\ h_heap p = h_heap s /\ h_log p = h_log s.
Definition sim {A} (m n : HM A) : Prop :=
  forall s p x s', alike_st s p -> m s = Ok (x, s') -> exists p', n p = Ok (x, p') /\ alike_st s' p'.
Create HintDb sim.
Lemma sim_ret {A} (x : A) : sim (hret x) (hret x).
Proof. intros s p y s' R H. injection H as <- <-. by eexists. Qed.
Lemma sim_ub {A} u : sim (hub (A:=A) u) (hub u).
Proof. intros s p y s' R H. discriminate. Qed.
Lemma sim_lift {A} (r : res A) : sim (hlift r) (hlift r).
Proof. intros s p y s' R H. unfold hlift in *. destruct r; [|done]. injection H as <- <-. by eexists. Qed.
Lemma sim_bind {A B} (m n : HM A) (k l : A -> HM B) :
  sim m n -> (forall x, sim (k x) (l x)) -> sim (hbind m k) (hbind n l).
Proof.
  intros Hm Hk s p y s' R H. unfold hbind in *. destruct (m s) as [[x s1]|] eqn:E; [|done].
  destruct (Hm _ _ _ _ R E) as (p1 & E1 & R1). rewrite E1. by eapply Hk.
Qed.
Lemma sim_get {B} (k l : opt -> HM B) :
  (forall o e, eased (decl_of o) e -> sim (k o) (l (relabel e o))) -> sim (hbind get_opt k) (hbind get_opt l).
Proof.
  intros Hk s p y s' R H. unfold hbind, get_opt in *. pose proof R as [(e & He & Ep) _]. rewrite Ep. by eapply Hk.
Qed.
Lemma sim_get_heap {B} (k l : heap -> HM B) :
  (forall h, sim (k h) (l h)) -> sim (hbind get_heap k) (hbind get_heap l).
Proof.
  intros Hk s p y s' R H. unfold hbind, get_heap in *. pose proof R as (_ & -> & _). by eapply Hk.
Qed.
Lemma sim_put_heap h : sim (put_heap h) (put_heap h).
Proof. intros s p y s' (R & _ & L) H. injection H as <- <-. by eexists. Qed.
Lemma sim_emit e : sim (emit e) (emit e).
Proof. intros s p y s' (R & Hh & L) H. injection H as <- <-. eexists. split; [done|]. cbn. by rewrite L. Qed.
Lemma sim_mod f : (forall o e, f (relabel e o) = relabel e (f o)) -> (forall o, decl_of (f o) = decl_of o) ->
  sim (mod_opt f) (mod_opt f).
Proof.
  intros Hf Hd s p y s' ((e & He & Ep) & Hh & L) H. injection H as <- <-. eexists. split; [done|]. cbn. split; [|done].
  exists e. cbn [h_opt]. by rewrite Hd, Ep, Hf.
Qed.
Lemma sim_malloc b : sim (hmalloc b) (hmalloc b).
Proof.
  intros s p y s' (R & Hh & L) H. unfold hmalloc in *. rewrite Hh. destruct (malloc b (h_heap s)).
  injection H as <- <-. by eexists.
Qed.
Lemma sim_free v : sim (hfree v) (hfree v).
Proof.
  intros s p y s' (R & Hh & L) H. unfold hfree in *. rewrite Hh. destruct (free v (h_heap s)); [|done].
  injection H as <- <-. by eexists.
Qed.
Lemma sim_store v b : sim (hstore v b) (hstore v b).
Proof.
  intros s p y s' (R & Hh & L) H. unfold hstore in *. rewrite Hh. destruct (store v b (h_heap s)); [|done].
  injection H as <- <-. by eexists.
Qed.
Lemma sim_realloc v g : sim (hrealloc v g) (hrealloc v g).
Proof.
  intros s p y s' (R & Hh & L) H. unfold hrealloc in *. rewrite Hh. destruct (realloc v g (h_heap s)) as [[]|]; [|done].
  injection H as <- <-. by eexists.
Qed.
Lemma sim_deref_str v : sim (hderef_str v) (hderef_str v).
Proof.
  intros s p y s' R H. unfold hderef_str in *. pose proof R as (_ & -> & _). destruct (deref_str _ _); [|done].
  injection H as <- <-. by eexists.
Qed.
Lemma sim_deref_arr v : sim (hderef_arr v) (hderef_arr v).
Proof.
  intros s p y s' R H. unfold hderef_arr in *. pose proof R as (_ & -> & _). destruct (deref_arr _ _); [|done].
  injection H as <- <-. by eexists.
Qed.
Lemma sim_deref_map v : sim (hderef_map v) (hderef_map v).
Proof.
  intros s p y s' R H. unfold hderef_map in *. pose proof R as (_ & -> & _). destruct (deref_map _ _); [|done].
  injection H as <- <-. by eexists.
Qed.
Global Hint Resolve sim_ret sim_ub sim_lift sim_put_heap sim_emit sim_malloc sim_free sim_store sim_realloc
  sim_deref_str sim_deref_arr sim_deref_map : sim.

Lemma ea_has d e b : eased d e -> (5 <= b <= 13)%N -> has (d_flags e) (2 ^ b) = has (d_flags d) (2 ^ b).
Proof. intros X Hb. apply eq_true_iff_eq. rewrite !has_bit. by rewrite (ea_flags _ _ X). Qed.
Lemma ea_sorted d e : eased d e -> has (d_flags e) FLAG_SORTED = has (d_flags d) FLAG_SORTED.
Proof. intros X. apply (ea_has _ _ 9 X). lia. Qed.
Lemma ea_unique d e : eased d e -> has (d_flags e) FLAG_UNIQUE = has (d_flags d) FLAG_UNIQUE.
Proof. intros X. apply (ea_has _ _ 10 X). lia. Qed.
Lemma ea_sorted_value d e : eased d e -> has (d_flags e) FLAG_SORTED_VALUE = has (d_flags d) FLAG_SORTED_VALUE.
Proof. intros X. apply (ea_has _ _ 11 X). lia. Qed.
Lemma ea_sorted_key d e : eased d e -> has (d_flags e) FLAG_SORTED_KEY = has (d_flags d) FLAG_SORTED_KEY.
Proof. intros X. apply (ea_has _ _ 12 X). lia. Qed.
Lemma ea_unique_value d e : eased d e -> has (d_flags e) FLAG_UNIQUE_VALUE = has (d_flags d) FLAG_UNIQUE_VALUE.
Proof. intros X. apply (ea_has _ _ 13 X). lia. Qed.

Ltac sim_get_tac :=
  apply sim_get; let o := fresh "o" in let e := fresh "e" in let X := fresh "X" in intros o e X;
  cbv zeta; cbn [relabel value value_count value_capacity is_allocated is_set decl_of];
  rewrite ?(ea_vtype _ _ X), ?(ea_name _ _ X), ?(ea_free _ _ X), ?(ea_sorted _ _ X), ?(ea_unique _ _ X),
    ?(ea_sorted_value _ _ X), ?(ea_sorted_key _ _ X), ?(ea_unique_value _ _ X).
Ltac sim_step :=
  match goal with
  | |- sim (hbind get_opt _) _ => sim_get_tac
  | |- sim (hbind get_heap _) _ => apply sim_get_heap; intros
  | |- sim (hbind _ _) _ => apply sim_bind; [|intros]
  | |- sim (mod_opt _) _ => apply sim_mod; intros; reflexivity
  | |- sim (if ?b then _ else _) _ => destruct b
  | |- sim (match ?x with _ => _ end) _ => destruct x
  | |- sim (let '(_, _) := ?x in _) _ => destruct x
  | |- sim _ _ => solve [auto with sim]
  end.
Ltac sim := repeat sim_step.

Lemma sim_arr_write p i x : sim (arr_write p i x) (arr_write p i x).
Proof. unfold arr_write. sim. Qed.
Lemma sim_arr_read p i : sim (arr_read p i) (arr_read p i).
Proof. unfold arr_read. sim. Qed.
Lemma sim_map_write p i x : sim (map_write p i x) (map_write p i x).
Proof. unfold map_write. sim. Qed.
Global Hint Resolve sim_arr_write sim_arr_read sim_map_write : sim.
Lemma sim_free_cells p i n : sim (free_cells p i n) (free_cells p i n).
Proof. revert i. induction n; intros; simpl; sim. Qed.
Global Hint Resolve sim_free_cells : sim.
Lemma sim_cleanup p n : sim (cleanup_split p n) (cleanup_split p n).
Proof. unfold cleanup_split. sim. Qed.
Global Hint Resolve sim_cleanup : sim.
Lemma sim_split_loop p tmp cs i n : sim (split_loop p tmp cs i n) (split_loop p tmp cs i n).
Proof. revert tmp i. induction n; intros; simpl; sim. Qed.
Global Hint Resolve sim_split_loop : sim.
Lemma sim_split s cs : sim (split s cs) (split s cs).
Proof. unfold split. sim. Qed.
Global Hint Resolve sim_split : sim.
Lemma sim_for_words l body : (forall s, sim (body s) (body s)) -> sim (for_words l body) (for_words l body).
Proof. intros. induction l; simpl; sim. Qed.
Lemma sim_free_words l : sim (free_words l) (free_words l).
Proof. induction l; simpl; sim. Qed.
Global Hint Resolve sim_for_words sim_free_words : sim.
Lemma sim_free_split p : sim (free_split p) (free_split p).
Proof. unfold free_split. sim. Qed.
Global Hint Resolve sim_free_split : sim.

Section libc.
Context `{Libc}.
Lemma sim_sort_array {K} key cmp : sim (sort_array (K:=K) key cmp) (sort_array (K:=K) key cmp).
Proof. unfold sort_array. sim. Qed.
Lemma sim_sort_map {K} key cmp : sim (sort_map (K:=K) key cmp) (sort_map (K:=K) key cmp).
Proof. unfold sort_map. sim. Qed.
Lemma sim_make_unique same fd : sim (make_unique same fd) (make_unique same fd).
Proof. unfold make_unique. sim. Qed.
Lemma sim_make_map_unique : sim make_map_values_unique make_map_values_unique.
Proof. unfold make_map_values_unique. sim. Qed.
Hint Resolve sim_sort_array sim_sort_map sim_make_unique sim_make_map_unique : sim.
Lemma sim_array_flags : sim apply_array_flags apply_array_flags.
Proof.
  unfold apply_array_flags, sort_int_array, sort_string_array, sort_float_array,
    make_int_array_unique, make_string_array_unique, make_float_array_unique. sim.
Qed.
Lemma sim_map_flags : sim apply_map_flags apply_map_flags.
Proof.
  unfold apply_map_flags, sort_map_by_keys, sort_map_by_int_values, sort_map_by_string_values,
    sort_map_by_float_values, sort_map_by_bool_values. sim.
Qed.
Lemma sim_adjust fr gr : sim (adjust_size fr gr) (adjust_size fr gr).
Proof. unfold adjust_size. sim. Qed.
Lemma sim_find_key k : sim (map_find_key k) (map_find_key k).
Proof. unfold map_find_key. sim. Qed.
Lemma sim_push v : sim (push_value v) (push_value v).
Proof. unfold push_value. sim. Qed.
Lemma sim_push_pair k v : sim (push_pair k v) (push_pair k v).
Proof. unfold push_pair. sim. Qed.
Lemma sim_set_map_value i v : sim (set_map_value i v) (set_map_value i v).
Proof. unfold set_map_value. sim. Qed.
Hint Resolve sim_array_flags sim_map_flags sim_adjust sim_find_key sim_push
  sim_push_pair sim_set_map_value : sim.
Lemma sim_adjust_arr : sim adjust_array_size adjust_array_size.
Proof. apply sim_adjust. Qed.
Lemma sim_adjust_map : sim adjust_map_size adjust_map_size.
Proof. apply sim_adjust. Qed.
Hint Resolve sim_adjust_arr sim_adjust_map : sim.
Lemma sim_list one fl v : (forall s, sim (one s) (one s)) -> sim fl fl -> sim (list_handler one fl v) (list_handler one fl v).
Proof. intros. unfold list_handler. sim. Qed.
Lemma sim_range i n : sim (add_range_values i n) (add_range_values i n).
Proof. revert i. induction n; intros; simpl; sim. Qed.
Hint Resolve sim_list sim_range : sim.
Lemma sim_need {A} v (k : cstr -> HM A) : (forall s, sim (k s) (k s)) -> sim (need v k) (need v k).
Proof. intros. unfold need. sim. Qed.
Hint Resolve sim_need : sim.
Lemma sim_set_value_string v : sim (set_value_string v) (set_value_string v).
Proof. unfold set_value_string. sim. Qed.
Lemma sim_set_value_int v : sim (set_value_int v) (set_value_int v).
Proof. unfold set_value_int. sim. Qed.
Lemma sim_set_value_float v : sim (set_value_float v) (set_value_float v).
Proof. unfold set_value_float. sim. Qed.
Lemma sim_set_kv_string v : sim (set_kv_string v) (set_kv_string v).
Proof. unfold set_kv_string. sim. Qed.
Lemma sim_set_kv_scalar k h c v : sim (set_kv_scalar k h c v) (set_kv_scalar k h c v).
Proof. unfold set_kv_scalar. sim. Qed.
Lemma sim_set_int_value v : sim (set_int_value v) (set_int_value v).
Proof. unfold set_int_value. sim. Qed.
Lemma sim_set_float_value v : sim (set_float_value v) (set_float_value v).
Proof. unfold set_float_value. sim. Qed.
Hint Resolve sim_set_value_string sim_set_value_int sim_set_value_float sim_set_kv_string
  sim_set_kv_scalar sim_set_int_value sim_set_float_value : sim.
Lemma sim_run_handler active f v : sim (run_handler active f v) (run_handler active f v).
Proof.
  destruct f; simpl; try apply sim_need; intros;
    unfold flag_handler, bool_handler, string_handler, int_handler, float_handler,
      variadic_string_handler, variadic_int_handler, variadic_float_handler; sim.
Qed.
End libc.
