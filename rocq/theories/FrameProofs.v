(** * What a handler call can change: everything but declarations, other options,
    the command stack, the root and the prefix *)
From Verif Require Import Api LibProofs SpecGrammar.
From Coq Require Import Lia.

(** ** Handlers never change the declaration of their option *)
Definition keeps {A} (m : HM A) : Prop :=
  forall s a s', m s = Ok (a, s') -> decl_of (h_opt s') = decl_of (h_opt s).

Create HintDb keeps.

Lemma keeps_ret {A} (a : A) : keeps (hret a).
Proof. intros s b s' H. injection H as <- <-. done. Qed.
Lemma keeps_ub {A} u : keeps (hub (A:=A) u).
Proof. intros s b s' H. discriminate. Qed.
Lemma keeps_lift {A} (r : res A) : keeps (hlift r).
Proof. intros s b s' H. unfold hlift in H. destruct r; [|discriminate]. injection H as <- <-. done. Qed.
Lemma keeps_bind {A B} (m : HM A) (k : A -> HM B) :
  keeps m -> (forall a, keeps (k a)) -> keeps (hbind m k).
Proof.
  intros Hm Hk s b s' H. unfold hbind in H.
  destruct (m s) as [[a s1]|] eqn:E; [|discriminate].
  rewrite (Hk _ _ _ _ H). eapply Hm; eauto.
Qed.
Lemma keeps_get_opt : keeps get_opt.
Proof. intros s b s' H. injection H as <- <-. done. Qed.
Lemma keeps_get_heap : keeps get_heap.
Proof. intros s b s' H. injection H as <- <-. done. Qed.
Lemma keeps_put_heap h : keeps (put_heap h).
Proof. intros s b s' H. injection H as <- <-. done. Qed.
Lemma keeps_emit e : keeps (emit e).
Proof. intros s b s' H. injection H as <- <-. done. Qed.
Lemma keeps_mod f : (forall o, decl_of (f o) = decl_of o) -> keeps (mod_opt f).
Proof. intros Hf s b s' H. injection H as <- <-. simpl. auto. Qed.
Lemma keeps_malloc b : keeps (hmalloc b).
Proof.
  intros s x s' H. unfold hmalloc in H. destruct (malloc b (h_heap s)). injection H as <- <-. done.
Qed.
Lemma keeps_free v : keeps (hfree v).
Proof.
  intros s x s' H. unfold hfree in H. destruct (free v (h_heap s)); [|discriminate].
  injection H as <- <-. done.
Qed.
Lemma keeps_store v b : keeps (hstore v b).
Proof.
  intros s x s' H. unfold hstore in H. destruct (store v b (h_heap s)); [|discriminate].
  injection H as <- <-. done.
Qed.
Lemma keeps_realloc v g : keeps (hrealloc v g).
Proof.
  intros s x s' H. unfold hrealloc in H. destruct (realloc v g (h_heap s)) as [[]|]; [|discriminate].
  injection H as <- <-. done.
Qed.
Lemma keeps_deref_str v : keeps (hderef_str v).
Proof.
  intros s x s' H. unfold hderef_str in H. destruct (deref_str _ _); [|discriminate].
  injection H as <- <-. done.
Qed.
Lemma keeps_deref_arr v : keeps (hderef_arr v).
Proof.
  intros s x s' H. unfold hderef_arr in H. destruct (deref_arr _ _); [|discriminate].
  injection H as <- <-. done.
Qed.
Lemma keeps_deref_map v : keeps (hderef_map v).
Proof.
  intros s x s' H. unfold hderef_map in H. destruct (deref_map _ _); [|discriminate].
  injection H as <- <-. done.
Qed.
Global Hint Resolve keeps_ret keeps_ub keeps_lift keeps_get_opt keeps_get_heap keeps_put_heap
  keeps_emit keeps_malloc keeps_free keeps_store keeps_realloc keeps_deref_str keeps_deref_arr
  keeps_deref_map : keeps.

(** Decompose a handler program. *)
Ltac keeps_step :=
  match goal with
  | |- keeps (hbind _ _) => apply keeps_bind; [|intros]
  | |- keeps (mod_opt _) => apply keeps_mod; intros; reflexivity
  | |- keeps (if ?b then _ else _) => destruct b
  | |- keeps (match ?x with _ => _ end) => destruct x
  | |- keeps (let '(_, _) := ?x in _) => destruct x
  | |- keeps _ => solve [auto with keeps]
  end.
Ltac keeps := repeat keeps_step.

Lemma keeps_arr_write p i x : keeps (arr_write p i x).
Proof. unfold arr_write. keeps. Qed.
Lemma keeps_arr_read p i : keeps (arr_read p i).
Proof. unfold arr_read. keeps. Qed.
Lemma keeps_map_write p i x : keeps (map_write p i x).
Proof. unfold map_write. keeps. Qed.
Global Hint Resolve keeps_arr_write keeps_arr_read keeps_map_write : keeps.

Lemma keeps_free_cells p i n : keeps (free_cells p i n).
Proof. revert i. induction n; intros; simpl; keeps. Qed.
Global Hint Resolve keeps_free_cells : keeps.
Lemma keeps_cleanup p n : keeps (cleanup_split p n).
Proof. unfold cleanup_split. keeps. Qed.
Global Hint Resolve keeps_cleanup : keeps.
Lemma keeps_split_loop p tmp cs i n : keeps (split_loop p tmp cs i n).
Proof. revert tmp i. induction n; intros; simpl; keeps. Qed.
Global Hint Resolve keeps_split_loop : keeps.
Lemma keeps_split s cs : keeps (split s cs).
Proof. unfold split. keeps. Qed.
Global Hint Resolve keeps_split : keeps.
Lemma keeps_for_words l body : (forall s, keeps (body s)) -> keeps (for_words l body).
Proof. intros. induction l; simpl; keeps. Qed.
Lemma keeps_free_words l : keeps (free_words l).
Proof. induction l; simpl; keeps. Qed.
Global Hint Resolve keeps_for_words keeps_free_words : keeps.
Lemma keeps_free_split p : keeps (free_split p).
Proof. unfold free_split. keeps. Qed.
Global Hint Resolve keeps_free_split : keeps.

Section libc.
Context `{Libc}.

Lemma keeps_sort_array {K} key cmp : keeps (sort_array (K:=K) key cmp).
Proof. unfold sort_array. keeps. Qed.
Lemma keeps_sort_map {K} key cmp : keeps (sort_map (K:=K) key cmp).
Proof. unfold sort_map. keeps. Qed.
Lemma keeps_make_unique same fd : keeps (make_unique same fd).
Proof. unfold make_unique. keeps. Qed.
Lemma keeps_make_map_unique : keeps make_map_values_unique.
Proof. unfold make_map_values_unique. keeps. Qed.
Hint Resolve keeps_sort_array keeps_sort_map keeps_make_unique keeps_make_map_unique : keeps.
Lemma keeps_array_flags : keeps apply_array_flags.
Proof.
  unfold apply_array_flags, sort_int_array, sort_string_array, sort_float_array,
    make_int_array_unique, make_string_array_unique, make_float_array_unique. keeps.
Qed.
Lemma keeps_map_flags : keeps apply_map_flags.
Proof.
  unfold apply_map_flags, sort_map_by_keys, sort_map_by_int_values, sort_map_by_string_values,
    sort_map_by_float_values, sort_map_by_bool_values. keeps.
Qed.
Lemma keeps_adjust fr gr : keeps (adjust_size fr gr).
Proof. unfold adjust_size. keeps. Qed.
Lemma keeps_find_key k : keeps (map_find_key k).
Proof. unfold map_find_key. keeps. Qed.
Lemma keeps_push v : keeps (push_value v).
Proof. unfold push_value. keeps. Qed.
Lemma keeps_push_pair k v : keeps (push_pair k v).
Proof. unfold push_pair. keeps. Qed.
Lemma keeps_set_map_value i v : keeps (set_map_value i v).
Proof. unfold set_map_value. keeps. Qed.
Hint Resolve keeps_array_flags keeps_map_flags keeps_adjust keeps_find_key keeps_push
  keeps_push_pair keeps_set_map_value : keeps.
Lemma keeps_adjust_arr : keeps adjust_array_size.
Proof. apply keeps_adjust. Qed.
Lemma keeps_adjust_map : keeps adjust_map_size.
Proof. apply keeps_adjust. Qed.
Hint Resolve keeps_adjust_arr keeps_adjust_map : keeps.
Lemma keeps_list one fl v : (forall s, keeps (one s)) -> keeps fl -> keeps (list_handler one fl v).
Proof. intros. unfold list_handler. keeps. Qed.
Lemma keeps_range i n : keeps (add_range_values i n).
Proof. revert i. induction n; intros; simpl; keeps. Qed.
Hint Resolve keeps_list keeps_range : keeps.
Lemma keeps_need {A} v (k : cstr -> HM A) : (forall s, keeps (k s)) -> keeps (need v k).
Proof. intros. unfold need. keeps. Qed.
Hint Resolve keeps_need : keeps.
Lemma keeps_set_value_string v : keeps (set_value_string v).
Proof. unfold set_value_string. keeps. Qed.
Lemma keeps_set_value_int v : keeps (set_value_int v).
Proof. unfold set_value_int. keeps. Qed.
Lemma keeps_set_value_float v : keeps (set_value_float v).
Proof. unfold set_value_float. keeps. Qed.
Lemma keeps_set_kv_string v : keeps (set_kv_string v).
Proof. unfold set_kv_string. keeps. Qed.
Lemma keeps_set_kv_scalar k h c v : keeps (set_kv_scalar k h c v).
Proof. unfold set_kv_scalar. keeps. Qed.
Lemma keeps_set_int_value v : keeps (set_int_value v).
Proof. unfold set_int_value. keeps. Qed.
Lemma keeps_set_float_value v : keeps (set_float_value v).
Proof. unfold set_float_value. keeps. Qed.
Hint Resolve keeps_set_value_string keeps_set_value_int keeps_set_value_float keeps_set_kv_string
  keeps_set_kv_scalar keeps_set_int_value keeps_set_float_value : keeps.

Lemma keeps_run_handler active f v : keeps (run_handler active f v).
Proof.
  destruct f; simpl; try apply keeps_need; intros;
    unfold flag_handler, bool_handler, string_handler, int_handler, float_handler,
      variadic_string_handler, variadic_int_handler, variadic_float_handler; keeps.
Qed.

Lemma keeps_free_pairs b p i n : keeps (free_pairs b p i n).
Proof. revert i. induction n; intros; simpl; keeps. Qed.
Hint Resolve keeps_free_pairs : keeps.
Lemma keeps_free_option : keeps free_option_value.
Proof. unfold free_option_value, run_free, free_map. keeps. Qed.

(** ** Declarations of the whole context *)

(** [same_frame t i a a']: [a'] is [a] apart from the state of option (t, i), the heap, the log
    and error_code. *)
Record same_frame (t i : nat) (a a' : argus) : Prop := SameFrame {
  sf_root : a_root a' = a_root a;
  sf_stack : a_stack a' = a_stack a;
  sf_prefix : a_prefix a' = a_prefix a;
  sf_decls : decls a' = decls a;
  sf_other : forall t' i', (t', i') <> (t, i) -> get_option a' t' i' = get_option a t' i';
}.

Lemma same_frame_refl t i a : same_frame t i a a.
Proof. split; done. Qed.
Lemma same_frame_trans t i a b c : same_frame t i a b -> same_frame t i b c -> same_frame t i a c.
Proof.
  intros [] []. split; try congruence. intros. rewrite sf_other1, sf_other0; done.
Qed.

Lemma apply_event_tabs a e : a_tabs (apply_event a e) = a_tabs a.
Proof. destruct e; done. Qed.
Lemma apply_event_root a e : a_root (apply_event a e) = a_root a.
Proof. destruct e; done. Qed.
Lemma apply_event_stack a e : a_stack (apply_event a e) = a_stack a.
Proof. destruct e; done. Qed.
Lemma apply_event_prefix a e : a_prefix (apply_event a e) = a_prefix a.
Proof. destruct e; done. Qed.
Lemma apply_event_heap a e : a_heap (apply_event a e) = a_heap a.
Proof. destruct e; done. Qed.
Lemma apply_events_tabs l a : a_tabs (apply_events a l) = a_tabs a.
Proof. revert a. induction l; intros; simpl; [done|]. rewrite IHl. apply apply_event_tabs. Qed.
Lemma apply_events_root l a : a_root (apply_events a l) = a_root a.
Proof. revert a. induction l; intros; simpl; [done|]. rewrite IHl. apply apply_event_root. Qed.
Lemma apply_events_stack l a : a_stack (apply_events a l) = a_stack a.
Proof. revert a. induction l; intros; simpl; [done|]. rewrite IHl. apply apply_event_stack. Qed.
Lemma apply_events_prefix l a : a_prefix (apply_events a l) = a_prefix a.
Proof. revert a. induction l; intros; simpl; [done|]. rewrite IHl. apply apply_event_prefix. Qed.
Lemma apply_events_heap l a : a_heap (apply_events a l) = a_heap a.
Proof. revert a. induction l; intros; simpl; [done|]. rewrite IHl. apply apply_event_heap. Qed.

Lemma get_option_tabs a b t i : a_tabs a = a_tabs b -> get_option a t i = get_option b t i.
Proof. unfold get_option, table. intros ->. done. Qed.

Lemma same_frame_events t i a l : same_frame t i a (apply_events a l).
Proof.
  split; [apply apply_events_root|apply apply_events_stack|apply apply_events_prefix|..].
  - unfold decls. rewrite apply_events_tabs. done.
  - intros. apply get_option_tabs, apply_events_tabs.
Qed.
Lemma same_frame_heap t i a h : same_frame t i a (set_heap a h).
Proof. split; done. Qed.

Lemma get_option_Ok a t i o :
  get_option a t i = Ok o <-> exists T, a_tabs a !! t = Some T /\ T !! i = Some o.
Proof.
  unfold get_option, table, cell. destruct (a_tabs a !! t) as [T|] eqn:E; simpl.
  - destruct (T !! i) eqn:E2.
    + split; [intros [= ->]; eauto|]. intros (? & [= <-] & ?). congruence.
    + split; [done|]. intros (? & [= <-] & ?). congruence.
  - split; [done|]. intros (? & ? & ?). done.
Qed.

Lemma put_option_tabs a t i o T :
  a_tabs a !! t = Some T -> a_tabs (put_option a t i o) = <[t := <[i := o]> T]> (a_tabs a).
Proof.
  intros HT. unfold put_option. simpl. apply list_eq. intros j.
  destruct (decide (j = t)) as [->|Hne].
  - rewrite list_lookup_alter, HT. simpl.
    rewrite list_lookup_insert; [done|]. eapply lookup_lt_Some; eauto.
  - rewrite list_lookup_alter_ne, list_lookup_insert_ne; done.
Qed.

Lemma get_put_same a t i o o' :
  get_option a t i = Ok o -> get_option (put_option a t i o') t i = Ok o'.
Proof.
  rewrite !get_option_Ok. intros (T & HT & Ho).
  rewrite (put_option_tabs _ _ _ _ _ HT).
  rewrite list_lookup_insert by (eapply lookup_lt_Some; eauto).
  eexists. split; [done|]. apply list_lookup_insert. eapply lookup_lt_Some; eauto.
Qed.

Lemma get_put_other a t i o' t' i' :
  (t', i') <> (t, i) -> get_option (put_option a t i o') t' i' = get_option a t' i'.
Proof.
  intros Hne. unfold get_option, table, put_option. simpl.
  destruct (decide (t' = t)) as [->|Ht].
  - rewrite list_lookup_alter. destruct (a_tabs a !! t) as [T|]; [|done]. simpl.
    unfold cell. rewrite list_lookup_insert_ne; [done|]. congruence.
  - rewrite list_lookup_alter_ne; done.
Qed.

Lemma decls_put a t i o o' :
  get_option a t i = Ok o -> decl_of o' = decl_of o -> decls (put_option a t i o') = decls a.
Proof.
  intros Ho Hd. apply get_option_Ok in Ho as (T & HT & Ho). unfold decls.
  rewrite (put_option_tabs _ _ _ _ _ HT).
  apply list_eq. intros j. rewrite !list_lookup_fmap.
  destruct (decide (j = t)) as [->|Hne].
  - rewrite list_lookup_insert by (eapply lookup_lt_Some; eauto). rewrite HT. simpl. f_equal.
    apply list_eq. intros k. rewrite !list_lookup_fmap.
    destruct (decide (k = i)) as [->|Hk].
    + rewrite list_lookup_insert by (eapply lookup_lt_Some; eauto). rewrite Ho. simpl. congruence.
    + rewrite list_lookup_insert_ne; done.
  - rewrite list_lookup_insert_ne; done.
Qed.

Lemma same_frame_put a t i o o' :
  get_option a t i = Ok o -> decl_of o' = decl_of o -> same_frame t i a (put_option a t i o').
Proof.
  intros. split; try done.
  - eapply decls_put; eauto.
  - intros. apply get_put_other. done.
Qed.

Lemma rbind_Ok {A B} (m : res A) (k : A -> res B) b :
  rbind m k = Ok b -> exists a, m = Ok a /\ k a = Ok b.
Proof. destruct m; simpl; [eauto|discriminate]. Qed.

Lemma execute_callbacks_frame a t i v st a' :
  execute_callbacks a t i v = Ok (st, a') -> same_frame t i a a'.
Proof.
  unfold execute_callbacks. intros E.
  apply rbind_Ok in E as (o & Ho & E).
  destruct (d_handler (decl_of o)) as [f|].
  2:{ injection E as <- <-. apply same_frame_events with (l := [EDiag E_INVALID_HANDLER _]). }
  apply rbind_Ok in E as ([st1 ev] & Hv & E). cbv beta iota in E.
  destruct (negb (st1 =? SUCCESS)).
  { injection E as <- <-. apply same_frame_events. }
  apply rbind_Ok in E as (act & Hact & E).
  apply rbind_Ok in E as ([st2 s] & Hs & E). cbv beta iota in E.
  assert (Hd : decl_of (h_opt s) = decl_of o).
  { apply keeps_run_handler in Hs. done. }
  assert (F1 : same_frame t i a (apply_events a ev)) by apply same_frame_events.
  assert (Ho1 : get_option (apply_events a ev) t i = Ok o).
  { rewrite <- Ho. apply get_option_tabs, apply_events_tabs. }
  assert (F2 : same_frame t i (apply_events a ev) (put_option (apply_events a ev) t i (h_opt s))).
  { eapply same_frame_put; eauto. }
  match type of E with context [apply_events (set_heap ?x ?y) ?z] =>
    assert (F3 : same_frame t i x (apply_events (set_heap x y) z)) end.
  { eapply same_frame_trans; [apply same_frame_heap|apply same_frame_events]. }
  assert (F : same_frame t i a (apply_events (set_heap (put_option (apply_events a ev) t i (h_opt s))
      (h_heap s)) (h_log s))).
  { eapply same_frame_trans; [apply F1|]. eapply same_frame_trans; eauto. }
  destruct (negb (st2 =? SUCCESS)).
  { injection E as <- <-. done. }
  apply rbind_Ok in E as (o2 & Ho2 & E).
  eapply same_frame_trans; [exact F|].
  assert (a' = put_option (apply_events (set_heap (put_option (apply_events a ev) t i (h_opt s))
      (h_heap s)) (h_log s)) t i (if (value_count (with_set o2 true) =? 0)%nat
      then with_count (with_set o2 true) 1 else with_set o2 true)) as ->.
  { destruct (has _ _); injection E as <- <-; done. }
  eapply same_frame_put; [exact Ho2|]. destruct (_ =? _)%nat; done.
Qed.

Lemma enter_subcommand_frame a t i sub a' :
  enter_subcommand a t i = Ok (sub, a') ->
  exists o, get_option a t i = Ok o /\ d_sub (decl_of o) = sub /\
    a' = set_stack (put_option a t i (with_set o true)) (a_stack a ++ [(t, i)]) /\
    (length (a_stack a) < 8)%nat.
Proof.
  unfold enter_subcommand. intros E. apply rbind_Ok in E as (o & Ho & E).
  destruct (_ <=? _)%nat eqn:L; [discriminate|]. injection E as <- <-.
  apply Nat.leb_gt in L. eauto.
Qed.

Lemma enter_decls a t i sub a' :
  enter_subcommand a t i = Ok (sub, a') -> decls a' = decls a.
Proof.
  intros E. apply enter_subcommand_frame in E as (o & Ho & _ & -> & _).
  change (decls (put_option a t i (with_set o true)) = decls a).
  eapply decls_put; eauto.
Qed.

End libc.
