(** * What one call of execute_callbacks does, and sequences of calls *)
From Verif Require Import Api LibProofs FrameProofs SpecGrammar GrammarProofs GrammarLemmas
  ActiveProofs SpecAfter AfterProofs EnvProofs.
From Coq Require Import Lia.

(** ** Programs that write nothing to the log *)
Definition calm {A} (m : HM A) : Prop := forall s a s', m s = Ok (a, s') -> h_log s' = h_log s.
Create HintDb calm.
Lemma calm_ret {A} (a : A) : calm (hret a).
Proof. intros s b s' H. by injection H as <- <-. Qed.
Lemma calm_ub {A} u : calm (hub (A:=A) u).
Proof. intros s b s' H. discriminate. Qed.
Lemma calm_lift {A} (r : res A) : calm (hlift r).
Proof. intros s b s' H. unfold hlift in H. destruct r; [|discriminate]. by injection H as <- <-. Qed.
Lemma calm_bind {A B} (m : HM A) (k : A -> HM B) : calm m -> (forall a, calm (k a)) -> calm (hbind m k).
Proof.
  intros Hm Hk s b s' H. unfold hbind in H. destruct (m s) as [[a s1]|] eqn:E; [|discriminate].
  rewrite (Hk _ _ _ _ H). by eapply Hm.
Qed.
Lemma calm_get_opt : calm get_opt.
Proof. intros s b s' H. by injection H as <- <-. Qed.
Lemma calm_get_heap : calm get_heap.
Proof. intros s b s' H. by injection H as <- <-. Qed.
Lemma calm_put_heap h : calm (put_heap h).
Proof. intros s b s' H. by injection H as <- <-. Qed.
Lemma calm_mod f : calm (mod_opt f).
Proof. intros s b s' H. by injection H as <- <-. Qed.
Lemma calm_malloc b : calm (hmalloc b).
Proof. intros s x s' H. unfold hmalloc in H. destruct (malloc b (h_heap s)). by injection H as <- <-. Qed.
Lemma calm_free v : calm (hfree v).
Proof. intros s x s' H. unfold hfree in H. destruct (free v (h_heap s)); [|discriminate]. by injection H as <- <-. Qed.
Lemma calm_store v b : calm (hstore v b).
Proof. intros s x s' H. unfold hstore in H. destruct (store v b (h_heap s)); [|discriminate]. by injection H as <- <-. Qed.
Lemma calm_realloc v g : calm (hrealloc v g).
Proof. intros s x s' H. unfold hrealloc in H. destruct (realloc v g (h_heap s)) as [[]|]; [|discriminate]. by injection H as <- <-. Qed.
Lemma calm_deref_str v : calm (hderef_str v).
Proof. intros s x s' H. unfold hderef_str in H. destruct (deref_str _ _); [|discriminate]. by injection H as <- <-. Qed.
Lemma calm_deref_arr v : calm (hderef_arr v).
Proof. intros s x s' H. unfold hderef_arr in H. destruct (deref_arr _ _); [|discriminate]. by injection H as <- <-. Qed.
Lemma calm_deref_map v : calm (hderef_map v).
Proof. intros s x s' H. unfold hderef_map in H. destruct (deref_map _ _); [|discriminate]. by injection H as <- <-. Qed.
Global Hint Resolve calm_ret calm_ub calm_lift calm_get_opt calm_get_heap calm_put_heap calm_mod
  calm_malloc calm_free calm_store calm_realloc calm_deref_str calm_deref_arr calm_deref_map : calm.
Ltac calm_step :=
  match goal with
  | |- calm (hbind _ _) => apply calm_bind; [|intros]
  | |- calm (if ?b then _ else _) => destruct b
  | |- calm (match ?x with _ => _ end) => destruct x
  | |- calm (let '(_, _) := ?x in _) => destruct x
  | |- calm _ => solve [auto with calm]
  end.
Ltac calm := repeat calm_step.

Lemma calm_arr_write p i x : calm (arr_write p i x).
Proof. unfold arr_write. calm. Qed.
Lemma calm_arr_read p i : calm (arr_read p i).
Proof. unfold arr_read. calm. Qed.
Lemma calm_map_write p i x : calm (map_write p i x).
Proof. unfold map_write. calm. Qed.
Global Hint Resolve calm_arr_write calm_arr_read calm_map_write : calm.
Lemma calm_free_cells p i n : calm (free_cells p i n).
Proof. revert i. induction n; intros; simpl; calm. Qed.
Global Hint Resolve calm_free_cells : calm.
Lemma calm_cleanup p n : calm (cleanup_split p n).
Proof. unfold cleanup_split. calm. Qed.
Global Hint Resolve calm_cleanup : calm.
Lemma calm_split_loop p tmp cs i n : calm (split_loop p tmp cs i n).
Proof. revert tmp i. induction n; intros; simpl; calm. Qed.
Global Hint Resolve calm_split_loop : calm.
Lemma calm_split s cs : calm (split s cs).
Proof. unfold split. calm. Qed.
Global Hint Resolve calm_split : calm.
Lemma calm_free_words l : calm (free_words l).
Proof. induction l; simpl; calm. Qed.
Global Hint Resolve calm_free_words : calm.
Lemma calm_free_split p : calm (free_split p).
Proof. unfold free_split. calm. Qed.
Global Hint Resolve calm_free_split : calm.

(** ** Programs that end with status 0 only if they wrote no diagnostic *)
Definition no_diag (l : list event) : Prop := forall c m, EDiag c m ∉ l.
Definition honest (m : HM Z) : Prop := forall s s', m s = Ok (0, s') ->
  exists l, h_log s' = h_log s ++ l /\ no_diag l.

Lemma no_diag_nil : no_diag [].
Proof. intros c m Hc. by apply elem_of_nil in Hc. Qed.
Lemma calm_honest m : calm m -> honest m.
Proof. intros Hm s s' E. exists []. split; [|apply no_diag_nil]. rewrite app_nil_r. by eapply Hm. Qed.
Lemma honest_bind {A} (m : HM A) k : calm m -> (forall a, honest (k a)) -> honest (hbind m k).
Proof.
  intros Hm Hk s s' E. unfold hbind in E. destruct (m s) as [[a s1]|] eqn:E1; [|discriminate].
  apply Hk in E as (l & -> & Hl). exists l. rewrite (Hm _ _ _ E1). done.
Qed.
Lemma honest_fail (m : HM unit) c : c <> 0 -> honest (m ;;; hret c).
Proof.
  intros Hc s s' E. unfold hbind in E. destruct (m s) as [[a s1]|]; [|discriminate].
  unfold hret in E. injection E as -> _. done.
Qed.
Lemma honest_emit e : (forall c m, e <> EDiag c m) -> honest (emit e ;;; hret SUCCESS).
Proof.
  intros He s s' E. unfold hbind, emit, hret in E. injection E as <-. exists [e]. split; [done|].
  intros c m Hc. apply elem_of_list_singleton in Hc. by destruct (He c m).
Qed.
(** Continue only after success *)
Lemma honest_then (m k : HM Z) (f : Z -> HM Z) : honest m -> honest k ->
  (forall z, z <> 0 -> honest (f z)) ->
  (forall z s s', z <> 0 -> f z s <> Ok (0, s')) ->
  honest (let! st := m in if st =? SUCCESS then k else f st).
Proof.
  intros Hm Hk Hf Hne s s' E. unfold hbind in E. destruct (m s) as [[st s1]|] eqn:E1; [|discriminate].
  change SUCCESS with 0 in E. destruct (Z.eqb_spec st 0) as [->|Hst].
  - apply Hm in E1 as (l1 & E1 & H1). apply Hk in E as (l2 & E2 & H2).
    exists (l1 ++ l2). rewrite E2, E1, app_assoc. split; [done|].
    intros c x Hc. apply elem_of_app in Hc as [Hc|Hc]; [by apply (H1 c x)|by apply (H2 c x)].
  - exfalso. by eapply Hne.
Qed.

Lemma honest_for_words l body : (forall s, honest (body s)) -> honest (for_words l body).
Proof.
  intros Hb. induction l as [|x l IH]; simpl; [apply calm_honest; calm|].
  apply honest_bind; [calm|]. intros []; [apply calm_honest; calm|].
  apply honest_bind; [calm|]. intros s. apply honest_then; [done|done|..].
  - intros z _. apply calm_honest. calm.
  - intros z s0 s' Hz [= E _]. done.
Qed.

Section libc.
Context `{Libc}.

Lemma calm_sort_array {K} key cmp : calm (sort_array (K:=K) key cmp).
Proof. unfold sort_array. calm. Qed.
Lemma calm_sort_map {K} key cmp : calm (sort_map (K:=K) key cmp).
Proof. unfold sort_map. calm. Qed.
Lemma calm_make_unique same fd : calm (make_unique same fd).
Proof. unfold make_unique. calm. Qed.
Lemma calm_make_map_unique : calm make_map_values_unique.
Proof. unfold make_map_values_unique. calm. Qed.
Hint Resolve calm_sort_array calm_sort_map calm_make_unique calm_make_map_unique : calm.
Lemma calm_array_flags : calm apply_array_flags.
Proof.
  unfold apply_array_flags, sort_int_array, sort_string_array, sort_float_array,
    make_int_array_unique, make_string_array_unique, make_float_array_unique. calm.
Qed.
Lemma calm_map_flags : calm apply_map_flags.
Proof.
  unfold apply_map_flags, sort_map_by_keys, sort_map_by_int_values, sort_map_by_string_values,
    sort_map_by_float_values, sort_map_by_bool_values. calm.
Qed.
Lemma calm_adjust fr gr : calm (adjust_size fr gr).
Proof. unfold adjust_size. calm. Qed.
Lemma calm_find_key k : calm (map_find_key k).
Proof. unfold map_find_key. calm. Qed.
Lemma calm_push v : calm (push_value v).
Proof. unfold push_value. calm. Qed.
Lemma calm_push_pair k v : calm (push_pair k v).
Proof. unfold push_pair. calm. Qed.
Lemma calm_set_map_value i v : calm (set_map_value i v).
Proof. unfold set_map_value. calm. Qed.
Hint Resolve calm_array_flags calm_map_flags calm_adjust calm_find_key calm_push
  calm_push_pair calm_set_map_value : calm.
Lemma calm_adjust_arr : calm adjust_array_size.
Proof. apply calm_adjust. Qed.
Lemma calm_adjust_map : calm adjust_map_size.
Proof. apply calm_adjust. Qed.
Hint Resolve calm_adjust_arr calm_adjust_map : calm.
Lemma calm_range i n : calm (add_range_values i n).
Proof. revert i. induction n; intros; simpl; calm. Qed.
Hint Resolve calm_range : calm.
Lemma calm_set_value_string v : calm (set_value_string v).
Proof. unfold set_value_string. calm. Qed.
Lemma calm_set_value_float v : calm (set_value_float v).
Proof. unfold set_value_float. calm. Qed.
Lemma calm_set_int_value v : calm (set_int_value v).
Proof. unfold set_int_value. calm. Qed.
Lemma calm_set_float_value v : calm (set_float_value v).
Proof. unfold set_float_value. calm. Qed.
Hint Resolve calm_set_value_string calm_set_value_float calm_set_int_value calm_set_float_value : calm.

Lemma honest_set_value_int v : honest (set_value_int v).
Proof.
  unfold set_value_int. destruct (parse_int_range v) as [[]|]; [apply calm_honest; calm|].
  by apply honest_fail.
Qed.
Lemma honest_set_kv_scalar kd h c v : honest (set_kv_scalar kd h c v).
Proof.
  unfold set_kv_scalar. destruct (strchr v equal_sign); [|by apply honest_fail].
  apply honest_bind; [calm|]. intros [k|]; [|by apply honest_fail].
  destruct (c _); [|by apply honest_fail]. apply calm_honest. calm.
Qed.
Lemma honest_set_kv_string v : honest (set_kv_string v).
Proof.
  unfold set_kv_string. destruct (strchr v equal_sign); [|by apply honest_fail].
  apply honest_bind; [calm|]. intros [k|]; [|by apply honest_fail].
  apply honest_bind; [calm|]. intros [x|].
  - apply calm_honest. calm.
  - apply honest_bind; [calm|]. intros _. by apply honest_fail.
Qed.
Lemma honest_list one fl v : (forall s, honest (one s)) -> calm fl -> honest (list_handler one fl v).
Proof.
  intros Ho Hf. unfold list_handler. apply honest_then.
  - destruct (strchr v comma); [|apply Ho]. apply honest_bind; [calm|]. intros [p|].
    + apply honest_bind; [calm|]. intros cells. intros s s' E. unfold hbind in E.
      destruct (for_words cells one s) as [[st s1]|] eqn:E1; [|discriminate].
      destruct (free_split p s1) as [[[] s2]|] eqn:E2; [|discriminate].
      unfold hret in E. injection E as -> <-.
      apply (honest_for_words _ _ Ho) in E1 as (l & El & Hl). exists l. split; [|done].
      rewrite <- El. by eapply calm_free_split.
    + by apply honest_fail.
  - apply honest_bind; [done|]. intros _. apply calm_honest. calm.
  - intros z Hz. apply calm_honest. calm.
  - intros z s0 s' Hz [= E _]. done.
Qed.
Lemma honest_variadic (m : HM Z) (f : Z -> HM Z) : calm m ->
  (forall z, z <> 0 -> honest (f z)) -> (forall z s s', z <> 0 -> f z s <> Ok (0, s')) ->
  honest (let! st := m in if st =? SUCCESS then
    apply_array_flags ;;; mod_opt (fun o => with_allocated o true) ;;; hret SUCCESS else f st).
Proof.
  intros Hm Hf Hne. apply honest_then; [by apply calm_honest|..]; [|done|done].
  apply calm_honest. calm.
Qed.

Lemma honest_run_handler active f v : honest (run_handler active f v).
Proof.
  assert (Hneed : forall k : cstr -> HM Z, (forall s, honest (k s)) -> honest (need v k)).
  { intros k Hk. unfold need. destruct v; [apply Hk|]. apply calm_honest. calm. }
  destruct f; simpl; try apply Hneed; intros.
  all: try (apply honest_list; [intros|]; auto using honest_set_value_int, honest_set_kv_scalar,
    honest_set_kv_string, calm_array_flags, calm_map_flags, calm_honest, calm_set_value_string,
    calm_set_value_float; fail).
  - unfold flag_handler. apply calm_honest. calm.
  - unfold bool_handler. destruct v as [w|]; [|apply honest_bind; [calm|intros o; by apply honest_fail]].
    destruct (string_to_bool w); [apply calm_honest; calm|by apply honest_fail].
  - unfold string_handler. apply calm_honest. calm.
  - unfold int_handler. apply calm_honest. calm.
  - unfold float_handler. apply calm_honest. calm.
  - apply honest_variadic; [calm| |].
    + intros z Hz. apply calm_honest. calm.
    + intros z s0 s' Hz [= E _]. done.
  - apply honest_variadic; [calm| |].
    + intros z Hz. apply honest_bind; [calm|]. intros o. by apply honest_fail.
    + intros z s0 s' Hz E. unfold hbind, get_opt, emit, hret in E. by injection E.
  - apply honest_variadic; [calm| |].
    + intros z Hz. apply honest_bind; [calm|]. intros o. by apply honest_fail.
    + intros z s0 s' Hz E. unfold hbind, get_opt, emit, hret in E. by injection E.
  - by apply honest_emit.
  - by apply honest_emit.
  - apply honest_bind; [calm|]. intros o. destruct (f v (value o)). apply calm_honest. calm.
Qed.

Lemma no_diag_err l : forall a, no_diag l -> a_err (apply_events a l) = a_err a.
Proof.
  induction l as [|e l IH]; intros a Hl; simpl; [done|]. rewrite IH.
  - destruct e; try done. destruct (Hl code m). left.
  - intros c m Hc. apply (Hl c m). by right.
Qed.

(** ** One call *)

(** The marks execute_callbacks sets after the handler succeeded. *)
Definition marked (o : opt) : opt :=
  let o := with_set o true in if (value_count o =? 0)%nat then with_count o 1 else o.

Lemma put_tabs_events a t i o l : a_tabs (apply_events (put_option a t i o) l) = a_tabs (put_option a t i o).
Proof. apply apply_events_tabs. Qed.

Lemma call_ok a t i v a' : execute_callbacks a t i v = Ok (0, a') ->
  exists o f act s, get_option a t i = Ok o /\ d_handler (decl_of o) = Some f /\
    (forall e, e ∈ validators (decl_of o) -> v_order e = ORDER_PRE -> accepts_text (v_fun e) v) /\
    get_active_options a = Ok act /\
    run_handler (default (a_root a) act) f v (Hst o (a_heap a) []) = Ok (0, s) /\
    decl_of (h_opt s) = decl_of o /\
    get_option a' t i = Ok (marked (h_opt s)) /\ a_heap a' = h_heap s /\
    ~ flag 5 o /\ a_err a' = a_err a.
Proof.
  unfold execute_callbacks. intros E. apply rbind_Ok in E as (o & Ho & E).
  destruct (d_handler (decl_of o)) as [f|] eqn:Ef; [|done].
  apply rbind_Ok in E as ([st ev] & Ev & E). cbv beta iota in E.
  change SUCCESS with 0 in E.
  destruct (Z.eqb_spec st 0) as [->|Hst]; cbn [negb] in E; [|injection E as -> _; done].
  assert (Hpre : ev = [] /\ forall e, e ∈ validators (decl_of o) -> v_order e = ORDER_PRE -> accepts_text (v_fun e) v).
  { unfold validators. destruct (d_validators (decl_of o)) as [l|]; simpl.
    - apply run_pres in Ev as [(_ & -> & Ha)|(? & _)]; done.
    - injection Ev as <-. split; [done|]. intros e He. by apply elem_of_nil in He. }
  destruct Hpre as [-> Hpre]. cbn [apply_events fold_left] in E.
  apply rbind_Ok in E as (act & Eact & E). apply rbind_Ok in E as ([st s] & Es & E). cbv beta iota in E.
  destruct (Z.eqb_spec st 0) as [->|Hst]; cbn [negb] in E; [|injection E as -> _; done].
  pose proof (keeps_run_handler _ _ _ _ _ _ Es) as Hk. simpl in Hk.
  set (a2 := apply_events (set_heap (put_option a t i (h_opt s)) (h_heap s)) (h_log s)) in *.
  assert (Hg2 : get_option a2 t i = Ok (h_opt s)).
  { rewrite (get_option_tabs a2 (put_option a t i (h_opt s))).
    - by eapply get_put_same.
    - unfold a2. rewrite apply_events_tabs. done. }
  rewrite Hg2 in E. cbn [rbind] in E.
  fold (marked (h_opt s)) in E.
  assert (Hg3 : get_option (put_option a2 t i (marked (h_opt s))) t i = Ok (marked (h_opt s))).
  { by eapply get_put_same. }
  assert (Hdm : decl_of (marked (h_opt s)) = decl_of o).
  { unfold marked. simpl. destruct (value_count (h_opt s) =? 0)%nat; done. }
  assert (Hh : a_heap (put_option a2 t i (marked (h_opt s))) = h_heap s).
  { change (a_heap a2 = h_heap s). unfold a2. by rewrite apply_events_heap. }
  assert (He : a_err (put_option a2 t i (marked (h_opt s))) = a_err a).
  { change (a_err a2 = a_err a). unfold a2. apply honest_run_handler in Es as (l & El & Hl).
    simpl in El. rewrite El. rewrite no_diag_err; done. }
  destruct (has _ FLAG_EXIT) eqn:Ex; [discriminate E|injection E as <-].
  exists o, f, act, s. split_and!; try done.
  unfold flag. change FLAG_EXIT with (2 ^ 5)%N in Ex. rewrite Hdm in Ex.
  intros Hf. apply has_bit in Hf. congruence.
Qed.

(** A text refused by a pre-validator changes no option and no memory. *)
Lemma call_refused a t i v st a' o e :
  execute_callbacks a t i v = Ok (st, a') -> get_option a t i = Ok o ->
  is_Some (d_handler (decl_of o)) ->
  e ∈ validators (decl_of o) -> v_order e = ORDER_PRE -> ~ accepts_text (v_fun e) v ->
  st <> 0 /\ a_tabs a' = a_tabs a /\ a_heap a' = a_heap a.
Proof.
  unfold execute_callbacks. intros E Ho [f Hf] He Hord Hna. rewrite Ho in E. cbn [rbind] in E.
  rewrite Hf in E. apply rbind_Ok in E as ([st1 ev] & Ev & E). cbv beta iota in E.
  change SUCCESS with 0 in E.
  assert (Hst : st1 <> 0).
  { unfold validators in He. destruct (d_validators (decl_of o)) as [l|]; [|by apply elem_of_nil in He].
    simpl in He. apply run_pres in Ev as [(_ & _ & Ha)|(? & _)]; [|done]. destruct Hna. auto. }
  destruct (Z.eqb_spec st1 0); [done|]. cbn [negb] in E. injection E as <- <-.
  rewrite apply_events_tabs, apply_events_heap. done.
Qed.

(** ** Sequences of items *)
Lemma perform_untouched its : forall a st a' t i, perform a its = Ok (st, a') ->
  (forall x, x ∈ its -> ~ touches t i x) -> get_option a' t i = get_option a t i.
Proof.
  induction its as [|x its IH]; intros a st a' t i E Hn; cbn [perform] in E.
  { by injection E as <- <-. }
  assert (Hn' : forall x, x ∈ its -> ~ touches t i x) by (intros; apply Hn; by right).
  assert (Hx : ~ touches t i x) by (apply Hn; left).
  destruct x as [t0 i0 v|t0 i0|c].
  - apply rbind_Ok in E as ([st1 a1] & E1 & E). cbv beta iota in E.
    apply execute_callbacks_frame in E1 as [_ _ _ _ F].
    assert (Hg : get_option a1 t i = get_option a t i).
    { apply F. intros [= -> ->]. apply Hx. left. eauto. }
    destruct (st1 =? 0); [rewrite (IH _ _ _ _ _ E Hn'); done|]. by injection E as <- <-.
  - apply rbind_Ok in E as (a1 & E1 & E).
    apply select_frame in E1 as (_ & _ & _ & _ & _ & _ & _ & o & _ & _ & F).
    rewrite (IH _ _ _ _ _ E Hn'). apply F. intros [= -> ->]. apply Hx. by right.
  - by injection E as <- <-.
Qed.

Lemma perform_err its : forall a a', perform a its = Ok (0, a') -> (forall c m, Reject c m ∉ its) ->
  a_err a' = a_err a.
Proof.
  induction its as [|x its IH]; intros a a' E Hr; cbn [perform] in E; [by injection E as <-|].
  assert (Hr' : forall c m, Reject c m ∉ its) by (intros c m Hc; apply (Hr c m); by right).
  destruct x as [t0 i0 v|t0 i0|c m]; [..|destruct (Hr c m); left].
  - apply rbind_Ok in E as ([st1 a1] & E1 & E). cbv beta iota in E.
    destruct (Z.eqb_spec st1 0) as [->|]; [|congruence].
    apply call_ok in E1 as (? & ? & ? & ? & _ & _ & _ & _ & _ & _ & _ & _ & _ & <-). by apply IH.
  - apply rbind_Ok in E as (a1 & E1 & E).
    apply select_frame in E1 as (_ & _ & _ & _ & <- & _). by apply IH.
Qed.

Lemma perform_split its1 : forall its2 a a', perform a (its1 ++ its2) = Ok (0, a') ->
  (forall c m, Reject c m ∉ its1) ->
  exists a1, perform a its1 = Ok (0, a1) /\ perform a1 its2 = Ok (0, a').
Proof.
  intros its2 a a' E Hr. rewrite perform_app in E by done.
  apply rbind_Ok in E as ([st a1] & E1 & E). cbv beta iota in E.
  destruct (Z.eqb_spec st 0) as [->|]; [eauto|congruence].
Qed.
End libc.
