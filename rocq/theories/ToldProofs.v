(** * Every refusal is explained by exactly one message *)
From Coq Require Import Lia.
From Verif Require Import Api LibProofs FrameProofs SpecGrammar GrammarProofs SpecAfter AfterProofs CallProofs
  SpecTold.

Lemma messages_app l1 l2 : messages (l1 ++ l2) = messages l1 ++ messages l2.
Proof. unfold messages. apply omap_app. Qed.
Lemma explained_nil : explained 0 [].
Proof. split; [done|]. intros X. done. Qed.
Lemma explained_exit : explained 1 [].
Proof. split; [done|]. intros _ X. done. Qed.
Lemma explained_diag c m : c <> 0 -> c <> 1 -> explained c [EDiag c m].
Proof. intros N0 N1. split; [by intros [?|?]|done]. Qed.
Lemma explained_memory l : explained 26 l.
Proof. split; [by intros [?|?]|done]. Qed.
Lemma explained_after l st l' : messages l = [] -> explained st l' -> explained st (l ++ l').
Proof. intros E [H1 H2]. split; intros; rewrite messages_app, E; cbn [app]; auto. Qed.
Lemma explained_usage st l : explained st l -> explained st (l ++ [EUsage]).
Proof. intros [H1 H2]. split; intros; rewrite messages_app; cbn; rewrite app_nil_r; auto. Qed.

(** ** Handlers *)
Definition tells (m : HM Z) : Prop := forall s st s', m s = Ok (st, s') ->
  exists l, h_log s' = h_log s ++ l /\ explained st l.
(** Quiet programs with a status that needs no message *)
Lemma tells_calm (m : HM Z) : calm m -> (forall s st s', m s = Ok (st, s') -> st = 0 \/ st = 26) -> tells m.
Proof.
  intros Hm Hst s st s' E. exists []. rewrite app_nil_r. split; [by eapply Hm|].
  destruct (Hst _ _ _ E) as [->| ->]; [apply explained_nil|apply explained_memory].
Qed.
Lemma tells_bind {A} (m : HM A) k : calm m -> (forall a, tells (k a)) -> tells (hbind m k).
Proof.
  intros Hm Hk s st s' E. unfold hbind in E. destruct (m s) as [[a s1]|] eqn:E1; [|discriminate].
  apply Hk in E as (l & -> & Hl). exists l. by rewrite (Hm _ _ _ E1).
Qed.
Lemma tells_ret : tells (hret SUCCESS).
Proof. intros s st s' [= <- <-]. exists []. rewrite app_nil_r. split; [done|]. apply explained_nil. Qed.
Lemma tells_memory : tells (hret E_MEMORY).
Proof. intros s st s' [= <- <-]. exists []. rewrite app_nil_r. split; [done|]. apply explained_memory. Qed.
Lemma tells_ub u : tells (hub u).
Proof. intros s st s' E. discriminate. Qed.
Lemma tells_fail c m : c <> 0 -> c <> 1 -> tells (emit (EDiag c m) ;;; hret c).
Proof.
  intros N0 N1 s st s' E. unfold hbind, emit, hret in E. injection E as <- <-. exists [EDiag c m].
  split; [done|]. by apply explained_diag.
Qed.
Lemma tells_show e : messages [e] = [] -> tells (emit e ;;; hret SUCCESS).
Proof.
  intros He s st s' E. unfold hbind, emit, hret in E. injection E as <- <-. exists [e]. split; [done|].
  split; [done|]. intros X. done.
Qed.
Lemma tells_then (m k : HM Z) : tells m -> tells k ->
  tells (let! st := m in if st =? SUCCESS then k else hret st).
Proof.
  intros Hm Hk s st s' E. unfold hbind in E. destruct (m s) as [[st1 s1]|] eqn:E1; [|discriminate].
  apply Hm in E1 as (l1 & L1 & X1). change SUCCESS with 0 in E. destruct (Z.eqb_spec st1 0) as [->|N].
  - apply Hk in E as (l2 & L2 & X2). exists (l1 ++ l2). rewrite L2, L1, app_assoc. split; [done|].
    apply explained_after; [|done]. apply X1. by left.
  - unfold hret in E. injection E as <- <-. by exists l1.
Qed.
Lemma tells_for_words l body : (forall s, tells (body s)) -> tells (for_words l body).
Proof.
  intros Hb. induction l as [|x l IH]; cbn [for_words]; [apply tells_ub|].
  apply tells_bind; [calm|]. intros []; [apply tells_ret|].
  apply tells_bind; [calm|]. intros s. by apply tells_then.
Qed.

Section libc.
Context `{Libc}.

Hint Resolve calm_array_flags calm_map_flags calm_adjust_arr calm_adjust_map calm_find_key calm_push calm_push_pair
  calm_set_map_value calm_range : calm.
Ltac tell := repeat (first
  [apply tells_ret|apply tells_memory|apply tells_ub|by apply tells_fail
  |apply tells_bind; [solve [calm]|intros]
  |match goal with
   | |- tells (if ?b then _ else _) => destruct b
   | |- tells (match ?x with _ => _ end) => destruct x
   | |- tells (let '(_, _) := ?x in _) => destruct x
   end]).

Lemma tells_set_value_int v : tells (set_value_int v).
Proof. unfold set_value_int. destruct (parse_int_range v) as [[]|]; tell. Qed.
Lemma tells_set_value_string v : tells (set_value_string v).
Proof. unfold set_value_string. tell. Qed.
Lemma tells_set_value_float v : tells (set_value_float v).
Proof. unfold set_value_float. tell. Qed.
Lemma tells_set_kv_scalar k h c v : tells (set_kv_scalar k h c v).
Proof. unfold set_kv_scalar. tell. Qed.
Lemma tells_set_kv_string v : tells (set_kv_string v).
Proof. unfold set_kv_string. tell. Qed.
Lemma tells_list one fl v : (forall s, tells (one s)) -> calm fl -> tells (list_handler one fl v).
Proof.
  intros Ho Hf. unfold list_handler. apply tells_then.
  - destruct (strchr v comma); [|apply Ho]. apply tells_bind; [calm|]. intros [p|]; [|by apply tells_fail].
    apply tells_bind; [calm|]. intros cells s st s' E. unfold hbind in E.
    destruct (for_words cells one s) as [[st1 s1]|] eqn:E1; [|discriminate].
    destruct (free_split p s1) as [[[] s2]|] eqn:E2; [|discriminate].
    unfold hret in E. injection E as <- <-.
    apply (tells_for_words _ _ Ho) in E1 as (l & El & Hl). exists l. split; [|done].
    rewrite <- El. by eapply calm_free_split.
  - tell.
Qed.
(** The variadic handlers of numbers: one message whatever the reason. *)
Lemma tells_variadic (m : HM Z) (text : opt -> message) : calm m -> (forall s st s', m s = Ok (st, s') -> st = 0 \/ st = 26 \/ st = 29) ->
  tells (let! st := m in if st =? SUCCESS then
    apply_array_flags ;;; mod_opt (fun o => with_allocated o true) ;;; hret SUCCESS
    else let! o := get_opt in emit (EDiag E_INVALID_VALUE (text o)) ;;; hret st).
Proof.
  intros Hm Hst s st s' E. unfold hbind at 1 in E. destruct (m s) as [[st1 s1]|] eqn:E1; [|discriminate].
  pose proof (Hst _ _ _ E1) as X. pose proof (Hm _ _ _ E1) as L1. change SUCCESS with 0 in E.
  destruct (Z.eqb_spec st1 0) as [->|N].
  - assert (T : tells (apply_array_flags ;;; mod_opt (fun o => with_allocated o true) ;;; hret SUCCESS)) by tell.
    apply T in E as (l & -> & Hl). exists l. by rewrite L1.
  - unfold hbind, get_opt, emit, hret in E. injection E as <- <-. eexists [EDiag E_INVALID_VALUE _]. cbn [h_log]. rewrite L1.
    split; [done|]. destruct X as [->|[->| ->]]; [done|apply explained_memory|by apply explained_diag].
Qed.
Definition ends_in (m : HM Z) : Prop := forall s st s', m s = Ok (st, s') -> st = 0 \/ st = 26 \/ st = 29.
Lemma ends_bind {A} (m : HM A) k : (forall a, ends_in (k a)) -> ends_in (hbind m k).
Proof.
  intros Hk s st s' E. unfold hbind in E. destruct (m s) as [[a s1]|]; [|discriminate]. by eapply Hk.
Qed.
Lemma ends_ret c : c = 0 \/ c = 26 \/ c = 29 -> ends_in (hret c).
Proof. intros Hc s st s' E. unfold hret in E. by injection E as <- <-. Qed.
Lemma int_value_status v : ends_in (set_int_value v).
Proof.
  unfold set_int_value. apply ends_bind; intros _. apply ends_bind; intros o.
  destruct (_ =? 0)%nat; [apply ends_ret; auto|]. destruct (strtoll v) as [x [|c rest]]; [|apply ends_ret; auto].
  destruct (_ =? 0)%nat; [apply ends_ret; auto|]. apply ends_bind; intros _. apply ends_ret; auto.
Qed.
Lemma float_value_status v : ends_in (set_float_value v).
Proof.
  unfold set_float_value. apply ends_bind; intros _. apply ends_bind; intros o.
  destruct (_ =? 0)%nat; [apply ends_ret; auto|]. destruct (strtod v) as [x n].
  destruct (_ || _); [apply ends_ret; auto|]. apply ends_bind; intros _. apply ends_ret; auto.
Qed.
Lemma tells_run_handler active f v : (forall g, f <> HCustom g) -> tells (run_handler active f v).
Proof.
  intros Hc.
  assert (Hneed : forall k : cstr -> HM Z, (forall s, tells (k s)) -> tells (need v k)).
  { intros k Hk. unfold need. destruct v; [apply Hk|]. apply tells_ub. }
  destruct f; cbn [run_handler]; try apply Hneed; intros.
  all: try (apply tells_list; [intros|]; auto using tells_set_value_int, tells_set_kv_scalar, tells_set_kv_string,
    calm_array_flags, calm_map_flags, tells_set_value_string, tells_set_value_float; fail).
  - unfold flag_handler. tell.
  - unfold bool_handler. tell.
  - unfold string_handler. tell.
  - unfold int_handler. tell.
  - unfold float_handler. tell.
  - apply tells_then; [apply tells_set_value_string|tell].
  - apply tells_variadic; [apply calm_set_int_value|apply int_value_status].
  - apply tells_variadic; [apply calm_set_float_value|apply float_value_status].
  - by apply tells_show.
  - by apply tells_show.
  - by destruct (Hc f).
Qed.

(** ** Validators *)
Lemma validator_status f arg h st ev : builtin f -> run_validator f arg h = Ok (st, ev) ->
  st = 0 /\ ev = [] \/ st <> 0 /\ st <> 1 /\ exists m, ev = [EDiag st m].
Proof.
  intros B.
  destruct f, arg; cbn [run_validator]; try discriminate; try done.
  - unfold range_validator. destruct (_ <? _); [intros [= <- <-]; eauto 6|].
    intros E. apply rbind_Ok in E as (x & _ & E). destruct (_ || _); injection E as <- <-; eauto 6.
  - unfold length_validator. intros E. apply rbind_Ok in E as ([] & _ & E); [injection E as <- <-; eauto 6|].
    destruct (_ || _); [injection E as <- <-; eauto 6|]. destruct (_ <? _); [injection E as <- <-; eauto 6|].
    apply rbind_Ok in E as (x & _ & E). destruct (_ || _); injection E as <- <-; eauto 6.
  - unfold count_validator. destruct (_ || _); [intros [= <- <-]; eauto 6|]. destruct (_ <? _); [intros [= <- <-]; eauto 6|].
    destruct (_ || _); intros [= <- <-]; eauto 6.
  - unfold regex_validator. destruct (negb _); [intros [= <- <-]; eauto 6|]. destruct pattern; [|intros [= <- <-]; eauto 6].
    destruct s; [|intros [= <- <-]; eauto 6]. destruct (regex_match _ _); intros [= <- <-]; eauto 6.
  - unfold choices_string_validator. intros E. apply rbind_Ok in E as (x & _ & E).
    destruct (existsb _ _); injection E as <- <-; eauto 6.
  - unfold choices_int_validator. intros E. apply rbind_Ok in E as (x & _ & E).
    destruct (existsb _ _); injection E as <- <-; eauto 6.
  - unfold choices_float_validator. intros E. apply rbind_Ok in E as (x & _ & E).
    destruct (existsb _ _); injection E as <- <-; eauto 6.
Qed.
Lemma validators_status ord l arg h st ev : (forall e, e ∈ l -> builtin (v_fun e)) ->
  run_validators ord l arg h = Ok (st, ev) -> explained st ev.
Proof.
  intros B. assert (X : forall st ev, run_validators ord l arg h = Ok (st, ev) ->
    st = 0 /\ ev = [] \/ st <> 0 /\ st <> 1 /\ exists m, ev = [EDiag st m]).
  { induction l as [|e l IH]; intros st1 ev1; cbn [run_validators]; [intros [= <- <-]; auto|].
    destruct (is_order ord e); [|apply IH; intros; apply B; by right].
    intros E. apply rbind_Ok in E as ([st2 ev2] & E2 & E). apply validator_status in E2; [|apply B; by left].
    destruct E2 as [[-> ->]|(N0 & N1 & m & ->)]; cbn in E.
    - apply rbind_Ok in E as ([st3 ev3] & E3 & E). injection E as <- <-. apply IH; [|done]. intros; apply B; by right.
    - change SUCCESS with 0 in E. destruct (Z.eqb_spec st2 0); [done|]. injection E as <- <-. eauto 6. }
  intros E. apply X in E as [[-> ->]|(N0 & N1 & m & ->)]; [apply explained_nil|by apply explained_diag].
Qed.

(** ** The context *)
Definition goes_on (a : argus) (st : Z) (a' : argus) : Prop :=
  decls a' = decls a /\ exists l, a_log a' = a_log a ++ l /\ explained st l.
Lemma log_events l : forall a, a_log (apply_events a l) = a_log a ++ l.
Proof.
  induction l as [|e l IH]; intros a; cbn [apply_events fold_left]; [by rewrite app_nil_r|].
  fold (apply_events (apply_event a e) l). rewrite IH. destruct e; cbn; by rewrite <- app_assoc.
Qed.
Lemma goes_diag a c m : c <> 0 -> c <> 1 -> goes_on a c (diag c m a).
Proof. intros N0 N1. split; [done|]. exists [EDiag c m]. split; [done|]. by apply explained_diag. Qed.
Lemma goes_refl a : goes_on a 0 a.
Proof. split; [done|]. exists []. rewrite app_nil_r. split; [done|]. apply explained_nil. Qed.
Lemma goes_trans a a1 st a2 : goes_on a 0 a1 -> goes_on a1 st a2 -> goes_on a st a2.
Proof.
  intros [D1 (l1 & L1 & X1)] [D2 (l2 & L2 & X2)]. split; [congruence|]. exists (l1 ++ l2).
  rewrite L2, L1, app_assoc. split; [done|]. apply explained_after; [|done]. apply X1. by left.
Qed.
Lemma entry_library a t i o : library_only (decls a) -> get_option a t i = Ok o -> library_entry (decl_of o).
Proof.
  intros Hl Ho. apply get_option_Ok in Ho as (T & HT & Ho). apply (Hl t (map decl_of T)).
  - unfold decls. by rewrite list_lookup_fmap, HT.
  - apply elem_of_list_fmap. exists o. split; [done|]. by eapply elem_of_list_lookup_2.
Qed.
Lemma library_builtin o e : library_entry (decl_of o) -> e ∈ validators (decl_of o) -> builtin (v_fun e).
Proof. intros [_ X] He. by apply X. Qed.

Lemma execute_goes a t i v st a' : library_only (decls a) -> execute_callbacks a t i v = Ok (st, a') -> goes_on a st a'.
Proof.
  intros Hl E. split; [apply (sf_decls _ _ _ _ (execute_callbacks_frame _ _ _ _ _ _ E))|].
  unfold execute_callbacks in E. apply rbind_Ok in E as (o & Ho & E).
  pose proof (entry_library _ _ _ _ Hl Ho) as Ly.
  destruct (d_handler (decl_of o)) as [f|] eqn:Ef.
  2:{ injection E as <- <-. eexists [EDiag E_INVALID_HANDLER _]. split; [done|]. by apply explained_diag. }
  apply rbind_Ok in E as ([st1 ev] & Hv & E). cbv beta iota in E.
  assert (X1 : explained st1 ev).
  { destruct (d_validators (decl_of o)) as [l|] eqn:El; [|injection Hv as <- <-; apply explained_nil].
    eapply validators_status; [|exact Hv]. intros e He. eapply library_builtin; [exact Ly|].
    unfold validators. by rewrite El. }
  change SUCCESS with 0 in E. destruct (Z.eqb_spec st1 0) as [->|N1]; cbn [negb] in E.
  2:{ injection E as <- <-. exists ev. split; [apply log_events|done]. }
  apply rbind_Ok in E as (act & _ & E). apply rbind_Ok in E as ([st2 s] & Hs & E). cbv beta iota in E.
  apply tells_run_handler in Hs as (l2 & L2 & X2); [|intros g ->; by destruct (proj1 Ly g)].
  cbn [h_log app] in L2. set (a2 := apply_events _ (h_log s)) in *.
  assert (La2 : a_log a2 = a_log a ++ ev ++ h_log s).
  { unfold a2. rewrite log_events. cbn. rewrite log_events. by rewrite <- app_assoc. }
  rewrite L2 in La2.
  assert (Xa : explained st2 (ev ++ l2)) by (apply explained_after; [apply X1; by left|done]).
  destruct (Z.eqb_spec st2 0) as [->|N2]; cbn [negb] in E.
  2:{ injection E as <- <-. by exists (ev ++ l2). }
  apply rbind_Ok in E as (o2 & Ho2 & E). exists (ev ++ l2).
  destruct (has _ FLAG_EXIT); injection E as <- <-; split; try exact La2; [|done].
  split; [|intros _ X; done]. intros _. apply Xa. by left.
Qed.

Lemma long_goes a t arg next st used a' : library_only (decls a) ->
  handle_long_option a t arg next = Ok (st, used, a') -> goes_on a st a'.
Proof.
  intros Hl. unfold handle_long_option. intros E. apply rbind_Ok in E as (T & HT & E).
  destruct (find_option_by_lname T _) as [i|]; [|injection E as <- <- <-; by apply goes_diag].
  apply rbind_Ok in E as (o & Ho & E). destruct (_ =? VT_FLAG)%N.
  { apply rbind_Ok in E as ([st1 a1] & E1 & E). injection E as <- <- <-. by eapply execute_goes. }
  destruct (strchr arg equal_sign), next; try (injection E as <- <- <-; by apply goes_diag);
    apply rbind_Ok in E as ([st1 a1] & E1 & E); injection E as <- <- <-; by eapply execute_goes.
Qed.
Lemma short_goes t arg : forall a next st used a', library_only (decls a) ->
  handle_short_option a t arg next = Ok (st, used, a') -> goes_on a st a'.
Proof.
  induction arg as [|c arg IH]; intros a next st used a' Hl; cbn [handle_short_option].
  { intros [= <- <- <-]. apply goes_refl. }
  intros E. apply rbind_Ok in E as (T & HT & E).
  destruct (find_option_by_sname T _) as [i|]; [|injection E as <- <- <-; by apply goes_diag].
  apply rbind_Ok in E as (o & Ho & E). destruct (_ =? VT_FLAG)%N.
  { apply rbind_Ok in E as ([st1 a1] & E1 & E). apply execute_goes in E1; [|done].
    change SUCCESS with 0 in E. destruct (Z.eqb_spec st1 0) as [->|N].
    - eapply goes_trans; [exact E1|]. eapply IH; [|exact E]. destruct E1 as [-> _]. done.
    - by injection E as <- <- <-. }
  destruct arg, next; try (injection E as <- <- <-; by apply goes_diag);
    apply rbind_Ok in E as ([st1 a1] & E1 & E); injection E as <- <- <-; by eapply execute_goes.
Qed.
Lemma positional_goes a t v pos st a' : library_only (decls a) ->
  handle_positional a t v pos = Ok (st, a') -> goes_on a st a'.
Proof.
  intros Hl. unfold handle_positional. intros E. apply rbind_Ok in E as (T & HT & E).
  destruct (find_positional T _) as [i|]; [by eapply execute_goes|injection E as <- <-; by apply goes_diag].
Qed.
Lemma parse_goes n : forall argv, (length argv <= n)%nat -> forall a tp pos only st a', library_only (decls a) ->
  parse_args a tp pos only argv = Ok (st, a') -> goes_on a st a'.
Proof.
  induction n as [|n IH]; intros [|arg rest] L a tp pos only st a' Hl E.
  1,3: injection E as <- <-; apply goes_refl.
  { cbn in L. lia. }
  cbn [parse_args] in E. cbn [length] in L.
  assert (Go : forall a1 st1 tp pos only argv, goes_on a st1 a1 -> (length argv <= n)%nat ->
    (if st1 =? SUCCESS then parse_args a1 tp pos only argv else Ok (st1, a1)) = Ok (st, a') -> goes_on a st a').
  { intros a1 st1 tp1 pos1 only1 argv1 G Ln E1. change SUCCESS with 0 in E1. destruct (Z.eqb_spec st1 0) as [->|N].
    - eapply goes_trans; [exact G|]. eapply IH; [exact Ln| |exact E1]. by destruct G as [-> _].
    - by injection E1 as <- <-. }
  assert (Go2 : forall a1 st1 (used : bool), goes_on a st1 a1 ->
    (if st1 =? SUCCESS then match rest with
       | _ :: rest' => if used then parse_args a1 tp pos only rest' else parse_args a1 tp pos only rest
       | [] => Ok (SUCCESS, a1) end else Ok (st1, a1)) = Ok (st, a') -> goes_on a st a').
  { intros a1 st1 used G E1. destruct rest as [|r rest'].
    - eapply (Go a1 st1 tp pos only []); [done|cbn; lia|]. cbn [parse_args]. exact E1.
    - cbn [length] in L. destruct used; (eapply Go; [exact G| |exact E1]); cbn [length]; lia. }
  destruct (strcmp arg _ =? 0); [eapply IH; [|exact Hl|exact E]; lia|].
  destruct tp as [t|]; [|discriminate]. destruct only.
  { apply rbind_Ok in E as ([st1 a1] & E1 & E). apply positional_goes in E1; [|done]. eapply Go; [exact E1| |exact E]. lia. }
  destruct (starts_with (Some ($"--")) (Some arg)) as [la|].
  { apply rbind_Ok in E as ([[st1 used] a1] & E1 & E). apply long_goes in E1; [|done]. by eapply Go2. }
  destruct (starts_with (Some ($"-")) (Some arg)) as [sa|].
  { apply rbind_Ok in E as (T & HT & E). cbv beta iota zeta in E. destruct (is_negative_number sa && _).
    - apply rbind_Ok in E as ([st1 a1] & E1 & E). apply positional_goes in E1; [|done]. eapply Go; [exact E1| |exact E]. lia.
    - apply rbind_Ok in E as ([[st1 used] a1] & E1 & E). apply short_goes in E1; [|done]. by eapply Go2. }
  apply rbind_Ok in E as (T & HT & E). destruct (find_subcommand T arg) as [|i|i j].
  - apply rbind_Ok in E as ([st1 a1] & E1 & E). apply positional_goes in E1; [|done]. eapply Go; [exact E1| |exact E]. lia.
  - apply rbind_Ok in E as ([sub a1] & E1 & E). pose proof (enter_decls _ _ _ _ _ E1) as D1.
    apply enter_subcommand_frame in E1 as (o & Ho & _ & Ea & _).
    eapply goes_trans; [|eapply IH; [|rewrite D1; exact Hl|exact E]; lia].
    split; [done|]. exists []. rewrite app_nil_r. split; [by subst a1|]. apply explained_nil.
  - apply rbind_Ok in E as (o & _ & E). apply rbind_Ok in E as (o' & _ & E). injection E as <- <-. by apply goes_diag.
Qed.

Lemma env_goes n : forall a t i st a', library_only (decls a) -> load_env_from a t i n = Ok (st, a') -> goes_on a st a'.
Proof.
  induction n as [|n IH]; intros a t i st a' Hl; cbn [load_env_from]; [intros [= <- <-]; apply goes_refl|].
  intros E. apply rbind_Ok in E as (o & Ho & E). destruct (_ || _); [by eapply IH|]. destruct (_ && _); [by eapply IH|].
  destruct (get_env_var_name _ _); [|by eapply IH]. destruct (getenv _) as [v|]; [|by eapply IH].
  apply rbind_Ok in E as ([st1 a1] & E1 & E). apply execute_goes in E1; [|done].
  change SUCCESS with 0 in E. destruct (Z.eqb_spec st1 0) as [->|N].
  { eapply goes_trans; [exact E1|]. eapply IH; [|exact E]. by destruct E1 as [-> _]. }
  destruct (is_set o); [|by injection E as <- <-].
  apply rbind_Ok in E as (o1 & Ho1 & E). injection E as <- <-. destruct E1 as [D1 X1]. split; [|exact X1].
  rewrite (decls_put _ _ _ _ _ Ho1); done.
Qed.
Lemma env_stack_goes stk : forall a st a', library_only (decls a) -> load_env_stack a stk = Ok (st, a') -> goes_on a st a'.
Proof.
  induction stk as [|r stk IH]; intros a st a' Hl; cbn [load_env_stack]; [intros [= <- <-]; apply goes_refl|].
  intros E. apply rbind_Ok in E as (s & _ & E). destruct s as [t|]; [|by eapply IH].
  apply rbind_Ok in E as ([st1 a1] & E1 & E). unfold load_env in E1. apply rbind_Ok in E1 as (T & _ & E1).
  apply env_goes in E1; [|done]. change SUCCESS with 0 in E. destruct (Z.eqb_spec st1 0) as [->|N].
  - eapply goes_trans; [exact E1|]. eapply IH; [|exact E]. by destruct E1 as [-> _].
  - by injection E as <- <-.
Qed.
Lemma env_vars_goes a st a' : library_only (decls a) -> load_env_vars a = Ok (st, a') -> goes_on a st a'.
Proof.
  intros Hl E. unfold load_env_vars, load_env in E. apply rbind_Ok in E as ([st1 a1] & E1 & E).
  apply rbind_Ok in E1 as (T & _ & E1). apply env_goes in E1; [|done].
  change SUCCESS with 0 in E. destruct (Z.eqb_spec st1 0) as [->|N].
  - eapply goes_trans; [exact E1|]. eapply env_stack_goes; [|exact E]. by destruct E1 as [-> _].
  - by injection E as <- <-.
Qed.

Lemma required_status T name l st ev : validate_required T name l = (st, ev) -> explained st ev /\ (st = 0 \/ st = 14).
Proof.
  induction l as [|n l IH]; cbn [validate_required]; [intros [= <- <-]; split; [apply explained_nil|by left]|].
  destruct (find_option_by_name T n); [|done]. destruct (T !! _); [|done]. destruct (is_set _); [done|].
  intros [= <- <-]. split; [by apply explained_diag|by right].
Qed.
Lemma conflicts_status T name l st ev : validate_conflicts T name l = (st, ev) -> explained st ev /\ (st = 0 \/ st = 15).
Proof.
  induction l as [|n l IH]; cbn [validate_conflicts]; [intros [= <- <-]; split; [apply explained_nil|by left]|].
  destruct (find_option_by_name T n); [|done]. destruct (T !! _); [|done]. destruct (is_set _); [|done].
  intros [= <- <-]. split; [by apply explained_diag|by right].
Qed.
Lemma set_status h T l : (forall o, o ∈ l -> library_entry (decl_of o)) -> forall gn excl first st ev,
  validate_options_set h T l gn excl first = Ok (st, ev) -> explained st ev.
Proof.
  induction l as [|o l IH]; intros Hl gn excl first st ev; cbn [validate_options_set]; [intros [= <- <-]; apply explained_nil|].
  assert (Hl' : forall o, o ∈ l -> library_entry (decl_of o)) by (intros; apply Hl; by right).
  destruct (is_type TGroup o); [by apply IH|]. destruct (_ && _ && _); [intros [= <- <-]; by apply explained_diag|].
  destruct (is_set o); [|by apply IH]. destruct (_ && _); [intros [= <- <-]; by apply explained_diag|].
  intros E. apply rbind_Ok in E as ([st1 ev1] & E1 & E). cbv beta iota in E.
  assert (X1 : explained st1 ev1).
  { unfold call_validators in E1. destruct (d_validators (decl_of o)) as [vs|] eqn:Ev; [|injection E1 as <- <-; apply explained_nil].
    eapply validators_status; [|exact E1]. intros e He. eapply library_builtin; [apply Hl; by left|]. unfold validators. by rewrite Ev. }
  change SUCCESS with 0 in E. destruct (Z.eqb_spec st1 0) as [->|N]; cbn [negb] in E; [|by injection E as <- <-].
  assert (M1 : messages ev1 = []) by (apply X1; by left).
  set (r := match d_require (decl_of o) with Some r => _ | None => _ end) in E.
  assert (Hr : explained (fst r) (snd r) /\ (fst r = 0 \/ fst r = 14)).
  { unfold r. destruct (d_require _) as [l1|]; [|split; [apply explained_nil|by left]].
    destruct (validate_required T _ l1) eqn:Er. by eapply required_status. }
  destruct r as [sr er]. cbn [fst snd] in Hr. destruct Hr as [Xr [->| ->]]; cbn [negb Z.eqb] in E.
  2:{ injection E as <- <-. by apply explained_after. }
  set (c := match d_conflict (decl_of o) with Some r => _ | None => _ end) in E.
  assert (Hc : explained (fst c) (snd c) /\ (fst c = 0 \/ fst c = 15)).
  { unfold c. destruct (d_conflict _) as [l1|]; [|split; [apply explained_nil|by left]].
    destruct (validate_conflicts T _ l1) eqn:Er. by eapply conflicts_status. }
  destruct c as [sc ec]. cbn [fst snd] in Hc. destruct Hc as [Xc [->| ->]]; cbn [negb Z.eqb] in E.
  2:{ injection E as <- <-. by apply explained_after. }
  apply rbind_Ok in E as ([st2 ev2] & E2 & E). injection E as <- <-. apply explained_after; [done|]. by eapply IH.
Qed.
Lemma table_goes a tp st a' : library_only (decls a) -> validate_table a tp = Ok (st, a') -> goes_on a st a'.
Proof.
  intros Hl E. unfold validate_table in E. apply rbind_Ok in E as (T & HT & E).
  apply rbind_Ok in E as ([st1 ev] & E1 & E). injection E as <- <-.
  split; [unfold decls; by rewrite apply_events_tabs|]. exists ev. split; [apply log_events|].
  eapply set_status; [|exact E1]. intros o Ho. apply elem_of_list_lookup in Ho as [i Ho].
  destruct tp as [t|]; [|discriminate]. eapply (entry_library a t i o Hl). apply get_option_Ok. exists T. split; [|done].
  unfold table_ptr, table in HT. destruct (a_tabs a !! t) eqn:Et; [|discriminate]. by injection HT as ->.
Qed.
Lemma stack_goes stk : forall a st a', library_only (decls a) -> validate_stack a stk = Ok (st, a') -> goes_on a st a'.
Proof.
  induction stk as [|r stk IH]; intros a st a' Hl; cbn [validate_stack]; [intros [= <- <-]; apply goes_refl|].
  intros E. apply rbind_Ok in E as (s & _ & E). apply rbind_Ok in E as ([st1 a1] & E1 & E).
  apply table_goes in E1; [|done]. change SUCCESS with 0 in E. destruct (Z.eqb_spec st1 0) as [->|N].
  - eapply goes_trans; [exact E1|]. eapply IH; [|exact E]. by destruct E1 as [-> _].
  - by injection E as <- <-.
Qed.
Lemma post_goes a st a' : library_only (decls a) -> post_parse_validation a = Ok (st, a') -> goes_on a st a'.
Proof.
  intros Hl E. unfold post_parse_validation in E. apply rbind_Ok in E as ([st1 a1] & E1 & E).
  apply table_goes in E1; [|done]. change SUCCESS with 0 in E. destruct (Z.eqb_spec st1 0) as [->|N].
  - eapply goes_trans; [exact E1|]. eapply stack_goes; [|exact E]. by destruct E1 as [-> _].
  - by injection E as <- <-.
Qed.

(** ** Releasing prints nothing *)
Lemma free_option_log a t i a' : free_option a t i = Ok a' -> a_log a' = a_log a.
Proof.
  unfold free_option. intros E. apply rbind_Ok in E as (o & _ & E). apply rbind_Ok in E as ([u s] & _ & E).
  by injection E as <-.
Qed.
Lemma free_from_log n : forall a t i a', free_options_from a t i n = Ok a' -> a_log a' = a_log a.
Proof.
  induction n as [|n IH]; intros a t i a'; cbn [free_options_from]; [by intros [= <-]|].
  intros E. apply rbind_Ok in E as (a1 & E1 & E). rewrite (IH _ _ _ _ E). by eapply free_option_log.
Qed.
Lemma free_options_log a tp a' : free_options a tp = Ok a' -> a_log a' = a_log a.
Proof.
  unfold free_options. intros E. apply rbind_Ok in E as (T & _ & E). destruct tp; [|discriminate]. by eapply free_from_log.
Qed.
Lemma free_log a a' : argus_free a = Ok a' -> a_log a' = a_log a.
Proof.
  unfold argus_free. intros E. apply rbind_Ok in E as (a1 & E1 & E). apply free_options_log in E1. rewrite <- E1. clear E1.
  revert E. generalize (a_stack a1) at 1. intros stk. revert a1. induction stk as [|r stk IH]; intros a1; cbn [free_stack]; [by intros [= <-]|].
  intros E. apply rbind_Ok in E as (s & _ & E). apply rbind_Ok in E as (a2 & E2 & E).
  apply free_options_log in E2. rewrite <- E2. by apply IH.
Qed.

(** ** argus_parse *)
Lemma parse_told a argv o a' : library_only (decls a) -> argus_parse a argv = Ok (o, a') ->
  exists l, a_log a' = a_log a ++ l /\ match o with Returned st => explained st l | Exited _ => messages l = [] end.
Proof.
  intros Hl E. unfold argus_parse in E. apply rbind_Ok in E as ([st a1] & E1 & E).
  apply (parse_goes _ _ (le_n _)) in E1 as [D1 (l1 & L1 & X1)]; [|done]. cbv beta iota zeta in E.
  change SHOULD_EXIT with 1 in E. change SUCCESS with 0 in E.
  destruct (Z.eqb_spec st 1) as [->|N1].
  { apply rbind_Ok in E as (a2 & E2 & E). injection E as <- <-. apply free_log in E2. exists l1. rewrite E2.
    split; [done|]. apply X1. by right. }
  destruct (Z.eqb_spec st 0) as [->|N0]; cbn [negb] in E.
  2:{ apply rbind_Ok in E as (a2 & E2 & E). injection E as <- <-. apply free_log in E2. exists (l1 ++ [EUsage]). rewrite E2.
    cbn. rewrite L1, app_assoc. split; [done|]. by apply explained_usage. }
  assert (M1 : messages l1 = []) by (apply X1; by left).
  apply rbind_Ok in E as ([st2 a2] & E2 & E).
  apply env_vars_goes in E2 as [D2 (l2 & L2 & X2)]; [|change (library_only (decls a1)); by rewrite D1].
  change (a_log (set_err a1 0)) with (a_log a1) in L2. change (decls (set_err a1 0)) with (decls a1) in D2.
  destruct (Z.eqb_spec st2 0) as [->|N2]; cbn [negb] in E.
  2:{ apply rbind_Ok in E as (a3 & E3 & E). injection E as <- <-. apply free_log in E3. exists (l1 ++ l2). rewrite E3, L2, L1, app_assoc.
    split; [done|]. by apply explained_after. }
  assert (M2 : messages l2 = []) by (apply X2; by left).
  apply rbind_Ok in E as ([st3 a3] & E3 & E).
  apply post_goes in E3 as [D3 (l3 & L3 & X3)]; [|by rewrite D2, D1].
  assert (X : explained st3 (l1 ++ l2 ++ l3)) by (apply explained_after; [done|]; by apply explained_after).
  assert (L : a_log a3 = a_log a ++ l1 ++ l2 ++ l3) by (by rewrite L3, L2, L1, <- !app_assoc).
  destruct (Z.eqb_spec st3 0) as [->|N3]; cbn [negb] in E.
  - injection E as <- <-. eauto.
  - apply rbind_Ok in E as (a4 & E4 & E). injection E as <- <-. apply free_log in E4. exists (l1 ++ l2 ++ l3). by rewrite E4.
Qed.
End libc.
