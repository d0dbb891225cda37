(** * The text of the error messages *)
From Coq Require Import Lia.
From Verif Require Import Api LibProofs FrameProofs Display SpecDisplay ChoiceProofs.
From Verif Require Import SpecGrammar GrammarProofs GrammarLemmas
  SpecAfter AfterProofs EnvProofs IsolationProofs CallProofs WholeProofs SpecTold ToldProofs Messages SpecMessages.

Section libc.
Context `{Libc} (pcre : cstr -> cstr).
Notation render := (render pcre).
Notation printed := (printed pcre).

(** ** Rejected tokens *)
Lemma printed_app p a l1 l2 t1 t2 : printed p a l1 = Ok t1 -> printed p a l2 = Ok t2 ->
  printed p a (l1 ++ l2) = Ok (t1 ++ t2).
Proof.
  revert t1. induction l1 as [|e l1 IH]; intros t1; cbn [printed app].
  { by intros [= <-]. }
  destruct e; try apply IH; intros E E2; apply rbind_Ok in E as (t & Et & E); apply rbind_Ok in E as (r & Er & E);
    injection E as <-; rewrite Et; cbn [rbind]; rewrite (IH _ Er E2); cbn [rbind]; by rewrite app_assoc.
Qed.
Lemma printed_quiet p a l : (forall e, e ∈ l -> match e with EDiag _ _ | EUsage => False | _ => True end) ->
  printed p a l = Ok [].
Proof.
  induction l as [|e l IH]; intros Hl; [done|]. cbn [printed].
  pose proof (Hl e (elem_of_list_here _ _)). rewrite IH by (intros; apply Hl; by right). by destruct e.
Qed.
(** ** What handlers print *)
(** With [b], messages other than the lack of memory can be printed; the usage is never
    printed. *)
Definition fine (b : bool) (e : event) : Prop :=
  match e with
  | EDiag c m => c <> 26 -> b = true -> exists t, render m = Ok t
  | EUsage | ECommands | EAction _ => False
  | _ => True
  end.
Definition called_by_name (b : bool) (o : opt) : Prop := b = true -> is_Some (d_name (decl_of o)).
Definition prints (b : bool) {A} (m : HM A) : Prop := forall s x s', called_by_name b (h_opt s) ->
  m s = Ok (x, s') ->
  decl_of (h_opt s') = decl_of (h_opt s) /\ exists l, h_log s' = h_log s ++ l /\ Forall (fine b) l.
Lemma prints_calm b {A} (m : HM A) : calm m -> keeps m -> prints b m.
Proof.
  intros Hc Hk s x s' _ E. split; [by eapply Hk|]. exists []. rewrite app_nil_r. split; [by eapply Hc|done].
Qed.
Lemma prints_bind b {A B} (m : HM A) (k : A -> HM B) : prints b m -> (forall a, prints b (k a)) ->
  prints b (hbind m k).
Proof.
  intros Hm Hk s x s' N E. unfold hbind in E. destruct (m s) as [[a s1]|] eqn:E1; [|discriminate].
  apply Hm in E1 as (D1 & l1 & L1 & F1); [|done].
  apply Hk in E as (D2 & l2 & L2 & F2); [|unfold called_by_name; by rewrite D1].
  split; [congruence|]. exists (l1 ++ l2). rewrite L2, L1, app_assoc. split; [done|]. by apply Forall_app.
Qed.
Lemma prints_get b {B} (k : opt -> HM B) : (forall o, called_by_name b o -> prints b (k o)) ->
  prints b (hbind get_opt k).
Proof. intros Hk s x s' N E. by eapply Hk in E. Qed.
Lemma prints_emit b e : fine b e -> prints b (emit e).
Proof. intros F s x s' _ [= <- <-]. split; [done|]. exists [e]. split; [done|]. by apply Forall_singleton. Qed.
Lemma prints_ub b {A} u : prints b (hub (A := A) u).
Proof. intros s x s' _ E. discriminate. Qed.
Lemma prints_ret b {A} (x : A) : prints b (hret x).
Proof. apply prints_calm; [apply calm_ret|apply keeps_ret]. Qed.

Hint Resolve calm_array_flags calm_map_flags calm_adjust_arr calm_adjust_map calm_find_key calm_push calm_push_pair
  calm_set_map_value calm_range calm_set_value_string calm_set_int_value calm_set_float_value calm_free_split
  calm_set_value_float : calm.
Hint Resolve keeps_array_flags keeps_map_flags keeps_adjust_arr keeps_adjust_map keeps_find_key keeps_push keeps_push_pair
  keeps_set_map_value keeps_range keeps_set_value_string keeps_set_int_value keeps_set_float_value keeps_free_split
  keeps_set_value_float : keeps.
Ltac saying := solve [exact I | intros _ _; eexists; reflexivity | let X := fresh in intros X; exfalso; apply X; reflexivity].
Ltac prt := repeat (first
  [apply prints_ub|apply prints_ret
  |apply prints_emit; saying
  |apply prints_calm; [solve [calm]|solve [auto with keeps | apply keeps_mod; done]]
  |apply prints_bind; [|intros]
  |match goal with
   | |- prints _ (if ?b then _ else _) => destruct b
   | |- prints _ (match ?x with _ => _ end) => destruct x
   | |- prints _ (let '(_, _) := ?x in _) => destruct x
   end]).
Lemma prints_kv_scalar b k h c v : prints b (set_kv_scalar k h c v).
Proof.
  unfold set_kv_scalar. destruct (strchr _ _); prt.
Qed.
Lemma prints_kv_string b v : prints b (set_kv_string v).
Proof. unfold set_kv_string. destruct (strchr _ _); prt. Qed.
Lemma prints_value_int b v : prints b (set_value_int v).
Proof. unfold set_value_int. destruct (parse_int_range v) as [[]|]; prt. Qed.
Lemma prints_for_words b l body : (forall s, prints b (body s)) -> prints b (for_words l body).
Proof.
  intros Hb. induction l as [|x l IH]; cbn [for_words]; [apply prints_ub|].
  apply prints_bind; [prt|]. intros []; [apply prints_ret|].
  apply prints_bind; [prt|]. intros s. apply prints_bind; [apply Hb|]. intros st. destruct (_ =? _); [done|apply prints_ret].
Qed.
Lemma prints_list b one fl v : (forall s, prints b (one s)) -> prints b fl -> prints b (list_handler one fl v).
Proof.
  intros Ho Hf. unfold list_handler. apply prints_bind.
  - destruct (strchr v comma); [|apply Ho]. apply prints_bind; [prt|]. intros [p|]; [|prt].
    apply prints_bind; [prt|]. intros cells. apply prints_bind; [by apply prints_for_words|]. intros; prt.
  - intros st. destruct (_ =? _); [|prt]. apply prints_bind; [done|]. intros. prt.
Qed.
Lemma prints_run_handler b active f v : prints b (run_handler active f v).
Proof.
  assert (Hneed : forall k : cstr -> HM Z, (forall s, prints b (k s)) -> prints b (need v k)).
  { intros k Hk. unfold need. destruct v; [apply Hk|]. apply prints_ub. }
  destruct f; cbn [run_handler]; try apply Hneed; intros.
  all: try (apply prints_list; [intros|]; auto using prints_kv_scalar, prints_kv_string, prints_value_int; prt; fail).
  - unfold flag_handler. prt.
  - unfold bool_handler. destruct v; [prt|]. apply prints_get. intros o N. prt. apply prints_emit.
    intros _ Eb. destruct (N Eb) as [n Hn]. rewrite Hn. by eexists.
  - unfold string_handler. prt.
  - unfold int_handler. prt.
  - unfold float_handler. prt.
  - unfold variadic_string_handler. prt.
  - unfold variadic_int_handler. apply prints_bind; [prt|]. intros st. destruct (_ =? _); [prt|].
    apply prints_get. intros o N. prt. apply prints_emit.
    intros _ Eb. destruct (N Eb) as [n Hn]. rewrite Hn. by eexists.
  - unfold variadic_float_handler. apply prints_bind; [prt|]. intros st. destruct (_ =? _); [prt|].
    apply prints_get. intros o N. prt. apply prints_emit.
    intros _ Eb. destruct (N Eb) as [n Hn]. rewrite Hn. by eexists.
  - prt.
  - prt.
  - apply prints_bind; [prt|]. intros o. destruct (f v (value o)). prt.
Qed.

(** ** Validators *)
Definition choices_words (f : vfun) : option (list cstr) :=
  match f with
  | VChoicesStr l => Some l
  | VChoicesInt l => Some (map dec l)
  | VChoicesFloat l => Some (map fmt_2g l)
  | _ => None
  end.
Lemma room_bound l : (total_room (map (@length ascii) l) <= length (concat l) + length l)%nat.
Proof.
  induction l as [|x [|y l] IH]; [done|cbn; rewrite app_nil_r; lia|].
  change (total_room (map (@length ascii) (x :: y :: l)))
    with (length x + 1 + total_room (map (@length ascii) (y :: l)))%nat.
  change (concat (x :: y :: l)) with (x ++ concat (y :: l)). rewrite app_length. cbn [length] in *. lia.
Qed.
Lemma listable_text f l : listable f -> choices_words f = Some l ->
  render_piece pcre (MChoices f) = Ok (bars l).
Proof.
  destruct f; cbn; try discriminate; intros [X Y] [= <-].
  - apply choices_str; [done|]. match goal with L : list cstr |- _ => pose proof (room_bound L) end. lia.
  - apply choices_int; done.
  - apply choices_float; done.
Qed.
Lemma choice_text f l x t : listable f -> choices_words f = Some l -> render_piece pcre x = Ok t ->
  render (choice_message x f) = Ok (not_one_of t l).
Proof.
  intros Hl Hw Hx. unfold choice_message. cbn [render]. rewrite Hx, (listable_text _ _ Hl Hw). cbn [render_piece rbind].
  unfold not_one_of. by rewrite app_nil_r.
Qed.
Lemma validator_fine b f arg h st ev : (b = true -> listable f) -> run_validator f arg h = Ok (st, ev) ->
  Forall (fine b) ev.
Proof.
  intros Hl.
  assert (C : forall c x l t, choices_words f = Some l -> render_piece pcre x = Ok t ->
    Forall (fine b) [EDiag c (choice_message x f)]).
  { intros c x l t Hw Hx. apply Forall_singleton. intros _ Eb. eexists. by apply choice_text, Hx; auto. }
  assert (D : forall c m t, render m = Ok t -> Forall (fine b) [EDiag c m]).
  { intros c m t Hm. apply Forall_singleton. intros _ _. by eexists. }
  destruct f, arg; cbn [run_validator]; try discriminate.
  - unfold range_validator. destruct (_ <? _); [intros [= <- <-]; by eapply D|].
    intros E. apply rbind_Ok in E as (x & _ & E). destruct (_ || _); injection E as <- <-; [by eapply D|done].
  - unfold length_validator. intros E. apply rbind_Ok in E as ([] & _ & E); [injection E as <- <-; by eapply D|].
    destruct (_ || _); [injection E as <- <-; by eapply D|]. destruct (_ <? _); [injection E as <- <-; by eapply D|].
    apply rbind_Ok in E as (x & _ & E). destruct (_ || _); injection E as <- <-; [by eapply D|done].
  - unfold count_validator. destruct (_ || _); [intros [= <- <-]; by eapply D|].
    destruct (_ <? _); [intros [= <- <-]; by eapply D|].
    destruct (_ || _); intros [= <- <-]; [by eapply D|done].
  - unfold regex_validator. destruct (negb _); [intros [= <- <-]; by eapply D|].
    destruct pattern; [|intros [= <- <-]; by eapply D].
    destruct s; [|destruct (regex_match _ _); intros [= <- <-]; by eapply D].
    destruct (regex_match _ _); intros [= <- <-]; try done; try by eapply D.
    destruct hint as [[|]|]; by eapply D.
  - unfold choices_string_validator. intros E. apply rbind_Ok in E as (x & _ & E).
    destruct (existsb _ _); injection E as <- <-; [done|by eapply C].
  - unfold choices_int_validator. intros E. apply rbind_Ok in E as (x & _ & E).
    destruct (existsb _ _); injection E as <- <-; [done|by eapply C].
  - unfold choices_float_validator. intros E. apply rbind_Ok in E as (x & _ & E).
    destruct (existsb _ _); injection E as <- <-; [done|by eapply C].
  - by intros [= <- <-].
  - by intros [= <- <-].
Qed.
Lemma validators_fine b ord l arg h st ev : (b = true -> forall e, e ∈ l -> listable (v_fun e)) ->
  run_validators ord l arg h = Ok (st, ev) -> Forall (fine b) ev.
Proof.
  revert st ev. induction l as [|e l IH]; intros st ev Hl; cbn [run_validators]; [by intros [= <- <-]|].
  assert (Hl' : b = true -> forall e, e ∈ l -> listable (v_fun e)) by (intros Eb x Hx; apply (Hl Eb); by right).
  destruct (is_order ord e); [|by apply IH].
  intros E. apply rbind_Ok in E as ([st2 ev2] & E2 & E). apply (validator_fine b) in E2; [|intros Eb; apply (Hl Eb); by left].
  cbv beta iota in E. destruct (_ =? _); [|by injection E as <- <-].
  apply rbind_Ok in E as ([st3 ev3] & E3 & E). injection E as <- <-. apply Forall_app. split; [done|]. by eapply IH.
Qed.

(** ** The context *)
Definition ready (b : bool) (D : list (list decl)) : Prop := b = true -> tellable D.
Definition continues (b : bool) (a a' : argus) : Prop :=
  decls a' = decls a /\ exists l, a_log a' = a_log a ++ l /\ Forall (fine b) l.
Lemma continues_refl b a : continues b a a.
Proof. split; [done|]. exists []. by rewrite app_nil_r. Qed.
Lemma continues_trans b a a1 a2 : continues b a a1 -> continues b a1 a2 -> continues b a a2.
Proof.
  intros [D1 (l1 & L1 & X1)] [D2 (l2 & L2 & X2)]. split; [congruence|]. exists (l1 ++ l2).
  rewrite L2, L1, app_assoc. split; [done|]. by apply Forall_app.
Qed.
Lemma continues_diag b a c m : fine b (EDiag c m) -> continues b a (diag c m a).
Proof. intros F. split; [done|]. exists [EDiag c m]. split; [done|]. by apply Forall_singleton. Qed.
Lemma continues_text b a c m t : render m = Ok t -> continues b a (diag c m a).
Proof. intros E. apply continues_diag. intros _ _. by eexists. Qed.
Lemma entry_tellable b a t i o : ready b (decls a) -> get_option a t i = Ok o -> b = true -> tellable_entry (decl_of o).
Proof.
  intros Hr Ho Eb. apply get_option_Ok in Ho as (T & HT & Ho). apply (Hr Eb t (map decl_of T)).
  - unfold decls. by rewrite list_lookup_fmap, HT.
  - apply elem_of_list_fmap. exists o. split; [done|]. by eapply elem_of_list_lookup_2.
Qed.
Lemma ready_decls b a a' : decls a' = decls a -> ready b (decls a) -> ready b (decls a').
Proof. by intros ->. Qed.
Lemma execute_continues b a t i v st a' : ready b (decls a) ->
  (forall o, get_option a t i = Ok o -> b = true -> is_Some (d_name (decl_of o))) ->
  execute_callbacks a t i v = Ok (st, a') -> continues b a a'.
Proof.
  intros Hr Hn E. split; [apply (sf_decls _ _ _ _ (execute_callbacks_frame _ _ _ _ _ _ E))|].
  unfold execute_callbacks in E. apply rbind_Ok in E as (o & Ho & E).
  pose proof (entry_tellable _ _ _ _ _ Hr Ho) as Ly.
  destruct (d_handler (decl_of o)) as [f|] eqn:Ef.
  2:{ injection E as <- <-. eexists [EDiag E_INVALID_HANDLER _]. split; [done|]. apply Forall_singleton.
    intros _ Eb. destruct (Hn o Ho Eb) as [n ->]. by eexists. }
  apply rbind_Ok in E as ([st1 ev] & Hv & E). cbv beta iota in E.
  assert (X1 : Forall (fine b) ev).
  { destruct (d_validators (decl_of o)) as [l|] eqn:El; [|by injection Hv as <- <-].
    eapply validators_fine; [|exact Hv]. intros Eb e He. apply (te_choices _ (Ly Eb)). unfold validators. by rewrite El. }
  change SUCCESS with 0 in E. destruct (Z.eqb_spec st1 0) as [->|N1]; cbn [negb] in E.
  2:{ injection E as <- <-. exists ev. split; [apply log_events|done]. }
  apply rbind_Ok in E as (act & _ & E). apply rbind_Ok in E as ([st2 s] & Hs & E). cbv beta iota in E.
  apply (prints_run_handler b) in Hs as (_ & l2 & L2 & X2); [|exact (Hn o Ho)].
  cbn [h_log app] in L2. set (a2 := apply_events _ (h_log s)) in *.
  assert (La2 : a_log a2 = a_log a ++ ev ++ h_log s).
  { unfold a2. rewrite log_events. cbn. rewrite log_events. by rewrite <- app_assoc. }
  rewrite L2 in La2.
  assert (Xa : Forall (fine b) (ev ++ l2)) by (by apply Forall_app).
  destruct (Z.eqb_spec st2 0) as [->|N2]; cbn [negb] in E.
  2:{ injection E as <- <-. by exists (ev ++ l2). }
  apply rbind_Ok in E as (o2 & Ho2 & E). exists (ev ++ l2).
  destruct (has _ FLAG_EXIT); injection E as <- <-; split; try exact La2; done.
Qed.

(** ** Items *)
Definition ok_item (b : bool) (D : list (list decl)) (x : item) : Prop :=
  match x with
  | Call t i _ => forall T d, D !! t = Some T -> T !! i = Some d -> d_type d <> TGroup
  | Reject c m => fine b (EDiag c m)
  | Enter t i => exists T d, D !! t = Some T /\ T !! i = Some d /\ is_Some (d_name d)
  end.
Lemma name_of b d : (b = true -> tellable_entry d) -> d_type d <> TGroup -> b = true -> is_Some (d_name d).
Proof. intros Hr Hn Eb. apply (te_name _ (Hr Eb)). done. Qed.
Lemma cluster_items b D T t rest cs its r : D !! t = Some T -> cluster T t rest cs its r -> Forall (ok_item b D) its.
Proof.
  intros HT. induction 1 as [|c cs i d its r Hf Hd Hfl Hc IH|c v i d Hf Hd Hfl Hv|c i d v rest' Hf Hd Hfl Hv|c i d Hf Hd Hfl Hv|c cs Hn].
  - done.
  - apply Forall_cons. split; [|done]. intros T' d' HT' Hd'. destruct Hf as (x & Hx & [Hy _] & _). congruence.
  - apply Forall_singleton. intros T' d' HT' Hd'. destruct Hf as (x & Hx & [Hy _] & _). congruence.
  - apply Forall_singleton. intros T' d' HT' Hd'. destruct Hf as (x & Hx & [Hy _] & _). congruence.
  - apply Forall_singleton. intros _ _. by eexists.
  - apply Forall_singleton. intros _ _. by eexists.
Qed.
Lemma reads_items b D t k only argv its : ready b D -> reads D t k only argv its -> Forall (ok_item b D) its.
Proof.
  intros Hr.
  assert (R : forall t T k i v its, D !! t = Some T -> receives T k i -> Forall (ok_item b D) its ->
    Forall (ok_item b D) (Call t i v :: its)).
  { intros t1 T k1 i v its1 HT (d & Hd & Hp & _) Hi. apply Forall_cons. split; [|done].
    intros T' d' HT' Hd'. unfold positional in Hp. congruence. }
  assert (L : forall t T n i v its, D !! t = Some T -> first (long_named n) T i -> Forall (ok_item b D) its ->
    Forall (ok_item b D) (Call t i v :: its)).
  { intros t1 T n i v its1 HT (d & Hd & [Hp _] & _) Hi. apply Forall_cons. split; [|done].
    intros T' d' HT' Hd'. congruence. }
  assert (M : forall c m t, render m = Ok t -> Forall (ok_item b D) [Reject c m]).
  { intros c m t1 Hm. apply Forall_singleton. intros _ _. by eexists. }
  induction 1; try done; eauto using Forall_nil; try (by eapply M).
  - apply Forall_app. split; [by eapply cluster_items|done].
  - by eapply cluster_items.
  - apply Forall_cons. split; [|done]. match goal with S : selects _ _ _ |- _ => destruct S as [(x & Hx & [_ (r & Hn)] & _) _] end.
    exists T, x. split_and!; [done|done|]. rewrite Hn. by eexists.
  - apply Forall_singleton. intros _ Eb.
    assert (X : forall i d, T !! i = Some d -> d_type d = TSubcommand -> is_Some (d_name d) /\ is_Some (d_help d)).
    { intros i1 d1 Hi Ht. assert (Te : tellable_entry d1) by (eapply (Hr Eb t T); [done|by eapply elem_of_list_lookup_2]).
      split; [apply (te_name _ Te); intros X; congruence|by apply (te_help _ Te)]. }
    match goal with A : ambiguous ?T0 _ ?i0 ?j0, E1 : ?T0 !! ?i0 = Some _, E2 : ?T0 !! ?j0 = Some _ |- _ =>
      destruct A as (d1 & e1 & (x & Hx & [Tx _] & _) & Hd1 & _ & _ & He1 & [Ty _] & _);
      destruct (X _ _ E1) as [[n1 N1] [h1 K1]]; [congruence|]; destruct (X _ _ E2) as [[n2 N2] [h2 K2]]; [congruence|] end.
    unfold two_matches. rewrite N1, N2, K1, K2. by eexists.
Qed.
Lemma perform_continues b its : forall a st a', ready b (decls a) -> Forall (ok_item b (decls a)) its ->
  perform a its = Ok (st, a') -> continues b a a'.
Proof.
  induction its as [|x its IH]; intros a st a' Hr Hi E; cbn [perform] in E.
  { injection E as <- <-. apply continues_refl. }
  apply Forall_cons in Hi as [Hx Hi]. destruct x as [t i v|t i|c m].
  - apply rbind_Ok in E as ([st1 a1] & E1 & E).
    apply (execute_continues b) in E1; [|done|].
    2:{ intros o Ho. apply name_of; [by eapply entry_tellable|].
      apply get_option_Ok in Ho as (T & HT & Ho). eapply (Hx (map decl_of T)).
      - unfold decls. by rewrite list_lookup_fmap, HT.
      - by rewrite list_lookup_fmap, Ho. }
    destruct (st1 =? 0); [|by injection E as <- <-].
    eapply continues_trans; [exact E1|]. destruct E1 as [D1 _]. eapply IH; [| |exact E]; by rewrite D1.
  - apply rbind_Ok in E as (a1 & E1 & E).
    assert (C1 : continues b a a1).
    { unfold select in E1. apply rbind_Ok in E1 as (o & Ho & E1). destruct (_ <? _)%nat; [|done]. injection E1 as <-.
      split; [|exists []; by rewrite app_nil_r]. unfold set_stack. change (decls (put_option a t i (with_set o true)) = decls a).
      by rewrite (decls_put _ _ _ _ _ Ho). }
    eapply continues_trans; [exact C1|]. destruct C1 as [D1 _]. eapply IH; [| |exact E]; by rewrite D1.
  - injection E as <- <-. by apply continues_diag.
Qed.
Lemma parse_continues b a argv st a' : ready b (decls a) -> subs_present (decls a) -> is_Some (decls a !! a_root a) ->
  parse_args a (Some (a_root a)) 0 false argv = Ok (st, a') -> continues b a a'.
Proof.
  intros Hr HS HR E. destruct (reads_total _ _ 0%nat false argv HS HR) as [its Hi].
  rewrite (parse_reads _ _ _ _ _ _ HS HR Hi) in E. eapply perform_continues; [done| |exact E]. by eapply reads_items.
Qed.

(** ** The environment *)
Lemma env_continues b n : forall a t i st a', ready b (decls a) -> load_env_from a t i n = Ok (st, a') -> continues b a a'.
Proof.
  induction n as [|n IH]; intros a t i st a' Hl; cbn [load_env_from]; [intros [= <- <-]; apply continues_refl|].
  intros E. apply rbind_Ok in E as (o & Ho & E). destruct (_ || _) eqn:Ety; [by eapply IH|]. destruct (_ && _); [by eapply IH|].
  destruct (get_env_var_name _ _); [|by eapply IH]. destruct (getenv _) as [v|]; [|by eapply IH].
  apply rbind_Ok in E as ([st1 a1] & E1 & E). apply (execute_continues b) in E1; [|done|].
  2:{ intros o' Ho'. assert (o' = o) as -> by congruence. apply name_of; [by eapply entry_tellable|].
    apply orb_false_iff in Ety as [Ety _]. unfold is_type in Ety. by apply bool_decide_eq_false in Ety. }
  change SUCCESS with 0 in E. destruct (Z.eqb_spec st1 0) as [->|N].
  { eapply continues_trans; [exact E1|]. eapply IH; [|exact E]. by destruct E1 as [-> _]. }
  destruct (is_set o); [|by injection E as <- <-].
  apply rbind_Ok in E as (o1 & Ho1 & E). injection E as <- <-. destruct E1 as [D1 X1]. split; [|exact X1].
  rewrite (decls_put _ _ _ _ _ Ho1); done.
Qed.
Lemma env_stack_continues b stk : forall a st a', ready b (decls a) -> load_env_stack a stk = Ok (st, a') -> continues b a a'.
Proof.
  induction stk as [|r stk IH]; intros a st a' Hl; cbn [load_env_stack]; [intros [= <- <-]; apply continues_refl|].
  intros E. apply rbind_Ok in E as (s & _ & E). destruct s as [t|]; [|by eapply IH].
  apply rbind_Ok in E as ([st1 a1] & E1 & E). unfold load_env in E1. apply rbind_Ok in E1 as (T & _ & E1).
  apply (env_continues b) in E1; [|done]. change SUCCESS with 0 in E. destruct (Z.eqb_spec st1 0) as [->|N].
  - eapply continues_trans; [exact E1|]. eapply IH; [|exact E]. by destruct E1 as [-> _].
  - by injection E as <- <-.
Qed.
Lemma env_vars_continues b a st a' : ready b (decls a) -> load_env_vars a = Ok (st, a') -> continues b a a'.
Proof.
  intros Hl E. unfold load_env_vars, load_env in E. apply rbind_Ok in E as ([st1 a1] & E1 & E).
  apply rbind_Ok in E1 as (T & _ & E1). apply (env_continues b) in E1; [|done].
  change SUCCESS with 0 in E. destruct (Z.eqb_spec st1 0) as [->|N].
  - eapply continues_trans; [exact E1|]. eapply env_stack_continues; [|exact E]. by destruct E1 as [-> _].
  - by injection E as <- <-.
Qed.

(** ** The checks after parsing *)
Lemma required_text T name l :
  (validate_required T name l = (0, []) /\ forall n, n ∈ l -> ~ unset_in T n) \/
  (exists l1 r l2, l = l1 ++ r :: l2 /\ unset_in T r /\ (forall r', r' ∈ l1 -> ~ unset_in T r') /\
    validate_required T name l = (14, [EDiag 14 [MText $"Required option is missing: '"; MStr (Some r);
      MText $"' with option '"; MStr name; MText $"'"]])).
Proof.
  induction l as [|n l IH]; simpl.
  { left. split; [done|]. intros n Hn. by apply elem_of_nil in Hn. }
  assert (Hgo : ~ unset_in T n ->
    (validate_required T name l = (0, []) /\ forall m, m ∈ n :: l -> ~ unset_in T m) \/
    (exists l1 r l2, n :: l = l1 ++ r :: l2 /\ unset_in T r /\ (forall r', r' ∈ l1 -> ~ unset_in T r') /\
    validate_required T name l = (14, [EDiag 14 [MText $"Required option is missing: '"; MStr (Some r);
      MText $"' with option '"; MStr name; MText $"'"]]))).
  { intros Hn. destruct IH as [(E & Ha)|(l1 & r & l2 & -> & Hu & Hb & E)]; [left|right].
    - split; [done|]. intros m Hm. apply elem_of_cons in Hm as [->|Hm]; auto.
    - exists (n :: l1), r, l2. split_and!; try done. intros r' Hr. apply elem_of_cons in Hr as [->|Hr]; auto. }
  destruct (find_option_by_name T n) as [i|] eqn:Ei.
  - apply find_name_Some in Ei. destruct Ei as (r & Hr & Hn & Hb).
    assert (Hf : first (named n) T i) by (exists r; auto).
    rewrite Hr. destruct (is_set r) eqn:Es.
    + apply Hgo. intros (j & o & Hj & Ho & Hs). rewrite (first_unique _ _ _ _ Hj Hf) in Ho. congruence.
    + right. exists [], n, l. split_and!; try done; [by exists i, r|]. intros r' Hx. by apply elem_of_nil in Hx.
  - apply find_name_None in Ei. apply Hgo. intros (j & o & Hj & _).
    eapply first_nowhere; eauto.
Qed.
Lemma conflicts_text T name l :
  (validate_conflicts T name l = (0, []) /\ forall n, n ∈ l -> ~ set_in T n) \/
  (exists l1 r l2, l = l1 ++ r :: l2 /\ set_in T r /\ (forall r', r' ∈ l1 -> ~ set_in T r') /\
    validate_conflicts T name l = (15, [EDiag 15 [MText $"Conflict between '"; MStr name;
      MText $"' and '"; MStr (Some r); MText $"'"]])).
Proof.
  induction l as [|n l IH]; simpl.
  { left. split; [done|]. intros n Hn. by apply elem_of_nil in Hn. }
  assert (Hgo : ~ set_in T n ->
    (validate_conflicts T name l = (0, []) /\ forall m, m ∈ n :: l -> ~ set_in T m) \/
    (exists l1 r l2, n :: l = l1 ++ r :: l2 /\ set_in T r /\ (forall r', r' ∈ l1 -> ~ set_in T r') /\
    validate_conflicts T name l = (15, [EDiag 15 [MText $"Conflict between '"; MStr name;
      MText $"' and '"; MStr (Some r); MText $"'"]]))).
  { intros Hn. destruct IH as [(E & Ha)|(l1 & r & l2 & -> & Hu & Hb & E)]; [left|right].
    - split; [done|]. intros m Hm. apply elem_of_cons in Hm as [->|Hm]; auto.
    - exists (n :: l1), r, l2. split_and!; try done. intros r' Hr. apply elem_of_cons in Hr as [->|Hr]; auto. }
  destruct (find_option_by_name T n) as [i|] eqn:Ei.
  - apply find_name_Some in Ei. destruct Ei as (r & Hr & Hn & Hb).
    assert (Hf : first (named n) T i) by (exists r; auto).
    rewrite Hr. destruct (is_set r) eqn:Es.
    + right. exists [], n, l. split_and!; try done; [by exists i, r|intros r' Hx; by apply elem_of_nil in Hx|].
      unfold named in Hn. by rewrite Hn.
    + apply Hgo. intros (j & o & Hj & Ho & Hs). rewrite (first_unique _ _ _ _ Hj Hf) in Ho. congruence.
  - apply find_name_None in Ei. apply Hgo. intros (j & o & Hj & _).
    eapply first_nowhere; eauto.
Qed.

Lemma range_text a b : render (range_message a b) = Ok (bad_range a b).
Proof. unfold range_message, bad_range. cbn [render render_piece rbind]. by rewrite app_nil_r. Qed.
Lemma outside_text w x a b : render (outside_message w x a b) = Ok (out_of_range w x a b).
Proof. unfold outside_message, out_of_range. cbn [render render_piece rbind]. by rewrite app_nil_r. Qed.
Lemma refuse_text f o h st ev : builtin f -> listable f -> run_validator f (ArgOption o) h = Ok (st, ev) -> st <> 0 ->
  exists m t, ev = [EDiag st m] /\ render m = Ok t /\ refusal o h f t.
Proof.
  intros B Hl.
  destruct f as [mn mx|mn mx|mn mx|p hint|l|l|l|g|g]; simpl; try discriminate; try done.
  - unfold range_validator.
    destruct (Z.ltb_spec mx mn).
    { intros [= <- <-] _. eexists _, _. split; [done|]. split; [apply range_text|]. by apply rf_range_bad. }
    intros E. apply rbind_Ok in E as (x & Hx & E).
    destruct ((x <? mn) || (mx <? x)) eqn:Eo; injection E as <- <-; [|done]. intros _.
    eexists _, _. split; [done|]. split; [apply outside_text|].
    apply (rf_range o h mn mx x); [lia|done|]. apply orb_true_iff in Eo as [?|?]; lia.
  - unfold length_validator. intros E. apply rbind_Ok in E as ([] & Hz & E).
    { injection E as <- <-. intros _. eexists _, _. split; [done|]. split; [reflexivity|]. by apply rf_length_null. }
    destruct ((mn <? 0) || (mx <? 0)) eqn:E0.
    { injection E as <- <-. intros _. eexists _, _. split; [done|]. split; [reflexivity|]. apply rf_length_negative; [done|].
      apply orb_true_iff in E0 as [?|?]; lia. }
    apply orb_false_iff in E0 as [? ?].
    destruct (Z.ltb_spec mx mn).
    { injection E as <- <-. intros _. eexists _, _. split; [done|]. split; [apply range_text|]. apply rf_length_bad; try done; lia. }
    apply rbind_Ok in E as (s & Hs & E).
    destruct ((_ <? mn) || _) eqn:Eo; injection E as <- <-; [|done]. intros _.
    eexists _, _. split; [done|]. split; [apply outside_text|].
    apply (rf_length o h mn mx s); try done; lia.
  - unfold count_validator.
    destruct ((mn <? 0) || (mx <? 0)) eqn:E0.
    { intros [= <- <-] _. eexists _, _. split; [done|]. split; [reflexivity|]. apply rf_count_negative.
      apply orb_true_iff in E0 as [?|?]; lia. }
    apply orb_false_iff in E0 as [? ?].
    destruct (Z.ltb_spec mx mn).
    { intros [= <- <-] _. eexists _, _. split; [done|]. split; [apply range_text|]. apply rf_count_bad; try done; lia. }
    destruct ((_ <? mn) || _) eqn:Eo; intros [= <- <-]; [|done]. intros _.
    eexists _, _. split; [done|]. split; [apply outside_text|].
    apply rf_count; try done; lia.
  - unfold choices_string_validator. intros E. apply rbind_Ok in E as (s & Hs & E).
    destruct (existsb _ l) eqn:Ex; injection E as <- <-; [done|]. intros _.
    eexists _, _. split; [done|]. split; [by eapply choice_text|]. apply rf_str; [done|].
    intros Hin. rewrite existsb_elem_false in Ex. specialize (Ex s Hin). by rewrite strcmp_refl in Ex.
  - unfold choices_int_validator. intros E. apply rbind_Ok in E as (x & Hs & E).
    destruct (existsb _ l) eqn:Ex; injection E as <- <-; [done|]. intros _.
    eexists _, _. split; [done|]. split; [by eapply choice_text|]. apply rf_int; [done|].
    intros Hin. rewrite existsb_elem_false in Ex. specialize (Ex x Hin). lia.
  - unfold choices_float_validator. intros E. apply rbind_Ok in E as (x & Hs & E).
    destruct (existsb _ l) eqn:Ex; injection E as <- <-; [done|]. intros _.
    eexists _, _. split; [done|]. split; [by eapply choice_text|]. apply rf_float; [done|].
    rewrite existsb_elem_false in Ex. done.
Qed.
Lemma call_text o h st ev : only_builtin o -> (forall e, e ∈ validators (decl_of o) -> listable (v_fun e)) ->
  call_validators o h = Ok (st, ev) ->
  (st = 0 /\ ev = [] /\ validated h o) \/
  (st <> 0 /\ exists m t l1 e l2, ev = [EDiag st m] /\ render m = Ok t /\
    validators (decl_of o) = l1 ++ e :: l2 /\ v_order e = ORDER_POST /\ refuses_with (v_fun e) o h st /\
    refusal o h (v_fun e) t /\
    forall e', e' ∈ l1 -> v_order e' = ORDER_POST -> accepts_option (v_fun e') o h).
Proof.
  unfold call_validators, validated, only_builtin, validators.
  destruct (d_validators (decl_of o)) as [l|]; cbn [default from_option]; unfold id.
  2:{ intros _ _ [= <- <-]. left. split; [done|]. split; [done|]. intros e He. by apply elem_of_nil in He. }
  revert st ev. induction l as [|e l IH]; intros st ev B Hl; cbn [run_validators].
  { intros [= <- <-]. left. split; [done|]. split; [done|]. intros e He. by apply elem_of_nil in He. }
  assert (B' : forall e, e ∈ l -> builtin (v_fun e)) by (intros; apply B; by right).
  assert (Hl' : forall e, e ∈ l -> listable (v_fun e)) by (intros; apply Hl; by right).
  assert (Go : forall st ev, run_validators ORDER_POST l (ArgOption o) h = Ok (st, ev) ->
    (v_order e = ORDER_POST -> accepts_option (v_fun e) o h) ->
    (st = 0 /\ ev = [] /\ forall e', e' ∈ e :: l -> v_order e' = ORDER_POST -> accepts_option (v_fun e') o h) \/
    (st <> 0 /\ exists m t l1 e' l2, ev = [EDiag st m] /\ render m = Ok t /\
      e :: l = l1 ++ e' :: l2 /\ v_order e' = ORDER_POST /\ refuses_with (v_fun e') o h st /\
      refusal o h (v_fun e') t /\ forall e', e' ∈ l1 -> v_order e' = ORDER_POST -> accepts_option (v_fun e') o h)).
  { intros st1 ev1 E He. apply IH in E as [(-> & -> & Ha)|(N & m & t & l1 & e' & l2 & -> & R & -> & O & W & F & Ha)]; [left|right|done|done].
    - split; [done|]. split; [done|]. intros e' He'. apply elem_of_cons in He' as [->|He']; auto.
    - split; [done|]. exists m, t, (e :: l1), e', l2. split_and!; try done.
      intros x Hx. apply elem_of_cons in Hx as [->|Hx]; auto. }
  destruct (is_order ORDER_POST e) eqn:Eo.
  - assert (Ho : v_order e = ORDER_POST) by (unfold is_order in Eo; by destruct (v_order e)).
    intros E. apply rbind_Ok in E as ([st2 ev2] & E2 & E). cbv beta iota in E.
    pose proof (refuse_text _ _ _ _ _ (B e (elem_of_list_here _ _)) (Hl e (elem_of_list_here _ _)) E2) as Tx.
    apply run_post in E2 as [(-> & Ha & ->)|(N & Hr & _)].
    + cbn in E. apply rbind_Ok in E as ([st3 ev3] & E3 & E). injection E as <- <-. by apply Go.
    + change SUCCESS with 0 in E. destruct (Z.eqb_spec st2 0); [done|]. injection E as <- <-. right. split; [done|].
      destruct (Tx N) as (m & t & -> & Rm & Rf). exists m, t, [], e, l. split_and!; try done.
      intros x Hx. by apply elem_of_nil in Hx.
  - intros E. apply Go; [done|]. intros Ho. unfold is_order in Eo. by rewrite Ho in Eo.
Qed.

(** The state of the loop: the open group with its name, and the entry set first in it. *)
Definition group_state (pre : list opt) (gn : option cstr) (excl : bool) (fst : option cstr) : Prop :=
  excl = true -> exists g G, pre !! g = Some G /\ exclusive_group G /\ d_name (decl_of G) = gn /\
    (forall k o, (g < k)%nat -> pre !! k = Some o -> ~ group_entry o) /\
    match fst with
    | None => forall k o, (g < k)%nat -> pre !! k = Some o -> is_set o = false
    | Some n => exists j p, (g < j)%nat /\ pre !! j = Some p /\ is_set p = true /\ named n p /\
        forall k o, (g < k < j)%nat -> pre !! k = Some o -> is_set o = false
    end.
Lemma group_step pre gn excl fst o : ~ group_entry o -> group_state pre gn excl fst ->
  is_Some (d_name (decl_of o)) -> (is_set o = true -> excl = true -> fst = None) ->
  group_state (pre ++ [o]) gn excl (if is_set o then (if excl then d_name (decl_of o) else fst) else fst).
Proof.
  intros Hn Hg [n Hname] Hset Ex. destruct (Hg Ex) as (g & G & HG & Hx & Hgn & Hng & Hf).
  exists g, G. split; [by apply lookup_app_l_Some|]. split; [done|]. split; [done|]. split.
  { intros k p Hk Hp. apply lookup_snoc_Some in Hp as [(_ & Hp)|(-> & ->)]; eauto. }
  pose proof (lookup_lt_Some _ _ _ HG) as Lg.
  destruct (is_set o) eqn:Es.
  - rewrite Ex, Hname. rewrite (Hset eq_refl Ex) in Hf. exists (length pre), o. split; [done|].
    split; [apply lookup_snoc_Some; auto|]. split; [done|]. split; [done|].
    intros k p Hk Hp. apply lookup_snoc_Some in Hp as [(_ & Hp)|(-> & ->)]; [|lia]. eapply Hf; [|done]. lia.
  - destruct fst as [m|].
    + destruct Hf as (j & p & Hj & Hp & Hs & Hm & Hb). exists j, p. split; [done|]. split; [by apply lookup_app_l_Some|].
      split; [done|]. split; [done|]. pose proof (lookup_lt_Some _ _ _ Hp).
      intros k q Hk Hq. apply lookup_snoc_Some in Hq as [(_ & Hq)|(-> & ->)]; eauto.
    + intros k p Hk Hp. apply lookup_snoc_Some in Hp as [(_ & Hp)|(-> & ->)]; eauto.
Qed.
Lemma set_text h T : (forall o, o ∈ T -> only_builtin o /\ tellable_entry (decl_of o)) -> forall l pre gn excl fst st ev,
  T = pre ++ l -> loop_inv pre excl fst -> group_state pre gn excl fst ->
  validate_options_set h T l gn excl fst = Ok (st, ev) ->
  (st = 0 /\ ev = [] /\
   forall i o, (length pre <= i)%nat -> T !! i = Some o -> in_order h T i o) \/
  (st <> 0 /\ exists i o m t, (length pre <= i)%nat /\ T !! i = Some o /\ says h T i o st t /\
   (forall j p, (length pre <= j < i)%nat -> T !! j = Some p -> in_order h T j p) /\
   ev = [EDiag st m] /\ render m = Ok t).
Proof.
  intros Hall. induction l as [|o l IH]; intros pre gn excl fst st ev HT Hinv Hgs E; simpl in E.
  { injection E as <- <-. left. split; [done|]. split; [done|]. intros i o Hi Ho.
    apply lookup_lt_Some in Ho. rewrite HT, app_nil_r in Ho. lia. }
  assert (Ho : T !! length pre = Some o).
  { rewrite HT, lookup_app_r, Nat.sub_diag by lia. done. }
  assert (HT' : T = (pre ++ [o]) ++ l) by (rewrite <- app_assoc; done).
  assert (Hlen : length (pre ++ [o]) = S (length pre)) by (rewrite app_length; simpl; lia).
  assert (Hmem : o ∈ T) by (eapply elem_of_list_lookup_2; eauto).
  destruct (Hall o Hmem) as [Hbi Hte].
  (* what follows once this entry is in order *)
  assert (Hgo : forall gn' excl' fst', in_order h T (length pre) o -> loop_inv (pre ++ [o]) excl' fst' ->
     group_state (pre ++ [o]) gn' excl' fst' ->
     validate_options_set h T l gn' excl' fst' = Ok (st, ev) ->
     (st = 0 /\ ev = [] /\
      forall i o, (length pre <= i)%nat -> T !! i = Some o -> in_order h T i o) \/
     (st <> 0 /\ exists i o m t, (length pre <= i)%nat /\ T !! i = Some o /\ says h T i o st t /\
      (forall j p, (length pre <= j < i)%nat -> T !! j = Some p -> in_order h T j p) /\
      ev = [EDiag st m] /\ render m = Ok t)).
  { intros gn' excl' fst' Hio Hi Hg E'. destruct (IH _ _ _ _ _ _ HT' Hi Hg E') as
      [(-> & -> & Ha)|(Hne & i & p & m & t & Hle & Hp & Hpb & Hb & Hev)].
    - left. split; [done|]. split; [done|]. intros i p Hle Hp.
      destruct (decide (i = length pre)) as [->|]; [congruence|]. apply Ha; [lia|done].
    - right. split; [done|]. exists i, p, m, t. split; [lia|]. split; [done|]. split; [done|].
      split; [|done]. intros j q Hj Hq.
      destruct (decide (j = length pre)) as [->|]; [congruence|]. apply (Hb j q); [lia|done]. }
  clear IH.
  destruct (is_type TGroup o) eqn:Eg.
  { apply group_dec in Eg. eapply Hgo; [..|exact E].
    - split; try done.
      + intros [Hp _]. unfold group_entry in Eg. congruence.
      + intros _ (g & G & j & p & _ & _ & (Hl & Hm) & _). apply (Hm (length pre) o); [lia|done|done].
    - split.
      + change FLAG_EXCLUSIVE with (2 ^ 14)%N. rewrite has_bit. split.
        * intros Hx. exists (length pre). apply open_group_snoc_group; [done|]. done.
        * intros (g & Hg). apply open_group_snoc_group in Hg as (_ & _ & Hx); done.
      + intros _. split; [by intros [??]|]. intros (g & j & p & Hg & Hj & Hp & _).
        apply open_group_snoc_group in Hg as (-> & _); [|done].
        apply lookup_snoc_Some in Hp as [(? & _)|(? & _)]; lia.
    - change FLAG_EXCLUSIVE with (2 ^ 14)%N. intros Hx. apply has_bit in Hx. exists (length pre), o.
      split; [apply lookup_snoc_Some; auto|]. split; [done|]. split; [done|].
      split; intros k p Hk Hp; apply lookup_snoc_Some in Hp as [(? & _)|(? & _)]; lia. }
  assert (Hng : ~ group_entry o) by (rewrite <- group_dec, Eg; done). clear Eg.
  assert (Hnm : is_Some (d_name (decl_of o))) by (apply (te_name _ Hte); done).
  destruct Hnm as [n Hnm]. rewrite Hnm in E.
  destruct (is_type TPositional o && has (d_flags (decl_of o)) FLAG_REQUIRED && negb (is_set o)) eqn:Er.
  { apply andb_true_iff in Er as [Er Es]. apply required_dec in Er. apply negb_true_iff in Es.
    injection E as <- <-. right. split; [done|]. exists (length pre), o. eexists _, _.
    split_and!; [done|done|by apply (sy_missing _ _ _ _ n)|intros j p Hj; lia|done|reflexivity]. }
  assert (Hreq : required_positional o -> is_set o = true).
  { intros Hr. apply required_dec in Hr. rewrite Hr in Er. simpl in Er. by destruct (is_set o). }
  clear Er. destruct (is_set o) eqn:Es.
  - destruct (excl && _) eqn:Ex.
    { injection E as <- <-. right. split; [done|].
      apply andb_true_iff in Ex as [-> Ex]. destruct fst as [pn|]; [|done].
      destruct (Hgs eq_refl) as (g & G & HG & Hx & Hgn & Hgr & j & p & Hj & Hp & Hps & Hpn & Hfirst).
      pose proof (lookup_lt_Some _ _ _ Hp). pose proof (lookup_lt_Some _ _ _ HG).
      assert (HGT : T !! g = Some G) by (rewrite HT; by apply lookup_app_l_Some).
      assert (HteG : tellable_entry (decl_of G)) by (apply Hall; by eapply elem_of_list_lookup_2).
      destruct (te_name _ HteG) as [gn' HgN]; [intros _; by destruct Hx|].
      rewrite HgN in Hgn. subst gn.
      exists (length pre), o. eexists _, _.
      split_and!; [done|done| |intros k q Hk; lia|done|reflexivity].
      cbn [render_piece rbind app]. eapply (sy_exclusive h T (length pre) o g G j p gn' pn n); try done; try lia.
      - split; [lia|]. intros k q Hk Hq. destruct (decide (k = length pre)) as [->|]; [congruence|].
        rewrite HT, lookup_app_l in Hq by lia. apply (Hgr k q); [lia|done].
      - rewrite HT. by apply lookup_app_l_Some.
      - intros k q Hk Hq. rewrite HT, lookup_app_l in Hq by lia. eauto. }
    assert (Hnr : ~ rival T (length pre)).
    { rewrite HT. rewrite rival_open by done. intros Hr.
      assert (excl = true) as ->.
      { apply Hinv. destruct Hr as (g & j & p & Hg & _). eauto. }
      destruct Hinv as [_ I2]. apply I2 in Hr; [|done]. destruct Hr as [? ->]. done. }
    apply rbind_Ok in E as ([st1 ev1] & Ev & E).
    apply call_text in Ev as [(-> & -> & Hv)|(Hne & m & t & l1 & e & l2 & -> & Rm & Hvs & Hord & Hrw & Hrf & Hacc)];
      [| |done|apply (te_choices _ Hte)].
    2:{ change SUCCESS with 0 in E. destruct (Z.eqb_spec st1 0); [done|]. simpl in E.
        injection E as <- <-. right. split; [done|]. exists (length pre), o, m, t.
        split_and!; try done; [|intros j p Hj; lia]. by eapply sy_validator. }
    cbn [negb Z.eqb SUCCESS app] in E.
    set (st2 := match d_require (decl_of o) with
      Some r => validate_required T (Some n) r | None => (SUCCESS, []) end) in E.
    assert (H2 : (st2 = (0, []) /\ forall n, n ∈ default [] (d_require (decl_of o)) -> ~ unset_in T n) \/
      (exists l1 r l2, default [] (d_require (decl_of o)) = l1 ++ r :: l2 /\ unset_in T r /\
       (forall r', r' ∈ l1 -> ~ unset_in T r') /\
       st2 = (14, [EDiag 14 [MText $"Required option is missing: '"; MStr (Some r);
          MText $"' with option '"; MStr (Some n); MText $"'"]]))).
    { unfold st2. destruct (d_require (decl_of o)) as [r|]; [apply required_text|].
      left. split; [done|]. intros n' Hn'. by apply elem_of_nil in Hn'. }
    destruct H2 as [(-> & Hrq)|(l1 & r & l2 & Hl & Hu & Hb & ->)].
    2:{ simpl in E. injection E as <- <-. right. split; [done|]. exists (length pre), o. eexists _, _.
        split_and!; [done|done| |intros j p Hj; lia|done|reflexivity].
        by eapply (sy_require h T (length pre) o n l1 r l2). }
    cbn [negb Z.eqb SUCCESS app] in E.
    set (st2 := match d_conflict (decl_of o) with
      Some r => validate_conflicts T (Some n) r | None => (SUCCESS, []) end) in E.
    assert (H2 : (st2 = (0, []) /\ forall n, n ∈ default [] (d_conflict (decl_of o)) -> ~ set_in T n) \/
      (exists l1 r l2, default [] (d_conflict (decl_of o)) = l1 ++ r :: l2 /\ set_in T r /\
       (forall r', r' ∈ l1 -> ~ set_in T r') /\
       st2 = (15, [EDiag 15 [MText $"Conflict between '"; MStr (Some n);
          MText $"' and '"; MStr (Some r); MText $"'"]]))).
    { unfold st2. destruct (d_conflict (decl_of o)) as [r|]; [apply conflicts_text|].
      left. split; [done|]. intros n' Hn'. by apply elem_of_nil in Hn'. }
    destruct H2 as [(-> & Hcf)|(l1 & r & l2 & Hl & Hu & Hb & ->)].
    2:{ simpl in E. injection E as <- <-. right. split; [done|]. exists (length pre), o. eexists _, _.
        split_and!; [done|done| |intros j p Hj; lia|done|reflexivity].
        by eapply (sy_conflict h T (length pre) o n l1 r l2). }
    cbn [negb Z.eqb SUCCESS app] in E.
    apply rbind_Ok in E as ([st3 ev3] & E3 & E). injection E as <- <-.
    eapply Hgo; [..|exact E3].
    + split; auto.
    + pose proof (loop_inv_step pre o excl fst Hng Hinv) as Hst. rewrite Es, Hnm in Hst. apply Hst; [|by eexists].
      intros _ [-> [? ->]]. done.
    + pose proof (group_step pre gn excl fst o Hng Hgs) as Hst. rewrite Es, Hnm in Hst. apply Hst; [by eexists|].
      intros _ ->. by destruct fst.
  - eapply Hgo; [..|exact E].
    + split; try (intros; congruence). all: rewrite Es; try done; auto.
    + pose proof (loop_inv_step pre o excl fst Hng Hinv) as Hst. rewrite Es in Hst. apply Hst; [done|]. by rewrite Hnm.
    + pose proof (group_step pre gn excl fst o Hng Hgs) as Hst. rewrite Es in Hst. apply Hst; [by rewrite Hnm|done].
Qed.
Lemma table_text a t st a' : library_only (decls a) -> tellable (decls a) ->
  validate_table a (Some t) = Ok (st, a') ->
  exists T, a_tabs a !! t = Some T /\
  ((st = 0 /\ a' = a /\ table_in_order (a_heap a) T) \/
   (st <> 0 /\ exists i o m t, T !! i = Some o /\ says (a_heap a) T i o st t /\
      (forall j p, (j < i)%nat -> T !! j = Some p -> in_order (a_heap a) T j p) /\
      a' = diag st m a /\ render m = Ok t)).
Proof.
  intros Hlib Htell E. unfold validate_table, table_ptr, table in E.
  destruct (a_tabs a !! t) as [T|] eqn:ET; [|done]. simpl in E. exists T. split; [done|].
  destruct (validate_options_set (a_heap a) T T None false None) as [[st1 ev]|] eqn:Ev; [|done].
  simpl in E. injection E as <- <-.
  assert (HT : decls a !! t = Some (map decl_of T)) by (unfold decls; by rewrite list_lookup_fmap, ET).
  apply (set_text (a_heap a) T) with (pre := []) in Ev as
    [(-> & -> & Ha)|(Hne & i & o & m & tx & _ & Ho & Hs & Hb & -> & Rm)].
  - left. split; [done|]. split; [done|]. intros i o Ho. apply Ha; [simpl; lia|done].
  - right. split; [done|]. exists i, o, m, tx. split_and!; try done. intros j p Hj. apply Hb. simpl. lia.
  - intros o Ho. assert (Hd : decl_of o ∈ map decl_of T) by (apply elem_of_list_fmap; eauto). split.
    + intros e He. eapply library_builtin; [|done]. by eapply Hlib.
    + by eapply Htell.
  - done.
  - split; [|done]. split; [done|]. intros (g & G & HG & _). by rewrite lookup_nil in HG.
  - done.
Qed.
Lemma stack_text stk : forall a st a', library_only (decls a) -> tellable (decls a) ->
  validate_stack a stk = Ok (st, a') ->
  (st = 0 /\ a' = a) \/
  (st <> 0 /\ exists k t T i o m tx,
    omap (subtable (decls a)) stk !! k = Some t /\ a_tabs a !! t = Some T /\ T !! i = Some o /\
    says (a_heap a) T i o st tx /\
    (forall j p, (j < i)%nat -> T !! j = Some p -> in_order (a_heap a) T j p) /\
    (forall k' t' T', (k' < k)%nat -> omap (subtable (decls a)) stk !! k' = Some t' ->
       a_tabs a !! t' = Some T' -> table_in_order (a_heap a) T') /\
    a' = diag st m a /\ render m = Ok tx).
Proof.
  induction stk as [|r stk IH]; intros a st a' Hlib Htell E; cbn [validate_stack] in E.
  { injection E as <- <-. by left. }
  apply rbind_Ok in E as (s & Es & E). apply rbind_Ok in E as ([st1 a1] & E1 & E).
  assert (Hs : exists t, s = Some t /\ subtable (decls a) r = Some t).
  { assert (Hsub : s = subtable (decls a) r).
    { unfold subtable. unfold sub_of, get_option, table, cell in Es. unfold decls.
      rewrite list_lookup_fmap. destruct (a_tabs a !! fst r) as [T|]; [|done]. simpl in *.
      rewrite list_lookup_fmap. destruct (T !! snd r); [|done]. simpl in *. congruence. }
    destruct s as [t|]; [eauto|]. done. }
  destruct Hs as (t & -> & Ht).
  apply table_text in E1 as (T & HT & [(-> & -> & Hio)|(Hne & i & o & m & tx & Ho & Hp & Hb & -> & Rm)]);
    [| |done|done].
  - simpl in E. apply IH in E as [(-> & ->)|(Hne & k & t' & T' & i & o & m & tx & Hk & HT' & Ho & Hp & Hb & Hbt & -> & Rm)];
      [left|right|done|done].
    + done.
    + split; [done|]. exists (S k), t', T', i, o, m, tx. cbn [omap list_omap].
      rewrite Ht. split_and!; try done. intros k' t2 T2 Hk' Ht2 HT2. destruct k' as [|k'].
      * simpl in Ht2. injection Ht2 as <-. assert (T2 = T) as -> by congruence. done.
      * simpl in Ht2. eapply (Hbt k'); eauto. lia.
  - change SUCCESS with 0 in E. destruct (Z.eqb_spec st1 0); [done|]. injection E as <- <-.
    right. split; [done|]. exists 0%nat, t, T, i, o, m, tx. cbn [omap list_omap].
    rewrite Ht. split_and!; try done. lia.
Qed.
Lemma post_text a st a' : library_only (decls a) -> tellable (decls a) ->
  post_parse_validation a = Ok (st, a') ->
  (st = 0 /\ a' = a) \/
  (st <> 0 /\ exists m tx, first_said a st tx /\ a' = diag st m a /\ render m = Ok tx).
Proof.
  intros Hlib Htell E. unfold post_parse_validation in E.
  apply rbind_Ok in E as ([st1 a1] & E1 & E).
  apply table_text in E1 as (T & HT & [(-> & -> & Hio)|(Hne & i & o & m & tx & Ho & Hp & Hb & -> & Rm)]);
    [| |done|done].
  - simpl in E. apply stack_text in E as [(-> & ->)|(Hne & k & t' & T' & i & o & m & tx & Hk & HT' & Ho & Hp & Hb & Hbt & -> & Rm)];
      [left|right|done|done].
    + done.
    + split; [done|]. exists m, tx. split; [|done]. exists (S k), t', T', i, o. split_and!; try done.
      intros k' t2 T2 Hk' Ht2 HT2. destruct k' as [|k'].
      * simpl in Ht2. injection Ht2 as <-. assert (T2 = T) as -> by congruence. done.
      * simpl in Ht2. eapply (Hbt k'); eauto. lia.
  - change SUCCESS with 0 in E. destruct (Z.eqb_spec st1 0); [done|]. injection E as <- <-.
    right. split; [done|]. exists m, tx. split; [|done]. exists 0%nat, (a_root a), T, i, o. split_and!; try done. lia.
Qed.

(** ** Whole parses *)
Lemma quiet_printed p a st l b : (st = 0 \/ st = 1) -> explained st l -> Forall (fine b) l -> printed p a l = Ok [].
Proof.
  intros Hst [Hx _] F. specialize (Hx Hst). apply printed_quiet. intros e He.
  rewrite Forall_forall in F. specialize (F e He). destruct e; try done.
  assert (X : code ∈ messages l) by (apply elem_of_list_omap; eexists; split; [exact He|done]).
  rewrite Hx in X. by apply elem_of_nil in X.
Qed.
Lemma stack_called a its cs : forall a', decls a' = decls a -> called (decls a) its cs ->
  stack_words a' (entered its) = Ok (concat (map (fun c => $" " ++ c) cs)).
Proof.
  intros a' D. unfold called. generalize (entered its). intros stk. intros F.
  induction F as [|r c stk cs (T & d & HT & Hd & Hn) F IH]; [done|]. cbn [stack_words map concat].
  assert (G : exists o, get_option a' (fst r) (snd r) = Ok o /\ decl_of o = d).
  { rewrite <- D in HT. unfold decls in HT. rewrite list_lookup_fmap in HT. destruct (a_tabs a' !! fst r) as [T'|] eqn:ET; [|done].
    injection HT as <-. rewrite list_lookup_fmap in Hd. destruct (T' !! snd r) as [o|] eqn:Eo; [|done]. injection Hd as <-.
    exists o. split; [|done]. unfold get_option, table, cell. by rewrite ET; cbn [rbind]; rewrite Eo. }
  destruct G as (o & -> & <-). cbn [rbind]. rewrite Hn, IH. cbn [rbind]. by rewrite <- app_assoc.
Qed.
Lemma free_decls a a' : argus_free a = Ok a' -> decls a' = decls a.
Proof. intros E. by apply argus_free_steps in E as [_ _ E _ _]. Qed.

Lemma goes_perform its : forall a st a', library_only (decls a) -> (forall c m, Reject c m ∉ its) ->
  perform a its = Ok (st, a') -> goes_on a st a'.
Proof.
  induction its as [|x its IH]; intros a st a' Hl Hn E; cbn [perform] in E.
  { injection E as <- <-. apply goes_refl. }
  assert (Hn' : forall c m, Reject c m ∉ its) by (intros c m Hx; apply (Hn c m); by right).
  destruct x as [t i v|t i|c m].
  - apply rbind_Ok in E as ([st1 a1] & E1 & E). apply execute_goes in E1; [|done].
    destruct (Z.eqb_spec st1 0) as [->|N]; [|by injection E as <- <-].
    eapply goes_trans; [exact E1|]. eapply IH; [| |exact E]; [|done]. by destruct E1 as [-> _].
  - apply rbind_Ok in E as (a1 & E1 & E).
    assert (C1 : goes_on a 0 a1).
    { unfold select in E1. apply rbind_Ok in E1 as (o & Ho & E1). destruct (_ <? _)%nat; [|done]. injection E1 as <-.
      split; [|exists []; rewrite app_nil_r; split; [done|apply explained_nil]].
      change (decls (put_option a t i (with_set o true)) = decls a).
      by rewrite (decls_put _ _ _ _ _ Ho). }
    eapply goes_trans; [exact C1|]. eapply IH; [| |exact E]; [|done]. by destruct C1 as [-> _].
  - destruct (Hn c m). by left.
Qed.
(** After successful items: nothing on standard error so far. *)
Lemma perform_quiet p a1 its a a' : library_only (decls a) -> (forall c m, Reject c m ∉ its) ->
  Forall (ok_item false (decls a)) its -> perform a its = Ok (0, a') ->
  exists l, a_log a' = a_log a ++ l /\ printed p a1 l = Ok [].
Proof.
  intros Hl Hn Hi E. pose proof (goes_perform _ _ _ _ Hl Hn E) as [_ (l & L & X)].
  apply (perform_continues false) in E as [_ (l' & L' & F)]; [|done|done].
  assert (l' = l) as -> by (rewrite L in L'; by apply app_inv_head in L').
  exists l. split; [done|]. eapply quiet_printed; [|exact X|exact F]. by left.
Qed.

Lemma rejected_text a argv its c m t cs o a' p : stops_at a argv its c m -> render m = Ok t -> called (decls a) its cs ->
  argus_parse a argv = Ok (o, a') ->
  o = Returned c /\ stderr_of pcre p a' = Ok (told_line (p_name p) t ++ pointer (p_name p) cs).
Proof.
  intros [HS HR Hst Hlog Hlib Hr (a1 & Hp)] Rm Hc E.
  assert (Hcode : c = E_INVALID_ARGUMENT \/ c = E_MISSING_VALUE \/ c = E_AMBIGUOUS_SUBCOMMAND).
  { eapply reads_codes; [exact Hr|]. apply elem_of_app. right. by left. }
  assert (Hn : forall c m, Reject c m ∉ its).
  { eapply perform_no_reject; [|exact Hp]. intros c' m' Hx.
    assert (Hx' : Reject c' m' ∈ its ++ [Reject c m]) by (apply elem_of_app; by left).
    destruct (reads_codes _ _ _ _ _ _ _ _ Hr Hx') as [->|[->| ->]]; done. }
  rewrite (parse_error a argv _ c (diag c m a1) HS HR Hr) in E.
  2:{ rewrite perform_app, Hp by done. done. }
  2,3: destruct Hcode as [->|[->| ->]]; done.
  apply rbind_Ok in E as (a2 & E2 & E). injection E as <- <-. split; [done|].
  pose proof (free_decls _ _ E2) as D2. apply argus_free_err in E2 as (_ & L2 & S2 & _).
  pose proof (perform_stack _ _ _ _ Hp Hn) as (_ & _ & D1 & S1 & _). specialize (S1 eq_refl). rewrite Hst in S1.
  apply (reads_items false) in Hr as Hi; [|done]. apply Forall_app in Hi as [Hi _].
  destruct (perform_quiet p a2 its a a1 Hlib Hn Hi Hp) as (l & L & Q). rewrite Hlog in L.
  unfold stderr_of. rewrite L2.
  change (a_log (add_log (set_err (diag c m a1) c) [EUsage])) with ((a_log a1 ++ [EDiag c m]) ++ [EUsage]).
  rewrite L. cbn [app]. rewrite <- app_assoc.
  apply (printed_app p a2 l ([EDiag c m] ++ [EUsage]) []); [done|]. cbn [app Messages.printed]. unfold error_line. rewrite Rm. cbn [rbind].
  unfold help_hint. rewrite S2. change (a_stack (add_log (set_err (diag c m a1) c) [EUsage])) with (a_stack a1).
  rewrite S1. cbn [app]. rewrite (stack_called a its cs a2); [|rewrite D2; exact D1|done].
  cbn [rbind]. unfold told_line, pointer, line_end. f_equal. rewrite app_nil_r. done.
Qed.
(** The case of each refusal of the command line *)
Lemma reached_stops a pre t T k only its its' argv c m a1 : starts a -> reached a pre t T k only its ->
  reads (decls a) t k only argv (its' ++ [Reject c m]) -> perform a (its ++ its') = Ok (0, a1) ->
  stops_at a (pre ++ argv) (its ++ its') c m.
Proof.
  intros (S1 & S2 & S3) [HS HR HT [Hl _]] Hr Hp. split; try done; [|by eexists].
  rewrite <- app_assoc. by apply Hl.
Qed.

(** ** Everything printed is defined *)
Definition named_at (D : list (list decl)) (r : nat * nat) : Prop :=
  exists T d, D !! fst r = Some T /\ T !! snd r = Some d /\ is_Some (d_name d).
Lemma perform_named its : forall a st a', Forall (ok_item false (decls a)) its -> perform a its = Ok (st, a') ->
  (forall r, r ∈ a_stack a -> named_at (decls a) r) -> decls a' = decls a /\ forall r, r ∈ a_stack a' -> named_at (decls a) r.
Proof.
  induction its as [|x its IH]; intros a st a' Hi E Hs; cbn [perform] in E; [by injection E as <- <-|].
  apply Forall_cons in Hi as [Hx Hi]. destruct x as [t i v|t i|c m].
  - apply rbind_Ok in E as ([st1 a1] & E1 & E). apply execute_callbacks_frame in E1.
    pose proof (sf_decls _ _ _ _ E1) as D1. pose proof (sf_stack _ _ _ _ E1) as S1.
    destruct (st1 =? 0); [|injection E as <- <-; rewrite S1; done].
    apply IH in E as [D2 S2]; [by rewrite D2, D1 in *| |]; rewrite D1; [done|]. by rewrite S1.
  - apply rbind_Ok in E as (a1 & E1 & E).
    assert (C1 : decls a1 = decls a /\ a_stack a1 = a_stack a ++ [(t, i)]).
    { unfold select in E1. apply rbind_Ok in E1 as (o & Ho & E1). destruct (_ <? _)%nat; [|done]. injection E1 as <-.
      split; [|done]. change (decls (put_option a t i (with_set o true)) = decls a). by rewrite (decls_put _ _ _ _ _ Ho). }
    destruct C1 as [D1 S1]. apply IH in E as [D2 S2]; [by rewrite D2, D1 in *| |]; rewrite D1; [done|].
    rewrite S1. intros r Hr. apply elem_of_app in Hr as [Hr|Hr]; [by apply Hs|]. apply elem_of_list_singleton in Hr as ->. exact Hx.
  - injection E as <- <-. done.
Qed.
Lemma stack_defined a stk : (forall r, r ∈ stk -> named_at (decls a) r) -> exists w, stack_words a stk = Ok w.
Proof.
  induction stk as [|r stk IH]; intros Hs; [by eexists|]. destruct (Hs r (elem_of_list_here _ _)) as (T & d & HT & Hd & n & Hn).
  destruct IH as [w Hw]; [intros; apply Hs; by right|]. cbn [stack_words].
  unfold decls in HT. rewrite list_lookup_fmap in HT. destruct (a_tabs a !! fst r) as [T'|] eqn:ET; [|done].
  injection HT as <-. rewrite list_lookup_fmap in Hd. destruct (T' !! snd r) as [o|] eqn:Eo; [|done]. injection Hd as <-.
  unfold get_option, table, cell. rewrite ET. cbn [rbind]. rewrite Eo. cbn [rbind]. rewrite Hn, Hw. by eexists.
Qed.
Lemma printed_fine p a l : Forall (fine true) l -> (26 ∉ messages l) -> exists t, printed p a l = Ok t.
Proof.
  induction l as [|e l IH]; intros F N; [by eexists|]. apply Forall_cons in F as [Fe F].
  destruct IH as [t Ht]; [done| |].
  { intros X. apply N. change (e :: l) with ([e] ++ l). rewrite messages_app. apply elem_of_app. by right. }
  cbn [Messages.printed]. destruct e; eauto; [|done].
  destruct Fe as [t' Ht']; [|done|].
  { intros ->. apply N. cbn. by left. }
  unfold error_line. rewrite Ht', Ht. by eexists.
Qed.
Lemma whole_log a argv o a' : library_only (decls a) -> tellable (decls a) -> subs_present (decls a) -> is_Some (decls a !! a_root a) ->
  (forall r, r ∈ a_stack a -> named_at (decls a) r) ->
  argus_parse a argv = Ok (o, a') -> exists l u, a_log a' = a_log a ++ l ++ u /\ Forall (fine true) l /\
    (u = [] \/ u = [EUsage] /\ forall r, r ∈ a_stack a' -> named_at (decls a') r).
Proof.
  intros Hlib Htell HS HR Hstk E. assert (Hr : ready true (decls a)) by (intros _; exact Htell). unfold argus_parse in E. apply rbind_Ok in E as ([st a1] & E1 & E). cbv beta iota zeta in E.
  assert (P1 : decls a1 = decls a /\ forall r, r ∈ a_stack a1 -> named_at (decls a) r).
  { destruct (reads_total _ _ 0%nat false argv HS HR) as [its Hi]. rewrite (parse_reads _ _ _ _ _ _ HS HR Hi) in E1.
    eapply perform_named; [|exact E1|done]. by eapply reads_items. }
  apply (parse_continues true) in E1 as [D1 (l1 & L1 & X1)]; [|done..].
  destruct (st =? SHOULD_EXIT).
  { apply rbind_Ok in E as (a2 & E2 & E). injection E as <- <-. apply free_log in E2. exists l1, []. rewrite E2.
    cbn. rewrite L1, app_nil_r. auto. }
  destruct (st =? SUCCESS); cbn [negb] in E.
  2:{ apply rbind_Ok in E as (a2 & E2 & E). injection E as <- <-. exists l1, [EUsage].
    pose proof (free_decls _ _ E2) as D2. apply argus_free_err in E2 as (_ & L2 & S2 & _).
    rewrite L2. split; [cbn; by rewrite L1, app_assoc|]. split; [done|]. right. split; [done|].
    rewrite S2. change (decls a2 = decls a1) in D2. rewrite D2, D1. apply P1. }
  apply rbind_Ok in E as ([st2 a2] & E2 & E).
  apply (env_vars_continues true) in E2 as [D2 (l2 & L2 & X2)]; [|change (ready true (decls a1)); by rewrite D1].
  change (a_log (set_err a1 st)) with (a_log a1) in L2. change (decls (set_err a1 st)) with (decls a1) in D2.
  destruct (st2 =? SUCCESS); cbn [negb] in E.
  2:{ apply rbind_Ok in E as (a3 & E3 & E). injection E as <- <-. apply free_log in E3. exists (l1 ++ l2), [].
    rewrite E3, L2, L1, app_nil_r, app_assoc. split; [done|]. split; [by apply Forall_app|by left]. }
  apply rbind_Ok in E as ([st3 a3] & E3 & E).
  apply post_text in E3 as [(-> & ->)|(N3 & m & tx & _ & -> & Rm)]; [| |by rewrite D2, D1|by rewrite D2, D1].
  - cbn in E. injection E as <- <-. exists (l1 ++ l2), []. rewrite L2, L1, app_nil_r, app_assoc. split; [done|].
    split; [by apply Forall_app|by left].
  - change SUCCESS with 0 in E. destruct (Z.eqb_spec st3 0); [done|]. cbn [negb] in E.
    apply rbind_Ok in E as (a4 & E4 & E). injection E as <- <-. apply free_log in E4. exists ((l1 ++ l2) ++ [EDiag st3 m]), [].
    rewrite E4. cbn. rewrite L2, L1, app_nil_r, !app_assoc. split; [done|].
    split; [|by left]. apply Forall_app. split; [by apply Forall_app|]. apply Forall_singleton. intros _ _. by eexists.
Qed.
Lemma parse_defined a argv o a' p : starts a -> tellable (decls a) -> subs_present (decls a) -> is_Some (decls a !! a_root a) ->
  argus_parse a argv = Ok (o, a') -> o <> Returned 26 -> exists t, stderr_of pcre p a' = Ok t.
Proof.
  intros (S1 & S2 & S3) Htell HS HR E No.
  pose proof (parse_told _ _ _ _ S3 E) as (l' & L' & X').
  apply whole_log in E as (l & u & L & F & Hu); try done.
  2:{ intros r Hr. rewrite S1 in Hr. by apply elem_of_nil in Hr. }
  rewrite S2 in L, L'. cbn [app] in L, L'. unfold stderr_of. rewrite L.
  assert (N : 26 ∉ messages l).
  { assert (Nl : 26 ∉ messages l').
    { destruct o as [c|c].
      - destruct X' as [X1 X2]. destruct (decide (c = 0 \/ c = 1)) as [Hc|Hc].
        + rewrite (X1 Hc). apply not_elem_of_nil.
        + rewrite X2; [|intros ->; tauto..|intros ->; done]. intros X. apply elem_of_list_singleton in X as <-. done.
      - rewrite X'. apply not_elem_of_nil. }
    intros X. apply Nl. rewrite <- L', L, messages_app. apply elem_of_app. by left. }
  destruct (printed_fine p a' l F N) as [t Ht].
  destruct Hu as [->|[-> Hs]]; [rewrite app_nil_r; eauto|].
  apply stack_defined in Hs as [w Hw].
  eexists. eapply printed_app; [exact Ht|]. cbn [Messages.printed]. unfold help_hint. rewrite Hw. reflexivity.
Qed.
Lemma set_zero h T l : forall gn excl fst ev, validate_options_set h T l gn excl fst = Ok (0, ev) -> ev = [].
Proof.
  induction l as [|o l IH]; intros gn excl fst ev; cbn [validate_options_set]; [by intros [= <-]|].
  destruct (is_type TGroup o); [apply IH|]. destruct (_ && _ && _); [done|]. destruct (is_set o); [|apply IH].
  destruct (_ && _); [done|]. intros E. apply rbind_Ok in E as ([st ev1] & E1 & E). cbv beta iota in E.
  apply call_validators_spec in E1 as [(-> & -> & _)|(N & _)].
  2:{ change SUCCESS with 0 in E. destruct (Z.eqb_spec st 0); [done|]. by injection E as -> <-. }
  cbn [negb Z.eqb SUCCESS app] in E.
  destruct (match d_require (decl_of o) with Some r => _ | None => _ end) as [st2 ev2]. change SUCCESS with 0 in E.
  destruct (Z.eqb_spec st2 0); cbn [negb] in E; [|by injection E as -> <-].
  destruct (match d_conflict (decl_of o) with Some r => _ | None => _ end) as [st3 ev3].
  destruct (Z.eqb_spec st3 0); cbn [negb] in E; [|by injection E as -> <-].
  apply rbind_Ok in E as ([st' ev'] & E' & E). injection E as -> <-. by eapply IH.
Qed.
Lemma post_zero a a' : post_parse_validation a = Ok (0, a') -> a_log a' = a_log a.
Proof.
  assert (V : forall a tp a', validate_table a tp = Ok (0, a') -> a_log a' = a_log a).
  { intros a0 tp a0' E. unfold validate_table in E. apply rbind_Ok in E as (T & _ & E).
    apply rbind_Ok in E as ([st ev] & E1 & E). injection E as -> <-. apply set_zero in E1 as ->. done. }
  intros E. unfold post_parse_validation in E. apply rbind_Ok in E as ([st a1] & E1 & E).
  change SUCCESS with 0 in E. destruct (Z.eqb_spec st 0) as [->|]; [|by injection E as -> <-].
  apply V in E1. rewrite <- E1. clear E1. revert E. generalize (a_stack a1) as stk. intros stk. revert a1.
  induction stk as [|r stk IH]; intros a1 E; cbn [validate_stack] in E; [by injection E as <-|].
  apply rbind_Ok in E as (s & _ & E). apply rbind_Ok in E as ([st a2] & E1 & E).
  change SUCCESS with 0 in E. destruct (Z.eqb_spec st 0) as [->|]; [|by injection E as -> <-].
  apply V in E1. rewrite <- E1. by apply IH.
Qed.
(** Nothing is printed by a parse that succeeds or exits. *)
Lemma parse_silent a argv o a' p : starts a -> subs_present (decls a) -> is_Some (decls a !! a_root a) ->
  argus_parse a argv = Ok (o, a') -> o = Returned 0 \/ (exists c, o = Exited c) -> stderr_of pcre p a' = Ok [].
Proof.
  intros (S1 & S2 & S3) HS HR E Ho.
  pose proof (parse_told _ _ _ _ S3 E) as (l & L & X). rewrite S2 in L. cbn [app] in L.
  assert (M : messages l = []) by (destruct Ho as [->|[c ->]]; [apply X; by left|done]). clear X.
  unfold stderr_of. rewrite L. apply printed_quiet. intros e He.
  assert (U : EUsage ∉ l).
  { unfold argus_parse in E. apply rbind_Ok in E as ([st a1] & E1 & E). cbv beta iota zeta in E.
    apply (parse_continues false) in E1 as [D1 (l1 & L1 & X1)]; [|done..]. rewrite S2 in L1. cbn [app] in L1.
    assert (NU : forall l, Forall (fine false) l -> EUsage ∉ l).
    { intros l0 F X. rewrite Forall_forall in F. by apply F in X. }
    change SHOULD_EXIT with 1 in E. change SUCCESS with 0 in E.
    destruct (Z.eqb_spec st 1).
    { apply rbind_Ok in E as (a2 & E2 & E). injection E as <- <-. apply free_log in E2. cbn in E2. rewrite E2, L1 in L. subst l. auto. }
    destruct (Z.eqb_spec st 0); cbn [negb] in E.
    2:{ apply rbind_Ok in E as (a2 & E2 & E). injection E as <- <-. destruct Ho as [[= ->]|[c [=]]]. done. }
    apply rbind_Ok in E as ([st2 a2] & E2 & E).
    apply (env_vars_continues false) in E2 as [D2 (l2 & L2 & X2)]; [|done].
    change (a_log (set_err a1 st)) with (a_log a1) in L2.
    destruct (Z.eqb_spec st2 0); cbn [negb] in E.
    2:{ apply rbind_Ok in E as (a3 & E3 & E). injection E as <- <-. destruct Ho as [[= ->]|[c [=]]]. done. }
    apply rbind_Ok in E as ([st3 a3] & E3 & E). cbv beta iota in E.
    destruct (Z.eqb_spec st3 0) as [->|]; cbn [negb] in E.
    2:{ apply rbind_Ok in E as (a4 & E4 & E). injection E as <- <-. destruct Ho as [[= ->]|[c [=]]]. done. }
    injection E as <- <-. apply post_zero in E3. rewrite E3, L2, L1 in L. subst l. apply NU. by apply Forall_app. }
  destruct e; try done. assert (Hx : code ∈ messages l) by (apply elem_of_list_omap; eexists; split; [exact He|done]).
  rewrite M in Hx. by apply elem_of_nil in Hx.
Qed.

(** The first entry out of order is the one printed. *)
Lemma checked_text a argv its a2 c a' p : SpecAfter.fresh a -> starts a -> tellable (decls a) ->
  assigned a argv its -> perform a its = Ok (0, a2) ->
  argus_parse a argv = Ok (Returned c, a') -> c <> 0 ->
  exists t, first_said a2 c t /\ stderr_of pcre p a' = Ok (told_line (p_name p) t).
Proof.
  intros Hf (S1 & S2 & S3) Htell (its1 & a1 & Hr & Hp & ->) Hall E Hc. pose proof Hf as [Hst Herr HR HS Hac Hnm].
  destruct (parsed_stack a argv its1 0 a1 HS HR Hac Hst Hr Hp) as (Q1 & Q2 & Q3 & Q4 & Q5 & Q6 & Q7).
  rewrite perform_app, Hp in Hall by done. cbn [rbind] in Hall.
  change (0 =? 0) with true in Hall. cbv iota in Hall.
  unfold argus_parse in E. rewrite (parse_reads _ _ _ _ _ _ HS HR Hr), Hp in E.
  cbn [rbind] in E. change (0 =? SHOULD_EXIT) with false in E. change (0 =? SUCCESS) with true in E. cbn [negb] in E.
  assert (Herr1 : a_err a1 = 0) by (rewrite (perform_err _ _ _ Hp Q7); done).
  rewrite (set_err_same _ Herr1) in E, Q1, Q2.
  assert (HR1 : is_Some (decls a1 !! a_root a1)) by (by rewrite Q3, Q4).
  pose proof (load_env_vars_spec a1 HR1 Q1 Q2) as Henv.
  apply rbind_Ok in E as ([st a3] & Hl & E). cbv beta iota in E. rewrite Hl, Hall in Henv.
  destruct Henv as [-> ->]. change (0 =? SUCCESS) with true in E. cbn [negb] in E.
  destruct (perform_quiet p a' its1 a a1 S3 Q7) as (l1 & L1 & P1); [by apply (reads_items false) in Hr|done|].
  assert (Hc1 : decls a1 = decls a) by done.
  assert (NR : forall c m, Reject c m ∉ env_items a1).
  { intros c0 m0 Hx. apply env_of_calls in Hx as (? & ? & ? & [=]). }
  pose proof (perform_frame _ _ _ _ (env_of_calls _ _ _) Hall) as (F1 & F2 & F3 & F4 & _).
  pose proof (goes_perform _ _ _ _ ltac:(rewrite Hc1; exact S3) NR Hall) as [_ (l2 & L2 & X2)].
  apply (env_vars_continues false) in Hl as [_ (l2' & L2' & X2')]; [|done].
  assert (l2' = l2) as -> by (rewrite L2 in L2'; by apply app_inv_head in L2').
  pose proof (quiet_printed p a' 0 l2 false (or_introl eq_refl) X2 X2') as P2.
  apply rbind_Ok in E as ([st a3] & E3 & E). cbv beta iota in E.
  apply post_text in E3 as [(-> & ->)|(N3 & m & tx & Hfs & -> & Rm)]; [| |by rewrite F4, Hc1|by rewrite F4, Hc1].
  { injection E as <- _. done. }
  change SUCCESS with 0 in E. destruct (Z.eqb_spec st 0); [done|]. cbn [negb] in E.
  apply rbind_Ok in E as (a4 & E4 & E). injection E as <- <-. apply free_log in E4.
  exists tx. split; [done|]. unfold stderr_of. rewrite E4.
  change (a_log (diag st m a2)) with (a_log a2 ++ [EDiag st m]). rewrite L2, L1, S2. cbn [app].
  apply (printed_app p a4 (l1 ++ l2) _ []); [by apply (printed_app p a4 l1 l2 [] [])|].
  cbn [Messages.printed]. unfold error_line. rewrite Rm. cbn [rbind]. unfold told_line, line_end. by rewrite app_nil_r.
Qed.

(** ** The rejected tokens, one kind at a time *)
Lemma stopped a pre t T k only its its' argv c m a1 w cs o a' p : starts a -> reached a pre t T k only its ->
  reads (decls a) t k only argv (its' ++ [Reject c m]) -> perform a (its ++ its') = Ok (0, a1) ->
  render m = Ok w -> called (decls a) its cs -> entered its' = [] ->
  argus_parse a (pre ++ argv) = Ok (o, a') ->
  o = Returned c /\ stderr_of pcre p a' = Ok (told_line (p_name p) w ++ pointer (p_name p) cs).
Proof.
  intros Hs Hr Hrd Hp Rm Hc He. eapply rejected_text; [by eapply reached_stops|done|].
  unfold called. rewrite entered_app, He, app_nil_r. done.
Qed.
Definition flag_calls (t : nat) (r : nat -> nat) (fs : cstr) : list item := imap (fun j _ => Call t (r j) None) fs.
Lemma entered_flags t r fs : entered (flag_calls t r fs) = [].
Proof.
  unfold flag_calls. revert r. induction fs as [|c fs IH]; intros r; [done|]. cbn. apply (IH (fun j => r (S j))).
Qed.
Lemma unknown_long_text a pre t T k its name suffix post a1 cs o a' p : starts a ->
  reached a pre t T k false its -> "="%char ∉ name -> name ++ suffix <> [] ->
  (suffix = [] \/ exists v, suffix = "="%char :: v) -> nowhere (long_named (key63 name)) T ->
  perform a its = Ok (0, a1) -> called (decls a) its cs ->
  argus_parse a (pre ++ ($"--" ++ name ++ suffix) :: post) = Ok (o, a') ->
  o = Returned 12 /\ stderr_of pcre p a' =
    Ok (told_line (p_name p) (in_quotes $"Unknown option: " ($"--" ++ key63 name)) ++ pointer (p_name p) cs).
Proof.
  intros Hs Hr. intros. pose proof (re_table _ _ _ _ _ _ _ Hr) as HT.
  eapply (stopped a pre t T k false its [] _ E_INVALID_ARGUMENT); [done|done| | | |done|done|done].
  - by eapply r_long_unknown.
  - by rewrite app_nil_r.
  - reflexivity.
Qed.
Lemma missing_long_text a pre t T k its name i d a1 cs o a' p : starts a ->
  reached a pre t T k false its -> "="%char ∉ name -> name <> [] ->
  first (long_named (key63 name)) T i -> T !! i = Some d -> ~ flag_option d ->
  perform a its = Ok (0, a1) -> called (decls a) its cs ->
  argus_parse a (pre ++ [$"--" ++ name]) = Ok (o, a') ->
  o = Returned 13 /\ stderr_of pcre p a' =
    Ok (told_line (p_name p) (in_quotes $"Missing value for option: " ($"--" ++ key63 name)) ++ pointer (p_name p) cs).
Proof.
  intros Hs Hr. intros. pose proof (re_table _ _ _ _ _ _ _ Hr) as HT.
  eapply (stopped a pre t T k false its [] _ E_MISSING_VALUE); [done|done| | | |done|done|done].
  - by eapply r_long_missing.
  - by rewrite app_nil_r.
  - reflexivity.
Qed.
Lemma unknown_short_text a pre t T k its fs r c rest post a1 cs o a' p : starts a ->
  reached a pre t T k false its ->
  (forall s, fs ++ c :: rest <> "-"%char :: s) -> ~ negative_for T k (fs ++ c :: rest) ->
  (forall j c, fs !! j = Some c -> exists d, first (short_named c) T (r j) /\ T !! r j = Some d /\ flag_option d) ->
  nowhere (short_named c) T ->
  perform a (its ++ imap (fun j _ => Call t (r j) None) fs) = Ok (0, a1) -> called (decls a) its cs ->
  argus_parse a (pre ++ ("-"%char :: fs ++ c :: rest) :: post) = Ok (o, a') ->
  o = Returned 12 /\ stderr_of pcre p a' =
    Ok (told_line (p_name p) (in_quotes $"Unknown option: " ($"-" ++ [c])) ++ pointer (p_name p) cs).
Proof.
  intros Hs Hr. intros. pose proof (re_table _ _ _ _ _ _ _ Hr) as HT.
  eapply (stopped a pre t T k false its (flag_calls t r fs) _ E_INVALID_ARGUMENT); [done|done| |done| |done| |done].
  - eapply (r_short_bad _ t T k); eauto. eapply cluster_flags; eauto. by constructor.
  - reflexivity.
  - apply entered_flags.
Qed.
Lemma missing_short_text a pre t T k its fs r c i d a1 cs o a' p : starts a ->
  reached a pre t T k false its ->
  (forall s, fs ++ [c] <> "-"%char :: s) -> ~ negative_for T k (fs ++ [c]) ->
  (forall j c, fs !! j = Some c -> exists d, first (short_named c) T (r j) /\ T !! r j = Some d /\ flag_option d) ->
  first (short_named c) T i -> T !! i = Some d -> ~ flag_option d ->
  perform a (its ++ imap (fun j _ => Call t (r j) None) fs) = Ok (0, a1) -> called (decls a) its cs ->
  argus_parse a (pre ++ ["-"%char :: fs ++ [c]]) = Ok (o, a') ->
  o = Returned 13 /\ stderr_of pcre p a' =
    Ok (told_line (p_name p) (in_quotes $"Missing value for option: " ($"-" ++ [c])) ++ pointer (p_name p) cs).
Proof.
  intros Hs Hr. intros. pose proof (re_table _ _ _ _ _ _ _ Hr) as HT.
  eapply (stopped a pre t T k false its (flag_calls t r fs) _ E_MISSING_VALUE); [done|done| |done| |done| |done].
  - eapply (r_short_bad _ t T k); eauto. eapply cluster_flags; eauto. by econstructor.
  - reflexivity.
  - apply entered_flags.
Qed.
Lemma extra_text a pre t T k only its w post a1 cs o a' p : starts a ->
  reached a pre t T k only its -> w <> $"--" -> (only = false -> plain_word T w) -> no_receiver T k ->
  perform a its = Ok (0, a1) -> called (decls a) its cs ->
  argus_parse a (pre ++ w :: post) = Ok (o, a') ->
  o = Returned 12 /\ stderr_of pcre p a' =
    Ok (told_line (p_name p) (in_quotes $"Unknown positional: " w) ++ pointer (p_name p) cs).
Proof.
  intros Hs Hr Hw Hpl Hn. intros. pose proof (re_table _ _ _ _ _ _ _ Hr) as HT.
  eapply (stopped a pre t T k only its [] _ E_INVALID_ARGUMENT (quoted $"Unknown positional: " (MStr (Some w)))); [done|done| | | |done|done|done].
  - destruct only; [by eapply r_raw_extra|]. destruct Hpl; [done|]. by eapply r_word_extra.
  - by rewrite app_nil_r.
  - cbn. reflexivity.
Qed.
Lemma ambiguous_text a pre t T k its w i j d e n1 h1 n2 h2 post a1 cs o a' p : starts a ->
  reached a pre t T k false its -> (forall s, w <> "-"%char :: s) -> ambiguous T w i j ->
  T !! i = Some d -> T !! j = Some e ->
  d_name d = Some n1 -> d_help d = Some h1 -> d_name e = Some n2 -> d_help e = Some h2 ->
  perform a its = Ok (0, a1) -> called (decls a) its cs ->
  argus_parse a (pre ++ w :: post) = Ok (o, a') ->
  o = Returned 20 /\ stderr_of pcre p a' =
    Ok (told_line (p_name p) ($"'" ++ w ++ $"' is ambigous and could match:" ++
      concat (map (fun '(n, h) => line_end ++ $"  '" ++ n ++ $"' - " ++ h) [(n1, h1); (n2, h2)])) ++ pointer (p_name p) cs).
Proof.
  intros Hs Hr Hw Ham Hd He N1 P1 N2 P2. intros. pose proof (re_table _ _ _ _ _ _ _ Hr) as HT.
  eapply (stopped a pre t T k false its [] _ E_AMBIGUOUS_SUBCOMMAND); [done|done| | | |done|done|done].
  - by eapply r_ambiguous.
  - by rewrite app_nil_r.
  - unfold two_matches. rewrite N1, P1, N2, P2. cbn [Messages.render render_piece rbind map concat]. f_equal.
    unfold line_end. rewrite <- !app_assoc. cbn [app]. rewrite ?app_nil_r, <- ?app_assoc. reflexivity.
Qed.
End libc.
