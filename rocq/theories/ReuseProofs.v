(** * What argus_free leaves behind *)
From Verif Require Import Api LibProofs SpecGrammar SpecAfter SpecSafe FrameProofs GrammarLemmas IsolationProofs SpecReuse.
From Coq Require Import Lia.

(** ** Releasing never changes the entry *)
Definition silent {A} (m : HM A) : Prop := forall s x s', m s = Ok (x, s') -> h_opt s' = h_opt s.
Lemma silent_ret {A} (x : A) : silent (hret x).
Proof. intros s b s' H. by injection H as <- <-. Qed.
Lemma silent_lift {A} (r : res A) : silent (hlift r).
Proof. intros s b s' H. unfold hlift in H. destruct r; [|discriminate]. by injection H as <- <-. Qed.
Lemma silent_bind {A B} (m : HM A) (k : A -> HM B) : silent m -> (forall x, silent (k x)) -> silent (hbind m k).
Proof.
  intros Hm Hk s b s' H. unfold hbind in H. destruct (m s) as [[x s1]|] eqn:E; [|discriminate].
  rewrite (Hk _ _ _ _ H). eapply Hm; eauto.
Qed.
Lemma silent_get : silent get_opt.
Proof. intros s b s' H. by injection H as <- <-. Qed.
Lemma silent_free v : silent (hfree v).
Proof. intros s x s' H. unfold hfree in H. destruct (free v (h_heap s)); [|discriminate]. by injection H as <- <-. Qed.
Lemma silent_arr v : silent (hderef_arr v).
Proof. intros s x s' H. unfold hderef_arr in H. destruct (deref_arr _ _); [|discriminate]. by injection H as <- <-. Qed.
Lemma silent_map v : silent (hderef_map v).
Proof. intros s x s' H. unfold hderef_map in H. destruct (deref_map _ _); [|discriminate]. by injection H as <- <-. Qed.
Lemma silent_cells p n : forall i, silent (free_cells p i n).
Proof.
  induction n as [|n IH]; intros i; cbn [free_cells]; [apply silent_ret|].
  apply silent_bind; [apply silent_bind; [apply silent_arr|intros; apply silent_lift]|].
  intros x. apply silent_bind; [apply silent_free|auto].
Qed.
Lemma silent_pairs b p n : forall i, silent (free_pairs b p i n).
Proof.
  induction n as [|n IH]; intros i; cbn [free_pairs]; [apply silent_ret|].
  apply silent_bind; [apply silent_map|intros cs]. apply silent_bind; [apply silent_lift|intros kv].
  apply silent_bind; [apply silent_free|intros _].
  apply silent_bind; [destruct b; [apply silent_free|apply silent_ret]|auto].
Qed.
Lemma silent_map_free b : silent (free_map b).
Proof.
  apply silent_bind; [apply silent_get|intros o]. apply silent_bind; [apply silent_lift|intros z].
  destruct z; [apply silent_ret|]. apply silent_bind; [apply silent_pairs|intros _; apply silent_free].
Qed.
Lemma silent_run_free f : silent (run_free f).
Proof.
  apply silent_bind; [apply silent_get|intros o]. destruct f; try apply silent_map_free; try apply silent_free;
    (apply silent_bind; [apply silent_cells|intros _; apply silent_free]).
Qed.
Lemma free_value_opt o h lg x s : free_option_value (Hst o h lg) = Ok (x, s) -> h_opt s = freed o.
Proof.
  unfold free_option_value, freed. unfold hbind, get_opt. cbn [h_opt].
  destruct (is_allocated o) eqn:A; [|by intros [= <- <-]].
  destruct (d_free (decl_of o)) as [f|].
  - destruct (run_free f (Hst o h lg)) as [[y s1]|] eqn:E; [|done]. apply silent_run_free in E. cbn in E.
    cbn. intros [= <- <-]. cbn. by rewrite E.
  - destruct (hfree (value o) (Hst o h lg)) as [[y s1]|] eqn:E; [|done]. apply silent_free in E. cbn in E.
    cbn. intros [= <- <-]. cbn. by rewrite E.
Qed.
Lemma freed_twice o : freed (freed o) = freed o.
Proof. unfold freed. destruct (is_allocated o) eqn:A; [done|by rewrite A]. Qed.

(** ** The loops *)
(** Exactly the entries in [P] are released. *)
Definition released (P : nat -> nat -> bool) (a a' : argus) : Prop :=
  forall t i o, get_option a t i = Ok o -> get_option a' t i = Ok (if P t i then freed o else o).
Lemma released_trans P Q a a1 a2 : released P a a1 -> released Q a1 a2 -> released (fun t i => P t i || Q t i) a a2.
Proof.
  intros H1 H2 t i o E. specialize (H2 _ _ _ (H1 _ _ _ E)). rewrite H2. f_equal.
  destruct (P t i), (Q t i); cbn; try done. apply freed_twice.
Qed.
Lemma free_option_released a t i a' : free_option a t i = Ok a' ->
  released (fun t' i' => bool_decide ((t', i') = (t, i))) a a'.
Proof.
  unfold free_option. intros E. apply rbind_Ok in E as (o & Ho & E). apply rbind_Ok in E as ([x s] & Es & E).
  injection E as <-. apply free_value_opt in Es. intros t' i' o' E'.
  change (get_option (put_option a t i (h_opt s)) t' i' = Ok (if bool_decide ((t', i') = (t, i)) then freed o' else o')).
  case_bool_decide as D.
  - injection D as -> ->. rewrite (get_put_same _ _ _ _ _ Ho). congruence.
  - by rewrite get_put_other.
Qed.
Lemma free_from_released n : forall a t i a', free_options_from a t i n = Ok a' ->
  released (fun t' i' => bool_decide (t' = t /\ i <= i' < i + n)%nat) a a'.
Proof.
  induction n as [|n IH]; intros a t i a' E; cbn [free_options_from] in E.
  { injection E as <-. intros t' i' o E. case_bool_decide; [lia|done]. }
  apply rbind_Ok in E as (a1 & E1 & E). apply free_option_released in E1. apply IH in E.
  pose proof (released_trans _ _ _ _ _ E1 E) as R. intros t' i' o Ho. rewrite (R _ _ _ Ho). f_equal.
  match goal with |- (if ?b then _ else _) = (if ?c then _ else _) => assert (X : b = c) end; [|by rewrite X].
  apply eq_true_iff_eq. rewrite orb_true_iff, !bool_decide_eq_true. split.
  - intros [[= -> ->]|[-> ?]]; (split; [done|lia]).
  - intros [-> ?]. destruct (decide (i' = i)) as [->|]; [by left|right; split; [done|lia]].
Qed.
Lemma free_options_released a t a' : free_options a (Some t) = Ok a' -> released (fun t' _ => bool_decide (t' = t)) a a'.
Proof.
  unfold free_options. intros E. apply rbind_Ok in E as (T & HT & E). apply free_from_released in E.
  intros t' i o Ho. rewrite (E _ _ _ Ho). f_equal.
  match goal with |- (if ?b then _ else _) = (if ?c then _ else _) => assert (X : b = c) end; [|by rewrite X].
  apply eq_true_iff_eq. rewrite !bool_decide_eq_true. split; [by intros [-> _]|]. intros ->. split; [done|].
  apply get_option_Ok in Ho as (T' & HT' & Hi). cbn in HT. unfold table in HT. rewrite HT' in HT. injection HT as ->.
  apply lookup_lt_Some in Hi. lia.
Qed.
Lemma free_stack_released stk : forall a a', (forall r, r ∈ stk -> r ∈ a_stack a) -> free_stack a stk = Ok a' ->
  released (fun t _ => bool_decide (Some t ∈ map (subtable (decls a)) stk)) a a'.
Proof.
  induction stk as [|r stk IH]; intros a a' Hs E; cbn [free_stack] in E.
  { injection E as <-. intros t i o E. cbn. done. }
  apply rbind_Ok in E as (s & Hsub & E). apply rbind_Ok in E as (a1 & E1 & E). destruct s as [t|]; [|done].
  assert (Hp : in_play a t) by (eapply sub_of_in_play; [|exact Hsub]; apply Hs; left).
  pose proof (free_options_steps _ _ _ Hp E1) as S1.
  apply free_options_released in E1.
  assert (D : decls a1 = decls a) by (by destruct S1).
  apply IH in E.
  2:{ intros r' Hr'. destruct (st_stack _ _ S1) as [more ->]. apply elem_of_app. left. apply Hs. by right. }
  pose proof (released_trans _ _ _ _ _ E1 E) as R. intros t' i o Ho. rewrite (R _ _ _ Ho). f_equal.
  match goal with |- (if ?b then _ else _) = (if ?c then _ else _) => assert (X : b = c) end; [|by rewrite X].
  apply eq_true_iff_eq. rewrite orb_true_iff, !bool_decide_eq_true, D. cbn [map]. rewrite elem_of_cons.
  assert (Es : subtable (decls a) r = Some t).
  { unfold sub_of in Hsub. apply rbind_Ok in Hsub as (o' & Ho' & Hsub). injection Hsub as Hsub.
    apply get_option_Ok in Ho' as (T' & HT' & Hi). unfold subtable, decls.
    rewrite list_lookup_fmap, HT'. cbn. rewrite list_lookup_fmap, Hi. cbn. done. }
  rewrite Es. split; (intros [?|?]; [left; congruence|by right]).
Qed.
Lemma argus_free_entries a a' : argus_free a = Ok a' ->
  a_root a' = a_root a /\ a_stack a' = a_stack a /\ a_err a' = a_err a /\ a_log a' = a_log a /\
  forall t i o, entry a t i o -> exists o', entry a' t i o' /\
    (in_play a t -> o' = freed o) /\ (~ in_play a t -> o' = o).
Proof.
  intros E. destruct (argus_free_err _ _ E) as (X1 & X2 & X3 & X4). split_and!; try done.
  unfold argus_free in E. apply rbind_Ok in E as (a1 & E1 & E).
  destruct (free_options_err _ _ _ E1) as (_ & _ & S1 & _).
  pose proof (free_options_steps _ _ _ (or_introl eq_refl) E1) as St.
  assert (D : decls a1 = decls a) by (by destruct St).
  apply free_options_released in E1. apply free_stack_released in E; [|done].
  pose proof (released_trans _ _ _ _ _ E1 E) as R. intros t i o Ho.
  assert (Hg : get_option a t i = Ok o) by (by apply get_option_Ok).
  specialize (R _ _ _ Hg). rewrite D, S1 in R. eexists. split; [by apply get_option_Ok|].
  match goal with |- context [if ?b then _ else _] => assert (X : b = true <-> in_play a t); [|destruct b] end.
  - rewrite orb_true_iff, !bool_decide_eq_true. unfold in_play. rewrite elem_of_list_fmap. split.
    + intros [->|(r & Er & Hr)]; [by left|right; eauto].
    + intros [->|(r & Hr & Er)]; [by left|right; eauto].
  - split; [done|]. intros N. exfalso. by apply N, X.
  - split; [|done]. intros N. apply X in N. done.
Qed.
