(** * Facts about single validators and calls, and integer and boolean options *)
From Verif Require Import Validate Api LibProofs FrameProofs SpecGrammar GrammarProofs GrammarLemmas
  ActiveProofs SpecAfter AfterProofs EnvProofs CallProofs WholeProofs SpecValues ValueProofs AfterFacts
  LookupProofs MoreFacts.
From Coq Require Import Lia.

Section libc.
Context `{Libc}.

Lemma decided f o h (P : Prop) : (exists r, run_validator f (ArgOption o) h = Ok r) ->
  (accepts_option f o h <-> P) ->
  exists st ev, run_validator f (ArgOption o) h = Ok (st, ev) /\ (st = 0 <-> P).
Proof.
  intros [[st ev] E] HP. exists st, ev. split; [done|]. rewrite <- HP.
  apply run_post in E as [(-> & Ha & _)|(Hne & [Hna _] & _)]; done.
Qed.
Lemma range_decides lo hi o h n : value o = of_int64 n -> - 2 ^ 31 <= n < 2 ^ 31 ->
  exists st ev, run_validator (VRange lo hi) (ArgOption o) h = Ok (st, ev) /\ (st = 0 <-> lo <= n <= hi).
Proof.
  intros Hv Hn. pose proof (of_int64_as_int n Hn) as Hi. rewrite <- Hv in Hi. apply decided.
  - simpl. unfold range_validator. rewrite Hi. cbn [rbind]. destruct (_ <? _); [eauto|]. destruct (_ || _); eauto.
  - simpl. rewrite Hi. split; [|eauto]. intros (x & [= <-] & ?). done.
Qed.
Lemma choice_int_decides l o h n : value o = of_int64 n -> - 2 ^ 31 <= n < 2 ^ 31 ->
  exists st ev, run_validator (VChoicesInt l) (ArgOption o) h = Ok (st, ev) /\ (st = 0 <-> n ∈ l).
Proof.
  intros Hv Hn. pose proof (of_int64_as_int n Hn) as Hi. rewrite <- Hv in Hi. apply decided.
  - simpl. unfold choices_int_validator. rewrite Hi. cbn [rbind]. destruct (existsb _ _); eauto.
  - simpl. rewrite Hi. split; [|eauto]. intros (x & [= <-] & ?). done.
Qed.
Lemma length_decides lo hi o h s : value o = PLit s ->
  exists st ev, run_validator (VLength lo hi) (ArgOption o) h = Ok (st, ev) /\
    (st = 0 <-> 0 <= lo /\ lo <= Z.of_nat (length s) <= hi).
Proof.
  intros Hv. apply decided.
  - simpl. unfold length_validator. rewrite Hv. cbn. destruct (_ || _); [eauto|].
    destruct (_ <? _); [eauto|]. destruct (_ || _); eauto.
  - simpl. rewrite Hv. split; [|eauto 6]. intros (x & _ & [= <-] & ?). done.
Qed.
Lemma count_decides lo hi o h :
  exists st ev, run_validator (VCount lo hi) (ArgOption o) h = Ok (st, ev) /\
    (st = 0 <-> 0 <= lo /\ lo <= Z.of_nat (value_count o) <= hi).
Proof.
  apply decided; [|done]. simpl. unfold count_validator. destruct (_ || _); [eauto|].
  destruct (_ <? _); [eauto|]. destruct (_ || _); eauto.
Qed.
Lemma choice_str_decides l o h s : value o = PLit s ->
  exists st ev, run_validator (VChoicesStr l) (ArgOption o) h = Ok (st, ev) /\ (st = 0 <-> s ∈ l).
Proof.
  intros Hv. apply decided.
  - simpl. unfold choices_string_validator. rewrite Hv. cbn. destruct (existsb _ _); eauto.
  - simpl. rewrite Hv. split; [|eauto]. intros (x & [= <-] & ?). done.
Qed.

(** ** Integer options *)
Lemma integer_read f n x : f = HInt -> denoted f (Some (decimal_text n)) x ->
  as_int64 x = Ok (saturated n) /\ (- 2 ^ 31 <= n < 2 ^ 31 -> as_int x = Ok n).
Proof.
  intros -> Hd. inversion Hd; subst.
  pose proof (strtoll_decimal n [] I) as E. rewrite app_nil_r in E. rewrite E. cbn [fst].
  split; [apply of_int64_as, saturated_range|]. intros Hn. rewrite saturated_id by lia. by apply of_int64_as_int.
Qed.
Lemma integer_last a argv a' its1 its2 t i n T d p :
  fresh a -> argus_parse a argv = Ok (Returned 0, a') ->
  assigned a argv (its1 ++ Call t i (Some (decimal_text n)) :: its2) ->
  (forall x, x ∈ its2 -> ~ touches t i x) ->
  decls a !! t = Some T -> T !! i = Some d -> d_handler d = Some HInt ->
  find_option_by_active_path a' p = Ok (Some (t, i)) ->
  exists x, argus_get a' p = Ok (x, set_err a' 0) /\ as_int64 x = Ok (saturated n) /\
    (- 2 ^ 63 <= n < 2 ^ 63 -> as_int64 x = Ok n) /\
    (- 2 ^ 31 <= n < 2 ^ 31 -> as_int x = Ok n).
Proof.
  intros Hf E Ha Hn HT Hd Hh Hp.
  destruct (last_wins _ _ _ _ _ _ _ _ _ _ _ Hf E Ha Hn HT Hd Hh) as (x & o' & Hx & Ho & Hv).
  { unfold scalar. auto. }
  destruct (found_access _ _ _ _ _ Hp Ho) as (Hg & _). exists x. rewrite Hg, Hv. split; [done|].
  destruct (integer_read _ _ _ eq_refl Hx) as [H1 H2]. split; [done|]. split; [|done].
  intros Hr. rewrite <- (saturated_id n) by done. done.
Qed.

(** ** Boolean options *)
Lemma bool_last a argv a' its1 its2 t i w T d p :
  fresh a -> argus_parse a argv = Ok (Returned 0, a') ->
  assigned a argv (its1 ++ Call t i (Some w) :: its2) ->
  (forall x, x ∈ its2 -> ~ touches t i x) ->
  decls a !! t = Some T -> T !! i = Some d -> d_handler d = Some HBool ->
  find_option_by_active_path a' p = Ok (Some (t, i)) ->
  exists x b, argus_get a' p = Ok (x, set_err a' 0) /\ bool_word w b /\ as_bool x = Ok b.
Proof.
  intros Hf E Ha Hn HT Hd Hh Hp.
  destruct (last_wins _ _ _ _ _ _ _ _ _ _ _ Hf E Ha Hn HT Hd Hh) as (x & o' & Hx & Ho & Hv).
  { unfold scalar. auto. }
  destruct (found_access _ _ _ _ _ Hp Ho) as (Hg & _). inversion Hx; subst.
  exists (value o'), b. split; [done|]. split; [done|]. rewrite <- H3. by destruct b.
Qed.
Lemma bool_call_refused a t i w o : get_option a t i = Ok o -> d_handler (decl_of o) = Some HBool ->
  d_validators (decl_of o) = None -> well_stacked a ->
  (forall b, ~ bool_word w b) ->
  exists a', execute_callbacks a t i (Some w) = Ok (12, a') /\ a_tabs a' = a_tabs a /\
    a_heap a' = a_heap a /\ a_err a' = 12.
Proof.
  intros Ho Hh Hval Hw Hb. unfold execute_callbacks. rewrite Ho. cbn [rbind]. rewrite Hh, Hval. cbn [rbind].
  change (apply_events a []) with a.
  assert (Hact : exists act, get_active_options a = Ok act).
  { unfold get_active_options. destruct (last (a_stack a)) as [r|] eqn:El; [|eauto].
    apply last_lookup_in in El. destruct (well_stacked_sub a Hw r El) as (t' & Ht & _).
    rewrite (sub_of_subtable _ _ _ Ht). eauto. }
  destruct Hact as [act Hact]. change (SUCCESS =? SUCCESS) with true. cbn [negb]. rewrite Hact. cbn [rbind].
  rewrite (bool_refused w _ _ Hb). cbn [rbind h_opt h_heap h_log].
  eexists. split; [reflexivity|].
  apply get_option_Ok in Ho as (T & HT & Hi). split_and!; try done.
  change (a_tabs (put_option a t i o) = a_tabs a). unfold put_option. cbn [set_tabs a_tabs].
  apply list_eq. intros k. destruct (decide (k = t)) as [->|].
  - rewrite list_lookup_alter, HT. cbn. by rewrite list_insert_id.
  - by rewrite list_lookup_alter_ne.
Qed.
End libc.
