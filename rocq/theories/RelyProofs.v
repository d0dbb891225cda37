(** * What a program may rely on: proofs *)
From Verif Require Import Macros Validate Api LibProofs FrameProofs SpecGrammar GrammarProofs GrammarLemmas
  ActiveProofs AfterProofs EnvProofs CallProofs WholeProofs AfterFacts LookupProofs IsolationProofs MoreFacts.
From Verif Require Export SpecRely.

(** Paths lead to tables of the line. *)
Lemma relative_in_play a n t i stk : (forall r, r ∈ stk -> r ∈ a_stack a) ->
  find_from_relative a stk n = Ok (Some (t, i)) -> in_play a t.
Proof.
  induction stk as [|r stk IH]; intros Hs E; cbn [find_from_relative] in E.
  - apply rbind_Ok in E as (T & _ & E). destruct (find_option_by_name T n); [|done]. injection E as <- _. by left.
  - apply rbind_Ok in E as (s & Es & E). apply rbind_Ok in E as (T & _ & E).
    assert (find_from_relative a stk n = Ok (Some (t, i)) -> in_play a t) as IH'.
    { apply IH. intros r' Hr. apply Hs. by right. }
    destruct (find_option_by_name T n); [|by apply IH']. destruct s as [s|]; [|by apply IH'].
    injection E as <- _. eapply sub_of_in_play; [|exact Es]. apply Hs. by left.
Qed.
Lemma walk_in_play a n : forall stk c t t' c', (forall r, r ∈ stk -> r ∈ a_stack a) ->
  (forall x, t = Some x -> in_play a x) ->
  walk_path a stk c t n = Ok (Some (t', c')) -> forall x, t' = Some x -> in_play a x.
Proof.
  induction n as [|n IH]; intros stk c t t' c' Hs Ht E; cbn [walk_path] in E.
  - destruct stk; by injection E as <- _.
  - destruct stk as [|r stk]; cbn [walk_path] in E; (destruct (strchr c dot); [|by injection E as <- _]); [done|].
    apply rbind_Ok in E as (o & Eo & E). destruct (d_name (decl_of o)); [|done]. destruct (_ =? 0); [|done].
    eapply IH; [| |exact E].
    + intros r' Hr. apply Hs. by right.
    + intros x Hx. eapply (sub_of_in_play a r); [apply Hs; by left|]. unfold sub_of. rewrite Eo. cbn [rbind]. by rewrite Hx.
Qed.
Lemma found_in_play a p t i : find_option_by_active_path a p = Ok (Some (t, i)) -> in_play a t.
Proof.
  unfold find_option_by_active_path. destruct p as [p|]; [|done]. destruct (strchr p dot) as [[|k]|].
  - intros E. apply rbind_Ok in E as (T & _ & E). destruct (find_option_by_name _ _); [|done]. injection E as <- _. by left.
  - cbv zeta. destruct (_ <? _)%nat; [done|]. intros E. apply rbind_Ok in E as (w & Ew & E).
    destruct w as [[t0 c]|]; [|done]. apply rbind_Ok in E as (T & _ & E).
    destruct (find_option_by_name T c); [|done]. destruct t0 as [t0|]; [|done]. injection E as -> _.
    eapply (walk_in_play a _ _ _ _ _ _ ltac:(done)); [|exact Ew|done]. intros x [= <-]. by left.
  - apply relative_in_play. intros r Hr. by apply elem_of_list_In, in_rev, elem_of_list_In.
Qed.

Section rely.
Context `{Libc}.
Lemma relied a argv a' p t i e : fresh a -> argus_parse a argv = Ok (Returned 0, a') ->
  find_option_by_active_path a' p = Ok (Some (t, i)) -> declared_with a t i e -> v_order e = ORDER_POST ->
  argus_is_set a' p = Ok true ->
  exists o, argus_get a' p = Ok (value o, set_err a' 0) /\ argus_count a' p = Ok (value_count o) /\
    accepts_option (v_fun e) o (a_heap a').
Proof.
  intros Hf E Hp (T & d & HT & Hd & Hg & He) Ho Hs. pose proof (found_in_play _ _ _ _ Hp) as Hin.
  pose proof E as E0. apply parse_success in E0 as (its & _ & _ & _ & Hdecl & _); [|done].
  rewrite <- Hdecl in HT. destruct (decls_entry _ _ _ _ _ HT Hd) as (o & Hen & Ed).
  destruct (found_access _ _ _ _ _ Hp Hen) as (G1 & G2 & G3). rewrite G2 in Hs. injection Hs as Hs.
  exists o. split; [done|]. split; [done|].
  eapply validators_accept; try done.
  - unfold group_entry. by rewrite Ed.
  - unfold validators. by rewrite Ed.
Qed.
Lemma rely_range a argv a' p t i lo hi : fresh a -> argus_parse a argv = Ok (Returned 0, a') ->
  find_option_by_active_path a' p = Ok (Some (t, i)) -> declared_with a t i (V_RANGE lo hi) ->
  argus_is_set a' p = Ok true -> read_as a' p (fun x => exists n, as_int x = Ok n /\ lo <= n <= hi).
Proof.
  intros Hf E Hp Hd Hs. destruct (relied _ _ _ _ _ _ _ Hf E Hp Hd eq_refl Hs) as (o & G & _ & x & Hx).
  exists (value o). split; [done|]. by exists x.
Qed.
Lemma rely_length a argv a' p t i lo hi : fresh a -> argus_parse a argv = Ok (Returned 0, a') ->
  find_option_by_active_path a' p = Ok (Some (t, i)) -> declared_with a t i (V_LENGTH lo hi) ->
  argus_is_set a' p = Ok true ->
  read_as a' p (fun x => exists s, deref_str x (a_heap a') = Ok s /\ lo <= Z.of_nat (length s) <= hi).
Proof.
  intros Hf E Hp Hd Hs. destruct (relied _ _ _ _ _ _ _ Hf E Hp Hd eq_refl Hs) as (o & G & _ & s & _ & Es & _ & Hl).
  exists (value o). split; [done|]. by exists s.
Qed.
Lemma rely_count a argv a' p t i lo hi : fresh a -> argus_parse a argv = Ok (Returned 0, a') ->
  find_option_by_active_path a' p = Ok (Some (t, i)) -> declared_with a t i (V_COUNT lo hi) ->
  argus_is_set a' p = Ok true -> exists n, argus_count a' p = Ok n /\ lo <= Z.of_nat n <= hi.
Proof.
  intros Hf E Hp Hd Hs. destruct (relied _ _ _ _ _ _ _ Hf E Hp Hd eq_refl Hs) as (o & _ & G & _ & Hl).
  by exists (value_count o).
Qed.
Lemma rely_string a argv a' p t i l : fresh a -> argus_parse a argv = Ok (Returned 0, a') ->
  find_option_by_active_path a' p = Ok (Some (t, i)) -> declared_with a t i (V_CHOICE_STR l) ->
  argus_is_set a' p = Ok true -> read_as a' p (fun x => exists s, deref_str x (a_heap a') = Ok s /\ s ∈ l).
Proof.
  intros Hf E Hp Hd Hs. destruct (relied _ _ _ _ _ _ _ Hf E Hp Hd eq_refl Hs) as (o & G & _ & s & Hx).
  exists (value o). split; [done|]. by exists s.
Qed.
Lemma rely_int a argv a' p t i l : fresh a -> argus_parse a argv = Ok (Returned 0, a') ->
  find_option_by_active_path a' p = Ok (Some (t, i)) -> declared_with a t i (V_CHOICE_INT l) ->
  argus_is_set a' p = Ok true -> read_as a' p (fun x => exists n, as_int x = Ok n /\ n ∈ l).
Proof.
  intros Hf E Hp Hd Hs. destruct (relied _ _ _ _ _ _ _ Hf E Hp Hd eq_refl Hs) as (o & G & _ & x & Hx).
  exists (value o). split; [done|]. by exists x.
Qed.
Lemma rely_float a argv a' p t i l : fresh a -> argus_parse a argv = Ok (Returned 0, a') ->
  find_option_by_active_path a' p = Ok (Some (t, i)) -> declared_with a t i (V_CHOICE_FLOAT l) ->
  argus_is_set a' p = Ok true -> read_as a' p (fun x => exists f c, as_float x = Ok f /\ c ∈ l /\ feq f c = true).
Proof.
  intros Hf E Hp Hd Hs. destruct (relied _ _ _ _ _ _ _ Hf E Hp Hd eq_refl Hs) as (o & G & _ & x & c & Hx).
  exists (value o). split; [done|]. by exists x, c.
Qed.
End rely.
