(** * Proofs about the whole of argus_parse *)
From Verif Require Import Validate Api LibProofs FrameProofs SpecGrammar GrammarProofs GrammarLemmas
  ActiveProofs SpecAfter AfterProofs EnvProofs CallProofs.
From Coq Require Import Lia.

Section libc.
Context `{Libc}.

Lemma set_err_same a : a_err a = 0 -> set_err a 0 = a.
Proof. destruct a; simpl. intros ->. done. Qed.

Lemma decls_named a a' : decls a' = decls a ->
  (forall t T, a_tabs a !! t = Some T -> all_named T) ->
  forall t T, a_tabs a' !! t = Some T -> all_named T.
Proof.
  intros Hd Hn t T' HT' o' Ho' Hg.
  assert (Hd' : decls a' !! t = decls a !! t) by congruence.
  unfold decls in Hd'. rewrite !list_lookup_fmap, HT' in Hd'.
  destruct (a_tabs a !! t) as [T|] eqn:ET; [|done]. simpl in Hd'. injection Hd' as Hd'.
  apply elem_of_list_lookup in Ho' as [i Hi].
  assert (Hi' : map decl_of T' !! i = map decl_of T !! i) by congruence.
  rewrite !list_lookup_fmap, Hi in Hi'. destruct (T !! i) as [o|] eqn:Ei; [|done].
  simpl in Hi'. injection Hi' as Hi'. rewrite Hi'.
  apply (Hn t T ET o); [by eapply elem_of_list_lookup_2|]. unfold group_entry in *. congruence.
Qed.

(** How argus_parse can end. *)
Lemma parse_ends a argv o a' : fresh a -> argus_parse a argv = Ok (o, a') ->
  exists its, reads (decls a) (a_root a) 0 false argv its /\
  ((exists a1, perform a its = Ok (1, a1) /\ o = Exited 0 /\ argus_free (set_err a1 1) = Ok a') \/
   (exists c a1, c <> 0 /\ c <> 1 /\ perform a its = Ok (c, a1) /\ o = Returned c /\
      argus_free (add_log (set_err a1 c) [EUsage]) = Ok a') \/
   (exists a1 c a2 a3, perform a its = Ok (0, a1) /\ c <> 0 /\ perform a1 (env_items a1) = Ok (c, a2) /\
      o = Returned c /\ load_env_vars a1 = Ok (c, a3) /\ a_err a3 = a_err a2 /\ argus_free a3 = Ok a') \/
   (exists a1 c a2 ev, perform a its = Ok (0, a1) /\ perform a1 (env_items a1) = Ok (0, a2) /\
      c <> 0 /\ first_problem a2 c /\ o = Returned c /\ argus_free (apply_events a2 ev) = Ok a' /\
      ((forall t i o, entry a2 t i o -> only_builtin o) -> a_err a' = c)) \/
   (exists a1, perform a its = Ok (0, a1) /\ perform a1 (env_items a1) = Ok (0, a') /\
      o = Returned 0 /\
      forall t, t ∈ tables_in_play a' -> exists T, a_tabs a' !! t = Some T /\ table_in_order (a_heap a') T)).
Proof.
  intros [Hst Herr HR HS Hac Hnm] E.
  destruct (reads_total _ _ 0%nat false argv HS HR) as [its Hr]. exists its. split; [done|].
  unfold argus_parse in E. rewrite (parse_reads _ _ _ _ _ _ HS HR Hr) in E.
  apply rbind_Ok in E as ([st a1] & Hp & E). cbv beta iota zeta in E.
  change SHOULD_EXIT with 1 in E. change SUCCESS with 0 in E.
  destruct (Z.eqb_spec st 1) as [->|H1].
  { left. apply rbind_Ok in E as (a2 & E2 & E). injection E as <- <-. eauto. }
  destruct (Z.eqb_spec st 0) as [->|H0]; cbn [negb] in E.
  2:{ right; left. apply rbind_Ok in E as (a2 & E2 & E). injection E as <- <-. eauto 10. }
  right; right.
  destruct (parsed_stack a argv its 0 a1 HS HR Hac Hst Hr Hp) as (Q1 & Q2 & Q3 & Q4 & Q5 & Q6 & Q7).
  assert (Herr1 : a_err a1 = 0) by (rewrite (perform_err _ _ _ Hp Q7); done).
  rewrite (set_err_same _ Herr1) in E, Q1, Q2.
  assert (HR1 : is_Some (decls a1 !! a_root a1)) by (by rewrite Q3, Q4).
  pose proof (load_env_vars_spec a1 HR1 Q1 Q2) as Henv.
  apply rbind_Ok in E as ([st a3] & Hl & E). cbv beta iota in E. rewrite Hl in Henv.
  destruct (perform a1 (env_items a1)) as [[st' a2]|] eqn:Ep; [|done].
  destruct Henv as [<- Henv].
  destruct (Z.eqb_spec st 0) as [->|Hne]; cbn [negb] in E.
  2:{ left. apply rbind_Ok in E as (a4 & E4 & E). injection E as <- <-.
      destruct Henv as (_ & _ & _ & He & _).
      exists a1, st, a2, a3. done. }
  subst a3. right.
  pose proof (perform_frame _ _ _ _ (env_of_calls _ _ _) Ep) as (F1 & F2 & F3 & F4 & _).
  apply rbind_Ok in E as ([st a3] & Hpo & E). cbv beta iota in E.
  apply post_spec in Hpo as [(-> & -> & _ & Hio)|(Hne & (ev & ->) & Hfp & Hbi)].
  - right. simpl in E. injection E as <- <-. eauto.
  - left. destruct (Z.eqb_spec st 0); [done|]. cbn [negb] in E.
    apply rbind_Ok in E as (a4 & E4 & E). injection E as <- <-.
    exists a1, st, a2, ev. split_and!; try done.
    intros Hb. apply argus_free_err in E4 as (-> & _). by apply Hbi.
  - eapply decls_named; [|exact Hnm]. congruence.
Qed.

(** Success. *)
Lemma parse_success a argv a' : fresh a -> argus_parse a argv = Ok (Returned 0, a') ->
  exists its, assigned a argv its /\ perform a its = Ok (0, a') /\ (forall c m, Reject c m ∉ its) /\
  decls a' = decls a /\ a_root a' = a_root a /\ a_prefix a' = a_prefix a /\ a_err a' = 0 /\
  a_stack a' = entered its /\
  (forall t, in_play a' t -> exists T, a_tabs a' !! t = Some T /\ table_in_order (a_heap a') T).
Proof.
  intros Hf E. pose proof Hf as [Hst Herr HR HS Hac Hnm].
  apply parse_ends in E; [|done].
  destruct E as (its & Hr & [(a1 & _ & ? & _)|[(c & a1 & ? & _ & _ & [= <-] & _)|
    [(a1 & c & a2 & a3 & _ & ? & _ & [= <-] & _)|[(a1 & c & a2 & ev & _ & _ & ? & _ & [= <-] & _)|
     (a1 & Hp & He & _ & Hio)]]]]); try done.
  destruct (parsed_stack a argv its 0 a1 HS HR Hac Hst Hr Hp) as (Q1 & Q2 & Q3 & Q4 & Q5 & Q6 & Q7).
  pose proof (perform_frame _ _ _ _ (env_of_calls _ _ _) He) as (F1 & F2 & F3 & F4 & _).
  assert (Hall : perform a (its ++ env_items a1) = Ok (0, a')).
  { rewrite perform_app by done. rewrite Hp. cbn [rbind]. done. }
  assert (Hrj : forall c m, Reject c m ∉ its ++ env_items a1).
  { intros c m Hc. apply elem_of_app in Hc as [Hc|Hc]; [by apply (Q7 c m)|].
    eapply calls_no_reject; [apply env_of_calls|]. exact Hc. }
  exists (its ++ env_items a1). split_and!; try done.
  - exists its, a1. done.
  - congruence.
  - congruence.
  - congruence.
  - rewrite (perform_err _ _ _ Hall Hrj). done.
  - destruct (perform_stack _ _ _ _ Hall Hrj) as (_ & _ & _ & -> & _); [|done]. by rewrite Hst.
  - intros t Ht. apply Hio. unfold tables_in_play. apply elem_of_cons.
    destruct Ht as [->|(r & Hr1 & Hr2)]; [by left|right]. apply elem_of_list_omap. eauto.
Qed.

(** The error of the final checks. *)
Lemma parse_first_problem a argv its a2 c o a' : fresh a ->
  assigned a argv its -> perform a its = Ok (0, a2) -> first_problem a2 c ->
  argus_parse a argv = Ok (o, a') -> o = Returned c /\ c <> 0.
Proof.
  intros Hf (its1 & a1 & Hr & Hp & ->) Hall Hfp E. pose proof Hf as [Hst Herr HR HS Hac Hnm].
  destruct (parsed_stack a argv its1 0 a1 HS HR Hac Hst Hr Hp) as (Q1 & Q2 & Q3 & Q4 & Q5 & Q6 & Q7).
  rewrite perform_app, Hp in Hall by done. cbn [rbind] in Hall.
  change (0 =? 0) with true in Hall. cbv iota in Hall.
  apply parse_ends in E as (its & Hr' & D); [|done].
  assert (its = its1) as -> by (by eapply reads_unique).
  rewrite Hp in D.
  pose proof (perform_frame _ _ _ _ (env_of_calls _ _ _) Hall) as (F1 & F2 & F3 & F4 & _).
  assert (Hnm2 : forall t T, a_tabs a2 !! t = Some T -> all_named T).
  { eapply decls_named; [|exact Hnm]. congruence. }
  destruct D as [(a0 & [=] & ? & _)|[(c0 & a0 & ? & _ & [= <- <-] & ? & _)|
    [(a0 & c0 & a3 & a4 & [= <-] & ? & E3 & _)|[(a0 & c0 & a3 & ev & [= <-] & E3 & Hc & Hfp' & -> & _)|
     (a0 & [= <-] & He & -> & Hio)]]]]; try done.
  - rewrite E3 in Hall. injection Hall as -> _. done.
  - rewrite E3 in Hall. injection Hall as ->. split; [|]; [f_equal|]; 
      assert (c0 = c) as -> by (by eapply first_problem_fun); done.
  - exfalso. rewrite He in Hall. injection Hall as ->.
    apply first_problem_not_in_order in Hfp as (t & Ht & Hn).
    destruct (Hio t Ht) as (T & HT & Hio'). by apply (Hn T HT).
Qed.
End libc.
