(** * The error code of a context is the code of the last message (C37) *)
From Verif Require Import SpecTold LibProofs FrameProofs GrammarLemmas ToldProofs.

Section libc.
Context `{Libc}.

Definition coded (a b : argus) : Prop :=
  exists l, a_log b = a_log a ++ l /\ a_err b = default (a_err a) (last (messages l)).
Lemma coded_refl a : coded a a.
Proof. exists []. by rewrite app_nil_r. Qed.
Lemma coded_trans a b c : coded a b -> coded b c -> coded a c.
Proof.
  intros (l & L & E) (l' & L' & E'). exists (l ++ l'). rewrite L', L, app_assoc. split; [done|].
  rewrite E', E, messages_app, last_app. by destruct (last (messages l')).
Qed.
Lemma coded_events l : forall a, coded a (apply_events a l).
Proof.
  induction l as [|e l IH]; intros a; [apply coded_refl|]. unfold apply_events. cbn [fold_left].
  apply (coded_trans _ (apply_event a e)); [|apply IH]. exists [e]. by destruct e.
Qed.
Lemma coded_same a b : a_log b = a_log a -> a_err b = a_err a -> coded a b.
Proof. intros L E. exists []. by rewrite app_nil_r. Qed.

Lemma execute_coded a t i v st a' : execute_callbacks a t i v = Ok (st, a') -> coded a a'.
Proof.
  intros E. unfold execute_callbacks in E. apply rbind_Ok in E as (o & Ho & E).
  destruct (d_handler (decl_of o)) as [f|].
  2:{ injection E as <- <-. eexists [EDiag _ _]. split; done. }
  apply rbind_Ok in E as ([st1 ev] & Hv & E). cbv beta iota in E.
  destruct (negb (st1 =? SUCCESS)); [injection E as <- <-; apply coded_events|].
  apply rbind_Ok in E as (act & _ & E). apply rbind_Ok in E as ([st2 s] & Hs & E). cbv beta iota in E.
  set (a2 := apply_events _ (h_log s)) in *.
  assert (C2 : coded a a2).
  { eapply coded_trans; [apply (coded_events ev)|]. eapply coded_trans; [|apply coded_events].
    by apply coded_same. }
  destruct (negb (st2 =? SUCCESS)); [injection E as <- <-; exact C2|].
  apply rbind_Ok in E as (o2 & Ho2 & E).
  destruct (has _ FLAG_EXIT); injection E as <- <-; (eapply coded_trans; [exact C2|by apply coded_same]).
Qed.
Lemma env_coded n : forall a t i st a', load_env_from a t i n = Ok (st, a') -> coded a a'.
Proof.
  induction n as [|n IH]; intros a t i st a'; cbn [load_env_from]; [intros [= <- <-]; apply coded_refl|].
  intros E. apply rbind_Ok in E as (o & Ho & E). destruct (_ || _); [by eapply IH|]. destruct (_ && _); [by eapply IH|].
  destruct (get_env_var_name _ _); [|by eapply IH]. destruct (getenv _) as [v|]; [|by eapply IH].
  apply rbind_Ok in E as ([st1 a1] & E1 & E). apply execute_coded in E1.
  destruct (st1 =? SUCCESS); [eapply coded_trans; [exact E1|by eapply IH]|].
  destruct (is_set o); [|by injection E as <- <-].
  apply rbind_Ok in E as (o1 & Ho1 & E). injection E as <- <-.
  eapply coded_trans; [exact E1|by apply coded_same].
Qed.
Lemma env_stack_coded stk : forall a st a', load_env_stack a stk = Ok (st, a') -> coded a a'.
Proof.
  induction stk as [|r stk IH]; intros a st a'; cbn [load_env_stack]; [intros [= <- <-]; apply coded_refl|].
  intros E. apply rbind_Ok in E as (s & _ & E). destruct s as [t|]; [|by eapply IH].
  apply rbind_Ok in E as ([st1 a1] & E1 & E). unfold load_env in E1. apply rbind_Ok in E1 as (T & _ & E1).
  apply env_coded in E1. destruct (st1 =? SUCCESS); [eapply coded_trans; [exact E1|by eapply IH]|by injection E as <- <-].
Qed.
Lemma env_vars_coded a st a' : load_env_vars a = Ok (st, a') -> coded a a'.
Proof.
  intros E. unfold load_env_vars, load_env in E. apply rbind_Ok in E as ([st1 a1] & E1 & E).
  apply rbind_Ok in E1 as (T & _ & E1). apply env_coded in E1.
  destruct (st1 =? SUCCESS); [eapply coded_trans; [exact E1|by eapply env_stack_coded]|by injection E as <- <-].
Qed.
Lemma table_coded a tp st a' : validate_table a tp = Ok (st, a') -> coded a a'.
Proof.
  intros E. unfold validate_table in E. apply rbind_Ok in E as (T & HT & E).
  apply rbind_Ok in E as ([st1 ev] & E1 & E). injection E as <- <-. apply coded_events.
Qed.
Lemma stack_coded stk : forall a st a', validate_stack a stk = Ok (st, a') -> coded a a'.
Proof.
  induction stk as [|r stk IH]; intros a st a'; cbn [validate_stack]; [intros [= <- <-]; apply coded_refl|].
  intros E. apply rbind_Ok in E as (s & _ & E). apply rbind_Ok in E as ([st1 a1] & E1 & E).
  apply table_coded in E1. destruct (st1 =? SUCCESS); [eapply coded_trans; [exact E1|by eapply IH]|by injection E as <- <-].
Qed.
Lemma post_coded a st a' : post_parse_validation a = Ok (st, a') -> coded a a'.
Proof.
  intros E. unfold post_parse_validation in E. apply rbind_Ok in E as ([st1 a1] & E1 & E).
  apply table_coded in E1. destruct (st1 =? SUCCESS); [eapply coded_trans; [exact E1|by eapply stack_coded]|by injection E as <- <-].
Qed.

Lemma explained_code a b l st : coded a b -> a_log b = a_log a ++ l -> explained st l -> a_err a = 0 -> st <> 26 ->
  a_err b = st \/ st = 1 /\ a_err b = 0.
Proof.
  intros (l' & L & E) L' [X0 X1] Ha N. rewrite L in L'. apply app_inv_head in L' as ->. rewrite E, Ha.
  destruct (decide (st = 0)) as [->|N0]; [rewrite X0 by auto; by left|].
  destruct (decide (st = 1)) as [->|N1]; [rewrite X0 by auto; by right|].
  rewrite X1 by done. by left.
Qed.

Lemma parse_code a argv c a' : library_only (decls a) -> argus_parse a argv = Ok (Returned c, a') -> c <> 26 ->
  a_err a' = c \/ c = 1 /\ a_err a' = 0.
Proof.
  intros Hl E N. unfold argus_parse in E. apply rbind_Ok in E as ([st a1] & E1 & E).
  apply (parse_goes _ _ (le_n _)) in E1 as [D1 _]; [|done]. cbv beta iota zeta in E.
  change SHOULD_EXIT with 1 in E. change SUCCESS with 0 in E.
  destruct (Z.eqb_spec st 1) as [->|N1]; [by apply rbind_Ok in E as (a2 & E2 & E)|].
  destruct (Z.eqb_spec st 0) as [->|N0]; cbn [negb] in E.
  2:{ apply rbind_Ok in E as (a2 & E2 & E). injection E as -> ->. apply argus_free_err in E2 as (-> & _). by left. }
  apply rbind_Ok in E as ([st2 a2] & E2 & E). pose proof (env_vars_coded _ _ _ E2) as C2.
  apply env_vars_goes in E2 as [D2 (l2 & L2 & X2)]; [|change (library_only (decls a1)); by rewrite D1].
  change (decls (set_err a1 0)) with (decls a1) in D2.
  destruct (Z.eqb_spec st2 0) as [->|N2]; cbn [negb] in E.
  2:{ apply rbind_Ok in E as (a3 & E3 & E). injection E as -> ->. apply argus_free_err in E3 as (-> & _).
      by eapply explained_code. }
  destruct (explained_code _ _ _ _ C2 L2 X2) as [R2|[[=] _]]; [done..|].
  apply rbind_Ok in E as ([st3 a3] & E3 & E). pose proof (post_coded _ _ _ E3) as C3.
  apply post_goes in E3 as [D3 (l3 & L3 & X3)]; [|by rewrite D2, D1].
  destruct (Z.eqb_spec st3 0) as [->|N3]; cbn [negb] in E.
  - injection E as <- ->. by eapply explained_code.
  - apply rbind_Ok in E as (a4 & E4 & E). injection E as -> ->. apply argus_free_err in E4 as (-> & _).
    by eapply explained_code.
Qed.
End libc.
