(** * Which variables of the environment a parse may read: proofs *)
From Verif Require Import Validate Api LibProofs FrameProofs SpecGrammar GrammarProofs GrammarLemmas
  ActiveProofs SpecAfter AfterProofs EnvProofs CallProofs WholeProofs SpecValues ValueProofs AfterFacts
  SpecEnvironment EnvLineProofs SpecListen.
From Coq Require Import Lia.

(** What the environment does not touch *)
Lemma execute_same L L' a t i v : same_but_environment L L' ->
  execute_callbacks (H := L) a t i v = execute_callbacks (H := L') a t i v.
Proof. intros E. rewrite <- (execute_unset L), <- (execute_unset L'). by rewrite E. Qed.
Lemma perform_same L L' a its : same_but_environment L L' ->
  perform (H := L) a its = perform (H := L') a its.
Proof. intros E. rewrite <- (perform_unset L), <- (perform_unset L'). by rewrite E. Qed.
Lemma ending_same L L' a : same_but_environment L L' -> ending (H := L) a = ending (H := L') a.
Proof. intros E. rewrite <- (ending_unset L), <- (ending_unset L'). by rewrite E. Qed.

(** While variables are read, an entry that is not set was not set before. *)
Record later (a a' : argus) : Prop := Later {
  la_decls : decls a' = decls a;
  la_prefix : a_prefix a' = a_prefix a;
  la_stack : a_stack a' = a_stack a;
  la_root : a_root a' = a_root a;
  la_unset : forall t i o', entry a' t i o' -> is_set o' = false -> entry a t i o' }.
Lemma later_refl a : later a a.
Proof. by split. Qed.
Lemma later_trans a a' a'' : later a a' -> later a' a'' -> later a a''.
Proof. intros [] []. split; try congruence. eauto. Qed.
Lemma later_call `{Libc} a t i v a' : execute_callbacks a t i v = Ok (0, a') -> later a a'.
Proof.
  intros E. pose proof (execute_callbacks_frame _ _ _ _ _ _ E) as [F1 F2 F3 F4 F5].
  apply call_ok in E as (o1 & f & act & s & Hg & _ & _ & _ & _ & _ & Hg' & _).
  split; try done. intros t' i' o' Ho' Hs. destruct (decide ((t', i') = (t, i))) as [[= -> ->]|Hne].
  - apply entry_get in Hg'. rewrite (entry_fun _ _ _ _ _ Ho' Hg') in Hs.
    unfold marked in Hs. simpl in Hs. by destruct (_ =? 0)%nat.
  - apply entry_get. rewrite <- F5 by done. by apply entry_get.
Qed.

Section two.
Context (L L' : Libc) (HL : same_but_environment L L').

(** [a] is the context when the line has been read *)
Definition open (a : argus) (t : nat) (n : cstr) : Prop :=
  exists i o, entry a t i o /\ (d_type (decl_of o) = TOption \/ d_type (decl_of o) = TPositional) /\
    (flag 6 o \/ is_set o = false) /\ env_variable (a_prefix a) (decl_of o) = Some n.
Definition agree (a : argus) (t : nat) : Prop :=
  forall n, open a t n -> getenv (Libc := L) n = getenv (Libc := L') n.

Lemma later_open a a' t n : later a a' -> open a' t n -> open a t n.
Proof.
  intros [D P _ _ U] (i & o' & Ho & Hty & Hs & Hn).
  destruct (is_set o') eqn:Es.
  - destruct Hs as [Hf|]; [|done].
    destruct (entry_same_decl a' a t i o' (eq_sym D) Ho) as (o & Ho0 & Hd). exists i, o. split; [done|].
    unfold flag in *. rewrite Hd, <- P. eauto.
  - exists i, o'. rewrite <- P. specialize (U _ _ _ Ho Es). split; [done|]. eauto.
Qed.
Lemma later_agree a a' t : later a a' -> agree a t -> agree a' t.
Proof. intros HLa Hag n Hn. apply Hag. by eapply later_open. Qed.

Lemma load_from_same t n : forall a i, agree a t ->
  load_env_from (H := L) a t i n = load_env_from (H := L') a t i n /\
  forall a', load_env_from (H := L) a t i n = Ok (0, a') -> later a a'.
Proof.
  induction n as [|n IH]; intros a i Hag; cbn [load_env_from].
  { split; [done|]. intros a' [= <-]. apply later_refl. }
  destruct (get_option a t i) as [o|] eqn:Hget; [|done]. cbn [rbind].
  destruct (is_type TGroup o || is_type TSubcommand o) eqn:Ety; [by apply IH|].
  destruct (is_set o && negb (has (d_flags (decl_of o)) FLAG_ENV_OVERRIDE)) eqn:Es; [by apply IH|].
  destruct (get_env_var_name (a_prefix a) (decl_of o)) as [nm|] eqn:En; [|by apply IH].
  assert (Eg : getenv (Libc := L) nm = getenv (Libc := L') nm).
  { apply Hag. exists i, o. split; [by apply entry_get|]. unfold is_type in Ety. split_and!.
    - destruct (d_type (decl_of o)); try done; auto.
    - unfold flag. rewrite <- override_dec. destruct (is_set o); [left|by right].
      by destruct (has _ _).
    - by rewrite env_variable_eq. }
  rewrite <- Eg. destruct (getenv nm) as [v|]; [|by apply IH].
  rewrite <- (execute_same L L' a t i (Some v) HL).
  destruct (execute_callbacks (H := L) a t i (Some v)) as [[st a1]|] eqn:Ex; [|done]. cbn [rbind].
  change SUCCESS with 0. destruct (Z.eqb_spec st 0) as [->|Hst].
  - pose proof (later_call (H := L) _ _ _ _ _ Ex) as Hla.
    destruct (IH a1 (S i) (later_agree _ _ _ Hla Hag)) as [E1 E2]. split; [done|].
    intros a' E. eapply later_trans; [exact Hla|by apply E2].
  - split; [done|]. intros a' E. destruct (is_set o); [|congruence].
    destruct (get_option a1 t i); [|done]. cbn [rbind] in E. congruence.
Qed.
Lemma load_same a t : agree a t ->
  load_env (H := L) a t = load_env (H := L') a t /\ forall a', load_env (H := L) a t = Ok (0, a') -> later a a'.
Proof.
  intros Hag. unfold load_env. destruct (table a t); [|done]. cbn [rbind]. by apply load_from_same.
Qed.
Lemma load_stack_same stk : forall a,
  (forall r t, r ∈ stk -> subtable (decls a) r = Some t -> agree a t) ->
  load_env_stack (H := L) a stk = load_env_stack (H := L') a stk.
Proof.
  induction stk as [|r stk IH]; intros a Hag; [done|]. cbn [load_env_stack].
  destruct (sub_of a r) as [[t|]|] eqn:Es; cbn [rbind]; [| |done].
  2:{ apply IH. intros r' t' Hr. apply Hag. by right. }
  assert (Ht : subtable (decls a) r = Some t).
  { rewrite sub_of_decls in Es. unfold subtable. destruct (decls a !! fst r) as [T|]; [|done].
    destruct (T !! snd r); [|done]. congruence. }
  destruct (load_same a t) as [E1 E2]; [apply (Hag r); [left|done]|]. rewrite <- E1.
  destruct (load_env (H := L) a t) as [[st a']|]; [|done]. cbn [rbind].
  change SUCCESS with 0. destruct (Z.eqb_spec st 0) as [->|]; [|done].
  specialize (E2 a' eq_refl). apply IH. intros r' t' Hr Ht'. eapply later_agree; [exact E2|].
  rewrite (la_decls _ _ E2) in Ht'. apply (Hag r'); [by right|done].
Qed.
Lemma load_vars_same a :
  agree a (a_root a) -> (forall r t, r ∈ a_stack a -> subtable (decls a) r = Some t -> agree a t) ->
  load_env_vars (H := L) a = load_env_vars (H := L') a.
Proof.
  intros Hr Hs. unfold load_env_vars. destruct (load_same a (a_root a) Hr) as [E1 E2]. rewrite <- E1.
  destruct (load_env (H := L) a (a_root a)) as [[st a']|]; [|done]. cbn [rbind].
  change SUCCESS with 0. destruct (Z.eqb_spec st 0) as [->|]; [|done].
  specialize (E2 a' eq_refl). apply load_stack_same. intros r t Hin Ht. eapply later_agree; [exact E2|].
  rewrite (la_decls _ _ E2) in Ht. rewrite (la_stack _ _ E2) in Hin. by apply (Hs r).
Qed.

Lemma only_declared a argv its :
  fresh a -> reads (decls a) (a_root a) 0 false argv its ->
  (forall n, listens a its n -> getenv (Libc := L) n = getenv (Libc := L') n) ->
  argus_parse (H := L) a argv = argus_parse (H := L') a argv.
Proof.
  intros [Hst Herr HR HS Hac Hnm] Hr Hag. unfold argus_parse.
  rewrite (parse_reads (H := L) _ _ _ _ _ _ HS HR Hr), (parse_reads (H := L') _ _ _ _ _ _ HS HR Hr).
  rewrite <- (perform_same L L' a its HL).
  destruct (perform (H := L) a its) as [[st a1]|] eqn:Hp; [|done]. cbn [rbind]. cbv beta iota zeta.
  destruct (st =? SHOULD_EXIT); [done|].
  destruct (Z.eqb_spec st SUCCESS) as [->|Hne]; cbn [negb]; [|done].
  change SUCCESS with 0 in *.
  destruct (parsed_stack (H := L) a argv its 0 a1 HS HR Hac Hst Hr Hp) as (Q1 & Q2 & Q3 & Q4 & Q5 & Q6 & Q7).
  assert (Ha : forall t, used a its t -> agree (set_err a1 0) t).
  { intros t Hu n (i & o & Ho & Hty & Hs & Hn). apply Hag.
    change (entry a1 t i o) in Ho. change (a_prefix (set_err a1 0)) with (a_prefix a1) in Hn. rewrite Q6 in Hn.
    destruct (entry_same_decl a1 a t i o (eq_sym Q4) Ho) as (o0 & Ho0 & Hd).
    exists t, i, o0. split_and!; try done; try (by rewrite Hd).
    destruct Hs as [Hs|Hs]; [left; unfold flag; by rewrite Hd|].
    pose proof (perform_marks (H := L) its a a1 t i o0 o Hp Q7 Ho0 Ho) as HM.
    destruct (is_set o0) eqn:E0.
    { rewrite (proj2 HM) in Hs by (by left). done. }
    right. split; [done|]. intros x Hx Ht. rewrite (proj2 HM) in Hs; [done|]. right. eauto. }
  assert (Hroot : a_root (set_err a1 0) = a_root a) by exact Q3.
  rewrite (load_vars_same (set_err a1 0)).
  - destruct (load_env_vars (H := L') (set_err a1 0)) as [[st a2]|]; [|done]. cbn [rbind].
    destruct (negb (st =? 0)); [done|]. exact (ending_same L L' a2 HL).
  - rewrite Hroot. apply Ha. by left.
  - intros r t Hin Ht. apply Ha. right. exists r.
    change (r ∈ a_stack a1) in Hin. change (subtable (decls a1) r = Some t) in Ht.
    by rewrite Q5 in Hin; rewrite Q4 in Ht.
Qed.
End two.

(** ** The program's own names *)
Lemma take_begins {A} (p l : list A) k : (length p <= k)%nat -> p `prefix_of` l -> p `prefix_of` take k l.
Proof. intros Hk [r ->]. rewrite take_app_ge by done. by eexists. Qed.
Lemma map_begins {A B} (f : A -> B) (p l : list A) : p `prefix_of` l -> map f p `prefix_of` map f l.
Proof. intros [r ->]. rewrite map_app. by eexists. Qed.
Lemma prefixed_begins p n : p `prefix_of` prefixed (Some p) n.
Proof. unfold prefixed. destruct p as [|c p]; [by eexists|]. case_bool_decide; by eexists. Qed.
Lemma variable_begins p d n : (length p <= 127)%nat -> N.testbit (d_flags d) 8 = false ->
  env_variable (Some p) d = Some n -> p `prefix_of` n \/ map upper_case p `prefix_of` n.
Proof.
  intros Hp Hf. unfold env_variable. rewrite Hf. destruct (d_env_name d) as [e|].
  - simpl orb. unfold has_prefix. case_bool_decide as E; intros [= <-]; [by left|].
    left. apply take_begins; [done|apply prefixed_begins].
  - destruct (N.testbit (d_flags d) 7); intros [= <-]. right. apply map_begins, take_begins; [done|apply prefixed_begins].
Qed.
Lemma own_names L L' a argv its p :
  same_but_environment L L' -> fresh a -> reads (decls a) (a_root a) 0 false argv its ->
  a_prefix a = Some p -> (length p <= 127)%nat ->
  (forall t i o, used a its t -> entry a t i o -> ~ flag 8 o) ->
  (forall n, p `prefix_of` n \/ map upper_case p `prefix_of` n ->
    getenv (Libc := L) n = getenv (Libc := L') n) ->
  argus_parse (H := L) a argv = argus_parse (H := L') a argv.
Proof.
  intros HL Hf Hr Hp Hl H8 Hag. apply (only_declared L L' HL a argv its Hf Hr).
  intros n (t & i & o & Hu & Ho & _ & _ & Hn). apply Hag. rewrite Hp in Hn.
  eapply variable_begins; [done| |exact Hn]. specialize (H8 t i o Hu Ho). unfold flag in H8.
  by apply not_true_is_false.
Qed.
