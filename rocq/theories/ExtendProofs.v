(** * One more entry at the end of a table changes no accepted line (C77) *)
From Verif Require Import SpecExtend LibProofs FrameProofs GrammarProofs GrammarLemmas ActiveProofs EnvProofs.

(** ** The reading *)
Section reading.
Context (D : list (list decl)) (t : nat) (e : decl).
Hypothesis Ke : d_type e = TOption \/ d_type e = TGroup.
Definition more (T : list decl) (t' : nat) : list decl := if decide (t' = t) then T ++ [e] else T.
Definition D' : list (list decl) := alter (fun T => T ++ [e]) t D.

Lemma more_table t' T : D !! t' = Some T -> D' !! t' = Some (more T t').
Proof.
  intros HT. unfold D', more. destruct (decide (t' = t)) as [->|N].
  - by rewrite list_lookup_alter, HT.
  - by rewrite list_lookup_alter_ne.
Qed.
Lemma more_lookup T t' i d : T !! i = Some d -> more T t' !! i = Some d.
Proof. intros Hi. unfold more. case_decide; [|done]. by apply lookup_app_l_Some. Qed.
Lemma more_inv T t' i d : more T t' !! i = Some d -> T !! i = Some d \/ i = length T /\ d = e.
Proof.
  unfold more. case_decide; [|by left]. intros Hi. apply lookup_app_Some in Hi as [Hi|[L Hi]]; [by left|].
  right. destruct (i - length T)%nat eqn:Z; cbn in Hi; [|done]. injection Hi as <-. split; [lia|done].
Qed.
Lemma more_first P T t' i : first P T i -> first P (more T t') i.
Proof.
  intros (d & Hi & Hp & Hn). exists d. split; [by apply more_lookup|]. split; [done|].
  intros j y Hj Hy. apply more_inv in Hy as [Hy|[-> _]]; [by eapply Hn|].
  apply lookup_lt_Some in Hi. lia.
Qed.
Lemma more_before T t' i : (i <= length T)%nat -> positionals_before (more T t') i = positionals_before T i.
Proof. intros Hi. unfold positionals_before, more. case_decide; [|done]. by rewrite take_app_le. Qed.
Lemma more_receives T t' k i : receives T k i <-> receives (more T t') k i.
Proof.
  split.
  - intros (d & Hi & Hp & Hn & Hk). pose proof (lookup_lt_Some _ _ _ Hi). exists d.
    split; [by apply more_lookup|]. split; [done|]. split; [|rewrite more_before by lia; done].
    intros j y Hj Hy. apply more_inv in Hy as [Hy|[-> _]]; [by eapply Hn|]. lia.
  - intros (d & Hi & Hp & Hn & Hk). apply more_inv in Hi as [Hi|[_ ->]].
    2:{ unfold positional in Hp. destruct Ke; congruence. }
    pose proof (lookup_lt_Some _ _ _ Hi). rewrite more_before in Hk by lia. exists d. split; [done|]. split; [done|].
    split; [|done]. intros j y Hj Hy. eapply Hn; [exact Hj|]. by apply more_lookup.
Qed.
Lemma more_negative T t' k s : negative_for (more T t') k s -> negative_for T k s.
Proof.
  intros [Hs (i & d & Hi & Hd & Hn)]. split; [done|]. apply more_receives in Hi. exists i, d. split; [done|]. split; [|done].
  destruct Hi as (d' & Hd' & _). apply (more_lookup _ t') in Hd' as X. rewrite Hd in X. by injection X as ->.
Qed.
Lemma negative_more T t' k s : negative_for T k s -> negative_for (more T t') k s.
Proof.
  intros [Hs (i & d & Hi & Hd & Hn)]. split; [done|]. apply (more_receives _ t') in Hi. exists i, d.
  split; [done|]. split; [by apply more_lookup|done].
Qed.
Lemma more_selects T t' w i : selects T w i -> selects (more T t') w i.
Proof.
  intros [F X]. split; [by apply more_first|]. destruct X as [(d & Hd & Hx)|X].
  - left. exists d. split; [by apply more_lookup|done].
  - right. intros j d Hj Hm. apply more_inv in Hj as [Hj|[_ ->]]; [by eapply X|].
    destruct Hm as [Hm _]. destruct Ke; congruence.
Qed.
Lemma more_no_sub T t' w : no_subcommand T w -> no_subcommand (more T t') w.
Proof.
  intros N d Hd Hm. apply elem_of_list_lookup in Hd as [i Hi]. apply more_inv in Hi as [Hi|[_ ->]].
  - apply (N d); [|done]. by eapply elem_of_list_lookup_2.
  - destruct Hm as [Hm _]. destruct Ke; congruence.
Qed.
Lemma more_cluster T t0 t' rest cs its r : cluster T t0 rest cs its r -> (forall c m, Reject c m ∉ its) ->
  cluster (more T t') t0 rest cs its r.
Proof.
  induction 1; intros N.
  - constructor.
  - econstructor; [by apply more_first|by apply more_lookup|done|]. apply IHcluster. intros c0 m Hm. apply (N c0 m). by right.
  - econstructor; [by apply more_first|by apply more_lookup|done|done].
  - eapply cl_separate; [by apply more_first|by apply more_lookup|done|done].
  - destruct (N E_MISSING_VALUE (quoted_short $"Missing value for option: " c)). left.
  - destruct (N E_INVALID_ARGUMENT (quoted_short $"Unknown option: " c)). left.
Qed.
Lemma not_app its1 its2 : (forall c m, Reject c m ∉ its1 ++ its2) ->
  (forall c m, Reject c m ∉ its1) /\ (forall c m, Reject c m ∉ its2).
Proof. intros N. split; intros c m Hm; apply (N c m); apply elem_of_app; auto. Qed.
Lemma not_cons x its : (forall c m, Reject c m ∉ x :: its) -> forall c m, Reject c m ∉ its.
Proof. intros N c m Hm. apply (N c m). by right. Qed.

Lemma cluster_refused T t0 rest cs its : cluster T t0 rest cs its None -> exists c m, Reject c m ∈ its.
Proof.
  remember None as r eqn:Er. induction 1; try discriminate.
  - destruct (IHcluster Er) as (c' & m & Hm). exists c', m. by right.
  - do 2 eexists. left.
  - do 2 eexists. left.
Qed.

Lemma more_reads t0 k only argv its : reads D t0 k only argv its -> (forall c m, Reject c m ∉ its) ->
  reads D' t0 k only argv its.
Proof.
  induction 1; intros N;
    try (exfalso; eapply (N _ _); left).
  - constructor.
  - constructor. by apply IHreads.
  - econstructor; [by apply more_table|done|by apply more_receives|]. apply IHreads. by eapply not_cons.
  - eapply r_long_flag; [by apply more_table|done|done|done|by apply more_first|by apply more_lookup|done|].
    apply IHreads. by eapply not_cons.
  - eapply r_long_equal; [by apply more_table|done|by apply more_first|by apply more_lookup|done|].
    apply IHreads. by eapply not_cons.
  - eapply r_long_separate; [by apply more_table|done|done|by apply more_first|by apply more_lookup|done|].
    apply IHreads. by eapply not_cons.
  - eapply r_negative; [by apply more_table|by apply negative_more|by apply more_receives|].
    apply IHreads. by eapply not_cons.
  - apply not_app in N as [N1 N2]. eapply r_short; [by apply more_table|done| |by apply more_cluster|by apply IHreads].
    intros X. by apply more_negative in X.
  - apply cluster_refused in H2 as (c & m & Hm). destruct (N c m Hm).
  - eapply r_sub; [by apply more_table|done|by apply more_selects|by apply more_lookup|done|].
    apply IHreads. by eapply not_cons.
  - eapply r_word; [by apply more_table|done|by apply more_no_sub|by apply more_receives|].
    apply IHreads. by eapply not_cons.
Qed.
End reading.
