(** * Calling a command by the words of its path: proofs *)
From Verif Require Import Macros Validate Api LibProofs FrameProofs SpecGrammar GrammarProofs GrammarLemmas
  ActiveProofs AfterProofs EnvProofs CallProofs WholeProofs AfterFacts MoreFacts.
From Verif Require Import Display CommandProofs.
From Coq Require Import Lia.
From Verif Require Export SpecTyped.

Lemma callable_selects T w i d : callable T w i d -> selects T w i.
Proof.
  intros (Hd & Ht & Hn & _ & Hb). split.
  - exists d. split; [done|]. split; [split; [done|]; exists []; by rewrite app_nil_r|].
    intros j e Hj He [Hte [r Hr]]. by eapply Hb.
  - left. exists d. by repeat split.
Qed.
Lemma names_read D t ws rs d t' post its : names D t ws rs d t' -> reads D t' 0 false post its ->
  exists its', reads D t 0 false (ws ++ post) its' /\ entered its' = rs ++ entered its.
Proof.
  intros Hn Hr. induction Hn as [t T w i d t' HT Hc Hs|t T w i d t' ws rs d' t'' HT Hc Hs Hn IH].
  - exists (Enter t i :: its). split; [|done]. cbn [app].
    eapply r_sub; [exact HT|apply Hc|by eapply callable_selects|apply Hc|exact Hs|exact Hr].
  - destruct (IH Hr) as (its' & H1 & H2). exists (Enter t i :: its'). split.
    + cbn [app]. eapply r_sub; [exact HT|apply Hc|by eapply callable_selects|apply Hc|exact Hs|exact H1].
    + cbn. f_equal. exact H2.
Qed.
Lemma names_last D t ws rs d t' : names D t ws rs d t' ->
  exists r T, last rs = Some r /\ D !! fst r = Some T /\ T !! snd r = Some d.
Proof.
  intros Hn. induction Hn as [t T w i d t' HT Hc Hs|t T w i d t' ws rs d' t'' HT Hc Hs Hn IH].
  - exists (t, i), T. split; [done|]. split; [done|]. apply Hc.
  - destruct IH as (r & T' & E & H1 & H2). exists r, T'. split; [|done]. destruct rs; [done|]. exact E.
Qed.

Lemma typed_runs `{Libc} act a ws rs d t post its a' f : fresh a ->
  names (decls a) (a_root a) ws rs d t -> reads (decls a) t 0 false post its -> entered its = [] ->
  argus_parse a (ws ++ post) = Ok (Returned 0, a') -> d_action d = Some f ->
  argus_exec act a' = Ok (act f, add_log a' [EAction f]).
Proof.
  intros Hf Hn Hr He E Ha. destruct (names_read _ _ _ _ _ _ _ _ Hn Hr) as (its' & H1 & H2).
  pose proof (exec_selected act a _ a' its' Hf E H1) as X. rewrite H2, He, app_nil_r in X.
  destruct (names_last _ _ _ _ _ _ Hn) as (r & T & El & HT & Hd). rewrite El in X.
  destruct X as (T' & d' & HT' & Hd' & _ & X). rewrite HT in HT'. injection HT' as <-.
  rewrite Hd in Hd'. injection Hd' as <-. by rewrite Ha in X.
Qed.

Lemma decls_opts a t T i d : decls a !! t = Some T -> T !! i = Some d ->
  exists U o, a_tabs a !! t = Some U /\ U !! i = Some o /\ decl_of o = d.
Proof.
  unfold decls. intros HT Hd. rewrite list_lookup_fmap in HT. destruct (a_tabs a !! t) as [U|]; [|done].
  injection HT as <-. rewrite list_lookup_fmap in Hd. destruct (U !! i) as [o|] eqn:E; [|done].
  injection Hd as <-. by exists U, o.
Qed.
Lemma typed_listed p a ws rs d t f T h u s :
  a_tabs a !! a_root a = Some T -> short_paths (p_name p) (a_tabs a) T ->
  names (decls a) (a_root a) ws rs d t -> (length ws <= 2)%nat -> d_action d = Some f ->
  display_all_commands p a (Dst [] h) = Shown (u, Dst s h) ->
  shows (command_line (p_config p) (typed (p_name p) ws) (d_help d)) s.
Proof.
  intros ET SP Hn Hl Ha E. rewrite (all_commands_exact p a T ET SP (Dst [] h)) in E. injection E as _ <-.
  inversion Hn as [t1 T1 w i d1 t2 HT Hc Hs|t1 T1 w i d1 t2 ws1 rs1 d2 t3 HT Hc Hs Hn1]; subst.
  - destruct Hc as (Hd & Hty & Hnm & _). destruct (decls_opts _ _ _ _ _ HT Hd) as (U & o & HU & Ho & <-).
    rewrite ET in HU. injection HU as <-.
    pose proof (overview_first p (a_tabs a) T o (elem_of_list_lookup_2 _ _ _ Ho)) as X.
    unfold line_of, name_of in X. rewrite Hnm in X. apply X. unfold runnable, entry_is.
    rewrite Ha. by rewrite Hty.
  - destruct Hc as (Hd & Hty & Hnm & _). destruct (decls_opts _ _ _ _ _ HT Hd) as (U & o & HU & Ho & <-).
    rewrite ET in HU. injection HU as <-.
    inversion Hn1 as [t4 T4 w' i' d4 t5 HT' Hc' Hs'|t4 T4 w' i' d4 t5 ws2 rs2 d5 t6 HT' Hc' Hs' Hn2]; subst.
    2:{ inversion Hn2; subst; cbn in Hl; lia. }
    destruct Hc' as (Hd' & Hty' & Hnm' & _).
    destruct (decls_opts _ _ _ _ _ HT' Hd') as (U' & o' & HU' & Ho' & <-).
    pose proof (overview_second p (a_tabs a) T o o' (elem_of_list_lookup_2 _ _ _ Ho)) as X.
    unfold line_of, name_of in X. rewrite Hnm, Hnm' in X. apply X.
    + unfold entry_is. by rewrite Hty.
    + unfold children. rewrite Hs, HU'. by eapply elem_of_list_lookup_2.
    + unfold runnable, entry_is. rewrite Ha. by rewrite Hty'.
Qed.

(** ** The commands below one command *)
Lemma below_at c tabs base T body i o n k : lists_below c tabs base T body -> T !! i = Some o ->
  entry_is TSubcommand o = true -> d_name (decl_of o) = Some n -> d_sub (decl_of o) = Some k ->
  exists T' u, tabs !! k = Some T' /\ lists_below c tabs (path_under base n) T' u /\
    shows (command_line c (path_under base n) (d_help (decl_of o))) body /\
    forall x, shows x u -> shows x body.
Proof.
  intros B. revert i. induction B as [base|base o1 T t Ho B IH|base o1 n1 T t Ho Hn Hl Hs B IH|
    base o1 n1 T t k1 T1 u1 Ho Hn Hl Hs Hk B1 IH1 B IH]; intros i Hi He Hd Hk'; [done| | |];
    destruct i as [|i]; cbn in Hi.
  - injection Hi as ->. by rewrite Ho in He.
  - by eapply IH.
  - injection Hi as ->. by rewrite Hs in Hk'.
  - destruct (IH i Hi He Hd Hk') as (T' & u & H1 & H2 & H3 & H4). exists T', u. split; [done|]. split; [done|].
    split; [by apply shows_app_r|]. intros x Hx. apply shows_app_r. by apply H4.
  - injection Hi as ->. rewrite Hn in Hd. injection Hd as ->. rewrite Hs in Hk'. injection Hk' as ->.
    exists T1, u1. split; [done|]. split; [done|]. split.
    + exists [], (u1 ++ t). done.
    + intros x Hx. apply shows_app_r. by apply shows_app_l.
  - destruct (IH i Hi He Hd Hk') as (T' & u & H1 & H2 & H3 & H4). exists T', u. split; [done|]. split; [done|].
    split; [by do 2 apply shows_app_r|]. intros x Hx. do 2 apply shows_app_r. by apply H4.
Qed.
Lemma below_shows c a ws rs d t t' T base body : names (decls a) t ws rs d t' ->
  a_tabs a !! t = Some T -> lists_below c (a_tabs a) base T body ->
  shows (command_line c (typed base ws) (d_help d)) body.
Proof.
  intros Hn. revert T base body.
  induction Hn as [t T1 w i d t' HT Hc Hs|t T1 w i d t' ws rs d' t'' HT Hc Hs Hn IH]; intros T base body ET B;
    destruct Hc as (Hd & Hty & Hnm & _); destruct (decls_opts _ _ _ _ _ HT Hd) as (U & o & HU & Ho & <-);
    rewrite ET in HU; injection HU as <-;
    (destruct (below_at c (a_tabs a) base T body i o w t' B Ho) as (T' & u & H1 & H2 & H3 & H4);
      [unfold entry_is; by rewrite Hty|done|done|]).
  - exact H3.
  - cbn [typed fold_left]. apply H4. by eapply IH.
Qed.
Lemma names_app D t ws rs d t' ws' rs' d' t'' : names D t ws rs d t' -> names D t' ws' rs' d' t'' ->
  names D t (ws ++ ws') (rs ++ rs') d' t''.
Proof.
  intros H1 H2. induction H1 as [t T w i d t' HT Hc Hs|t T w i d t' ws rs d1 t1 HT Hc Hs Hn IH].
  - cbn [app]. by eapply names_more.
  - cbn [app]. eapply names_more; [exact HT|exact Hc|exact Hs|]. by apply IH.
Qed.
Lemma typed_below `{Libc} act p a b ws rs d t r o n T body cmds ws' rs' d' t' post its a' f h : fresh a ->
  decls b = decls a -> get_option b (fst r) (snd r) = Ok o -> d_name (decl_of o) = Some n ->
  d_sub (decl_of o) = Some t -> a_tabs b !! t = Some T ->
  lists_below (p_config p) (a_tabs b) n T body -> selected b cmds ->
  names (decls a) (a_root a) ws rs d t -> names (decls a) t ws' rs' d' t' -> d_action d' = Some f ->
  (exists s f0, (forall fuel, (f0 <= fuel)%nat ->
     display_available_subcommands fuel p b r (Dst [] h) = Shown (tt, Dst s h)) /\
   shows (command_line (p_config p) (typed n ws') (d_help d')) s) /\
  (reads (decls a) t' 0 false post its -> entered its = [] ->
   argus_parse a (ws ++ ws' ++ post) = Ok (Returned 0, a') ->
   argus_exec act a' = Ok (act f, add_log a' [EAction f])).
Proof.
  intros Hf Hb Ho Hnm Hs ET B Sel Hn Hn' Ha. split.
  - destruct (available_exact p b r o n t T body cmds Ho Hnm Hs ET B Sel) as [f0 K].
    exists (below_screen p cmds n body), f0. split; [intros fuel F; exact (K fuel F (Dst [] h))|].
    unfold below_screen. do 6 apply shows_app_r. apply shows_app_l.
    eapply (below_shows _ b); [rewrite Hb; exact Hn'|exact ET|exact B].
  - intros Hr He E. rewrite app_assoc in E.
    eapply (typed_runs act a (ws ++ ws')); [exact Hf|by eapply names_app|exact Hr|exact He|exact E|exact Ha].
Qed.
