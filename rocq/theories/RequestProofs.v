(** * Proofs about what can be asked for on a command line *)
From Verif Require Import Validate Api LibProofs SpecGrammar GrammarProofs SpecAfter
  SpecStructure StructProofs SpecRequest.
From Coq Require Import Lia.

Section Request.
Context `{Libc}.

Lemma take63 n : (length n <= 63)%nat -> key63 n = n.
Proof. intros Hl. unfold key63. by apply take_ge. Qed.
Lemma letter_not_negative T k c : c ∉ digits -> ~ negative_for T k [c].
Proof.
  intros Hc [[(c' & r & E & Hd)|(c' & r & E & _)] _]; [|done].
  inversion E; subst. done.
Qed.

(** ** Words that give an option *)
Lemma option_words D t T k i d v : well_named T -> D !! t = Some T -> T !! i = Some d -> d_type d = TOption ->
  can_be_named d -> (v = None <-> flag_option d) ->
  exists ws, forall rest its, reads D t k false rest its -> reads D t k false (ws ++ rest) (Call t i v :: its).
Proof.
  intros W HT Hd Ht [(n & Hn & He & Hl)|[Hz Hg]] Hv.
  - assert (Hne : n <> []) by (destruct (wn_long_chars _ W d n ltac:(by eapply elem_of_list_lookup_2) Hn); done).
    assert (Hf : first (long_named (key63 n)) T i) by (rewrite take63 by done; by eapply long_denotes).
    destruct v as [v|].
    + exists [$"--" ++ n ++ "="%char :: v]. intros rest its Hr. eapply r_long_equal; try done.
      intros F. by apply Hv in F.
    + exists [$"--" ++ n]. intros rest its Hr. rewrite <- (app_nil_r n).
      eapply r_long_flag; try done; [by rewrite app_nil_r|by left|by apply Hv].
  - assert (Hf : first (short_named (d_sname d)) T i) by (by eapply short_denotes).
    destruct (wn_short_chars _ W d ltac:(by eapply elem_of_list_lookup_2)) as [_ Hdash].
    destruct v as [v|].
    + exists [$"-" ++ [d_sname d]; v]. intros rest its Hr.
      change (Call t i (Some v) :: its) with ([Call t i (Some v)] ++ its).
      eapply (r_short D t T k [d_sname d] (v :: rest)); try done.
      * intros s' [= E _]. done.
      * by apply letter_not_negative.
      * eapply cl_separate; try done. intros F. by apply Hv in F.
    + exists [$"-" ++ [d_sname d]]. intros rest its Hr.
      change (Call t i None :: its) with ([Call t i None] ++ its).
      eapply (r_short D t T k [d_sname d] rest); try done.
      * intros s' [= E _]. done.
      * by apply letter_not_negative.
      * eapply cl_flag; try done; [by apply Hv|apply cl_end].
Qed.

(** ** Subcommands *)
Lemma full_name_selects T i d n : T !! i = Some d -> d_type d = TSubcommand -> d_name d = Some n ->
  not_hidden T i n -> selects T n i.
Proof.
  intros Hd Ht Hn Hh. split.
  - exists d. split; [done|]. split; [split; [done|exists []; by rewrite app_nil_r]|].
    intros j e Hj He [Hte (r & Hr)]. by eapply Hh.
  - left. exists d. done.
Qed.
Lemma enterable T i d n : well_named T -> T !! i = Some d -> d_type d = TSubcommand -> d_name d = Some n ->
  ((exists w, no_dash w /\ selects T w i) <-> not_hidden T i n /\ (no_dash n \/ only_subcommand T i)).
Proof.
  intros W Hd Ht Hn. split.
  - intros (w & Hw & (d' & Hd' & [_ (r & Hr)] & Hbefore) & Hu).
    rewrite Hd in Hd'. injection Hd' as <-. rewrite Hn in Hr. injection Hr as ->. split.
    + intros j e r' Hj He Hte Hne. eapply (Hbefore j e); [done..|]. split; [done|].
      exists (r ++ r'). by rewrite Hne, app_assoc.
    + destruct w as [|c w].
      * destruct r as [|c r]; [left; intros s; done|]. right.
        destruct Hu as [(d2 & Hd2 & _ & Hn2)|Hu].
        { rewrite Hd in Hd2. injection Hd2 as <-. rewrite Hn in Hn2. done. }
        intros j e He Hte. apply (Hu j e He). split; [done|].
        destruct (wn_name _ W e ltac:(by eapply elem_of_list_lookup_2)) as (m & Hm & _); [by rewrite Hte|].
        by exists m.
      * left. intros s E. injection E as -> _. by eapply Hw.
  - intros [Hh [Hw|Ho]].
    + exists n. split; [done|]. by eapply full_name_selects.
    + exists []. split; [intros s; done|]. split.
      * exists d. split; [done|]. split; [split; [done|by exists n]|].
        intros j e Hj He [Hte _]. pose proof (Ho j e He Hte). lia.
      * right. intros j e He [Hte _]. by eapply Ho.
Qed.

(** ** Words for positionals *)
Lemma handed_reads D t T r ws : D !! t = Some T ->
  forall k, (forall j w, ws !! j = Some w -> receives T (k + j) (r (k + j)%nat) /\ w <> $"--") ->
  reads D t k true ws (handed t r k ws).
Proof.
  intros HT. induction ws as [|w ws IH]; intros k Hws; [apply r_end|].
  destruct (Hws 0%nat w eq_refl) as [Hr Hw]. rewrite Nat.add_0_r in Hr. cbn [handed].
  eapply r_raw; try done. apply IH. intros j w' Hj. specialize (Hws (S j) w' Hj).
  by replace (S k + j)%nat with (k + S j)%nat by lia.
Qed.

(** ** Whole requests *)
Lemma request_line a : accepted a -> forall t its, request (decls a) t its ->
  reachable (decls a) (a_root a) t ->
  exists argv, reads (decls a) t 0 false argv its.
Proof.
  intros Ha t its. induction 1 as [t T r ws HT Hws|t T i d v its HT Hd Ht Hc Hv Hq IH|
    t T i d n t' its HT Hd Ht Hn Hw Hh Ht' Hq IH]; intros Hre.
  - exists ($"--" :: ws). apply r_dashes. by eapply handed_reads.
  - destruct (IH Hre) as [argv Hargv].
    destruct (option_words (decls a) t T 0 i d v (accepted_names _ _ _ Ha Hre HT) HT Hd Ht Hc Hv) as [ws Hws].
    exists (ws ++ argv). by apply Hws.
  - destruct IH as [argv Hargv].
    { eapply reach_trans; [exact Hre|]. right. apply wd_one. by exists T, i, d. }
    exists (n :: argv). eapply r_sub; try done. by eapply full_name_selects.
Qed.

(** ** What cannot be asked for *)
Lemma cluster_named T t rest cs its r i v t' : Ascii.zero ∉ cs -> cluster T t rest cs its r -> Call t' i v ∈ its ->
  t' = t /\ exists d, T !! i = Some d /\ d_sname d <> Ascii.zero.
Proof.
  intros Hz. induction 1; intros Hx; try (by apply elem_of_nil in Hx);
    apply not_elem_of_cons in Hz as [Hc Hz];
    apply elem_of_cons in Hx as [Hx|Hx]; try (by apply elem_of_nil in Hx); try done; try (by auto).
  all: injection Hx as -> -> ->; split; [done|];
    match goal with F : first _ _ _ |- _ => destruct F as (e & He & [_ Hs] & _); exists e; split; [done|congruence] end.
Qed.
Lemma cluster_rest T t rest cs its rest' (P : cstr -> Prop) : cluster T t rest cs its (Some rest') ->
  Forall P rest -> Forall P rest'.
Proof.
  intros Hc. remember (Some rest') as r eqn:Er. induction Hc; simplify_eq; try done; auto.
  intros Hf. by apply Forall_cons in Hf as [_ ?].
Qed.
Lemma take_typeable n : "="%char ∉ n -> typeable (key63 n).
Proof.
  intros He. split; [|unfold key63; rewrite take_length; lia].
  intros Hx. apply He. rewrite <- (take_drop 63 n). apply elem_of_app. by left.
Qed.
Lemma reads_named D t k only argv its : reads D t k only argv its -> Forall (fun w => Ascii.zero ∉ w) argv ->
  forall t' T' i v d, Call t' i v ∈ its -> D !! t' = Some T' -> T' !! i = Some d -> d_type d = TOption ->
  (exists n, d_lname d = Some n /\ typeable n) \/ d_sname d <> Ascii.zero.
Proof.
  assert (Hrec : forall (T : list decl) k i d, receives T k i -> T !! i = Some d -> d_type d = TOption -> False).
  { intros T k0 i d (d' & Hd' & Hp & _) Hd Ht. rewrite Hd in Hd'. injection Hd' as <-.
    unfold positional in Hp. congruence. }
  assert (Hlong : forall (T : list decl) n i d, "="%char ∉ n -> first (long_named (key63 n)) T i -> T !! i = Some d ->
    exists n, d_lname d = Some n /\ typeable n).
  { intros T n i d Hn (d' & Hd' & [_ Hl] & _) Hd. rewrite Hd in Hd'. injection Hd' as <-.
    exists (key63 n). split; [done|]. by apply take_typeable. }
  induction 1; intros Hz t'' T'' i'' v'' d'' Hx HT'' Hd'' Ht'';
    try (by apply elem_of_nil in Hx);
    try (apply Forall_cons in Hz as [Hz1 Hz]); try (by eauto);
    try (apply elem_of_cons in Hx as [Hx|Hx]; [|try (by apply elem_of_nil in Hx)]; try (by eauto);
         injection Hx as -> -> ->; rewrite HT'' in *; simplify_eq).
  all: try (exfalso; by eauto).
  all: try (left; by eauto).
  - apply Forall_cons in Hz as [_ Hz]. apply elem_of_cons in Hx as [Hx|Hx]; [|by eauto].
    injection Hx as -> -> ->. rewrite HT'' in *. simplify_eq. left. by eauto.
  - assert (Hs : Ascii.zero ∉ s) by (intros Hs; apply Hz1, elem_of_app; by right).
    apply elem_of_app in Hx as [Hx|Hx].
    + destruct (cluster_named _ _ _ _ _ _ _ _ _ Hs H3 Hx) as (-> & e & He & Hne). right. congruence.
    + eapply IHreads; try done. by eapply cluster_rest.
  - assert (Hs : Ascii.zero ∉ s) by (intros Hs; apply Hz1, elem_of_app; by right).
    destruct (cluster_named _ _ _ _ _ _ _ _ _ Hs H3 Hx) as (-> & e & He & Hne). right. congruence.
Qed.
Lemma no_name a argv its t T i d v : Forall (fun w => Ascii.zero ∉ w) argv ->
  reads (decls a) (a_root a) 0 false argv its ->
  decls a !! t = Some T -> T !! i = Some d -> d_type d = TOption ->
  d_sname d = Ascii.zero -> (forall n, d_lname d = Some n -> ~ typeable n) -> Call t i v ∉ its.
Proof.
  intros Hz Hr HT Hd Ht Hs Hl Hx.
  destruct (reads_named _ _ _ _ _ _ Hr Hz _ _ _ _ _ Hx HT Hd Ht) as [(n & Hn & Hty)|?]; [by eapply Hl|done].
Qed.
End Request.
