(** * Help and version anywhere on the line: proofs *)
From Coq Require Import Lia.
From Verif Require Import Validate Api LibProofs FrameProofs SpecGrammar GrammarProofs GrammarLemmas SpecStructure StructProofs
  SpecAfter AfterProofs EnvProofs WholeProofs CallProofs IsolationProofs ActiveProofs SpecTold ToldProofs Messages SpecMessages MessageProofs ExchangeProofs
  SpecRequest RequestProofs SpecTrust TrustProofs SpecHelp HelpProofs Stdout SpecStdout StdoutProofs
  SpecMemory SpecContents SpecSafe SpecCollections SafeProofs SafeContext SafePerform.
From Verif Require Import SpecAfter.

Section anywhere.
Context `{Libc, Printf}.

Lemma perform_goes its : forall a st a', library_only (decls a) -> (forall c m, Reject c m ∉ its) -> perform a its = Ok (st, a') -> goes_on a st a'.
Proof.
  induction its as [|x its IH]; intros a st a' Hl Hn E; cbn [perform] in E.
  { injection E as <- <-. apply goes_refl. }
  assert (Hn' : forall c m, Reject c m ∉ its) by (intros c m X; apply (Hn c m); by right).
  destruct x as [t i v|t i|c m]; [| |destruct (Hn c m); by left].
  - apply rbind_Ok in E as ([st1 a1] & E1 & E). cbv beta iota in E. apply execute_goes in E1; [|done].
    destruct (Z.eqb_spec st1 0) as [->|]; [|by injection E as <- <-].
    eapply goes_trans; [exact E1|]. apply IH; [|done|done]. by destruct E1 as [-> _].
  - apply rbind_Ok in E as (a1 & E1 & E).
    assert (L1 : decls a1 = decls a /\ a_log a1 = a_log a).
    { split.
      - assert (P1 : perform a [Enter t i] = Ok (0, a1)) by (cbn [perform]; by rewrite E1). exact (perform_decls _ _ _ _ P1).
      - unfold select in E1. apply rbind_Ok in E1 as (o & _ & E1). destruct (_ <? _)%nat; [|done]. injection E1 as <-. done. }
    destruct L1 as [D1 L1]. destruct (IH a1 st a') as [D2 (l & L2 & X)]; [by rewrite D1|done|done|].
    split; [congruence|]. exists l. by rewrite L2, L1.
Qed.

(** A line that leaves the program is parsed without undefined behaviour, whatever follows. *)
Lemma anywhere_defined a pre t T k its a1 w f ev post : accepted a -> no_strays (decls a) (a_root a) -> SpecSafe.ready a -> qsort_sorts ->
  reached a pre t (map decl_of T) k false its -> harmless_items a its -> perform a its = Ok (0, a1) ->
  a_tabs a !! t = Some T -> leaving_word T f w ->
  (forall act o h, run_handler act f None (Hst o h []) = Ok (0, Hst o h [ev act])) ->
  exists o a', argus_parse a (pre ++ w :: post) = Ok (o, a').
Proof.
  intros Ha Hns Hrdy HQ Hr Hh Hp HT Hw Hrun. pose proof (accepted_ready _ Ha Hns) as [Hst _ HR HS _ _].
  destruct (typed_reader _ _ _ _ _ Ha Hns HT Hw) as (i & d & Hd & Hf & Hv & Hx & R).
  pose proof Hr as [_ _ HD Hl]. assert (Hn : forall c m, Reject c m ∉ its) by apply Hl.
  assert (He : ends (decls a) (a_root a) its = Some t).
  { eapply leads_ends; [eauto| |exact Hl]. exists [w], [Call t i None]. split; [apply R; constructor|eauto]. }
  destruct (perform_active its a (a_root a) a1 t) as [Hact Hroot]; auto.
  { unfold get_active_options. rewrite Hst. done. }
  pose proof (perform_decls _ _ _ _ Hp) as Hdec.
  destruct (decls_option a1 t (map decl_of T) i d) as (x & Ho & Hod); [congruence|done|].
  destruct (run_screen a1 t i x f (ev t)) as (a2 & E2 & _ & _ & _); rewrite ?Hod; auto.
  { by apply (has_bit _ 5) in Hx. }
  { intros act X. rewrite Hact in X. injection X as <-. apply Hrun. }
  { rewrite Hact. done. }
  assert (Hpx : forall its', perform a (its ++ Call t i None :: its') = Ok (1, a2)).
  { intros its'. rewrite perform_app by done. rewrite Hp. cbn [rbind perform].
    change (0 =? 0) with true. cbv iota. rewrite E2. done. }
  assert (E0 : forall post, exists its', reads (decls a) (a_root a) 0 false (pre ++ w :: post) (its ++ Call t i None :: its')).
  { intros post0. destruct (reached_total _ _ _ _ _ _ _ post0 Hr) as [its' Hp']. exists its'. apply Hl, R. done. }
  destruct (parse_safe a (pre ++ [w]) Ha Hns Hrdy HQ) as (o & a' & E & _).
    - intros its0 [X|(its1 & b & X & Y & _)].
      + destruct (Hl) as [Hl1 _].
        assert (Z : reads (decls a) (a_root a) 0 false (pre ++ [w]) (its ++ [Call t i None])) by (apply Hl1, R; constructor).
        rewrite (reads_unique _ _ _ _ _ _ _ X Z). intros t' i' v T' d' Hin. apply elem_of_app in Hin as [Hin|Hin]; [by eapply Hh|].
        apply elem_of_list_singleton in Hin. done.
      + assert (Z : reads (decls a) (a_root a) 0 false (pre ++ [w]) (its ++ [Call t i None])) by (apply Hl, R; constructor).
        rewrite (reads_unique _ _ _ _ _ _ _ X Z), Hpx in Y. done.
    - exists o, a'. destruct (E0 []) as [i1 X1]. destruct (E0 post) as [i2 X2].
      rewrite (parse_exit _ _ _ _ HS HR X1 (Hpx i1)) in E. rewrite (parse_exit _ _ _ _ HS HR X2 (Hpx i2)). exact E.
Qed.
(** The event of the leaving option, after [l], which shows nothing. *)
Lemma anywhere_leaves a pre t T k its a1 cs w f ev post : accepted a -> no_strays (decls a) (a_root a) -> SpecSafe.ready a -> qsort_sorts ->
  library_only (decls a) -> screens_leave (decls a) ->
  reached a pre t (map decl_of T) k false its -> harmless_items a its -> perform a its = Ok (0, a1) -> called (decls a) its cs ->
  a_tabs a !! t = Some T -> leaving_word T f w ->
  (forall act o h, run_handler act f None (Hst o h []) = Ok (0, Hst o h [ev act])) ->
  exists l a', argus_parse a (pre ++ w :: post) = Ok (Exited 0, a') /\ a_log a' = l ++ [ev t] /\ Forall no_screen l /\ messages l = [] /\
    decls a' = decls a /\ a_prefix a' = a_prefix a /\ get_active_options a' = Ok (Some t) /\ selected a' cs.
Proof.
  intros Ha Hns Hrdy HQ Hlib Hsl Hr Hh Hp Hc HT Hw Hrun. pose proof (accepted_ready _ Ha Hns) as [Hst _ HR HS _ _].
  destruct (anywhere_defined a pre t T k its a1 w f ev post Ha Hns Hrdy HQ Hr Hh Hp HT Hw Hrun) as (o & a' & E).
  destruct (typed_reader _ _ _ _ _ Ha Hns HT Hw) as (i & d & Hd & Hf & Hv & Hx & R).
  pose proof Hr as [_ _ HD Hl]. assert (Hn : forall c m, Reject c m ∉ its) by apply Hl.
  destruct (leaves_line _ _ _ _ _ _ _ _ _ _ ev _ _ _ _ Hst Hr Hp Hd Hf Hv Hx Hrun (R k) E) as (-> & L2 & S2 & D2 & R2 & P2 & A2).
  pose proof (perform_stack _ _ _ _ Hp Hn) as (_ & _ & _ & S1 & _). specialize (S1 eq_refl). rewrite Hst in S1. cbn [app] in S1.
  destruct (perform_goes _ _ _ _ Hlib Hn Hp) as [_ (l & L1 & [X _])]. destruct (perform_silent _ _ _ Hsl Hn Hp) as (l' & L1' & F).
  assert (l' = l) as ->. { rewrite L1 in L1'. by apply app_inv_head in L1'. }
  rewrite (accepted_log a Ha) in L1. cbn [app] in L1. exists l, a'.
  split; [done|]. split; [congruence|]. split; [done|]. split; [apply X; by left|]. split_and!; try done.
  apply (selected_of a' (entered its)); [congruence|]. rewrite D2. exact Hc.
Qed.
Lemma anywhere_stderr pcre p a l e : a_log a = l ++ [e] -> messages l = [] -> Forall no_screen l ->
  (match e with EDiag _ _ | EUsage => False | _ => True end) -> stderr_of pcre p a = Ok [].
Proof.
  intros L M F He. unfold stderr_of. rewrite L. apply printed_quiet. intros e' X. apply elem_of_app in X as [X|X].
  - rewrite Forall_forall in F. pose proof (F _ X) as Y. destruct e'; try done.
    assert (Z : code ∈ messages l) by (unfold messages; apply elem_of_list_omap; by eexists).
    rewrite M in Z. by apply elem_of_nil in Z.
  - apply elem_of_list_singleton in X as ->. done.
Qed.
Lemma anywhere_help pcre p a pre t T k its a1 cs w post h : accepted a -> no_strays (decls a) (a_root a) -> SpecSafe.ready a -> qsort_sorts ->
  library_only (decls a) -> screens_leave (decls a) ->
  reached a pre t (map decl_of T) k false its -> harmless_items a its -> perform a its = Ok (0, a1) -> called (decls a) its cs ->
  a_tabs a !! t = Some T -> leaving_word T HHelp w ->
  printf_ok -> good_config (p_config p) -> showable_table (a_prefix a) T -> fitting_table (p_config p) (a_prefix a) T ->
  oom h = [] ->
  exists a', argus_parse a (pre ++ w :: post) = Ok (Exited 0, a') /\ stderr_of pcre p a' = Ok [] /\
  exists u h', stdout_of p a' h = Shown (tt, Dst (usage_line p cs T ++ u) h') /\ SpecHelp.released h h' /\
    help_screen p (a_prefix a) cs T u.
Proof.
  intros Ha Hns Hrdy HQ Hlib Hsl Hr Hh Hp Hc HT Hw PO GC ST FT O.
  destruct (anywhere_leaves a pre t T k its a1 cs w HHelp EHelp post Ha Hns Hrdy HQ Hlib Hsl Hr Hh Hp Hc HT Hw (fun _ _ _ => eq_refl))
    as (l & a' & E & L & F & M & D & P & A & Sel).
  exists a'. split; [done|]. split; [by eapply anywhere_stderr|].
  destruct (help_screens p a' a t T cs h PO GC HT ST FT O D P A Sel) as (u & h' & S1 & S2 & S3). exists u, h'.
  split; [|done]. unfold stdout_of. rewrite L, screens_app by done. exact S1.
Qed.
Lemma anywhere_version pcre p a pre t T k its a1 cs w post h : accepted a -> no_strays (decls a) (a_root a) -> SpecSafe.ready a -> qsort_sorts ->
  library_only (decls a) -> screens_leave (decls a) ->
  reached a pre t (map decl_of T) k false its -> harmless_items a its -> perform a its = Ok (0, a1) -> called (decls a) its cs ->
  a_tabs a !! t = Some T -> leaving_word T HVersion w ->
  exists a', argus_parse a (pre ++ w :: post) = Ok (Exited 0, a') /\ stderr_of pcre p a' = Ok [] /\
    stdout_of p a' h = Shown (tt, Dst (version_text p) h).
Proof.
  intros Ha Hns Hrdy HQ Hlib Hsl Hr Hh Hp Hc HT Hw.
  destruct (anywhere_leaves a pre t T k its a1 cs w HVersion (fun _ => EVersion) post Ha Hns Hrdy HQ Hlib Hsl Hr Hh Hp Hc HT Hw (fun _ _ _ => eq_refl))
    as (l & a' & E & L & F & M & _).
  exists a'. split; [done|]. split; [by eapply anywhere_stderr|]. unfold stdout_of. rewrite L, screens_app by done. done.
Qed.

(** ** Paths *)
Lemma enters_ok stk names : forall a, (length (a_stack a) + length stk <= 8)%nat ->
  Forall2 (fun r n => exists T d, decls a !! fst r = Some T /\ T !! snd r = Some d /\ d_name d = Some n) stk names ->
  exists a1, perform a (map (fun r => Enter (fst r) (snd r)) stk) = Ok (0, a1).
Proof.
  revert names. induction stk as [|r stk IH]; intros names a Hlen F; [by exists a|]. inversion F as [|? n ? names' (T & d & HT & Hd & _) F']; subst.
  cbn [map perform]. destruct (decls_option a (fst r) T (snd r) d HT Hd) as (o & Ho & _). cbn [length] in Hlen.
  assert (S1 : select a (fst r) (snd r) = Ok (set_stack (put_option a (fst r) (snd r) (with_set o true)) (a_stack a ++ [(fst r, snd r)]))).
  { unfold select. rewrite Ho. cbn [rbind]. assert (X : (length (a_stack a) <? 8)%nat = true) by (apply Nat.ltb_lt; lia). by rewrite X. }
  rewrite S1. cbn [rbind]. eapply IH.
  - cbn [a_stack set_stack]. rewrite app_length. cbn [length]. lia.
  - assert (P1 : perform a [Enter (fst r) (snd r)] = Ok (0, set_stack (put_option a (fst r) (snd r) (with_set o true)) (a_stack a ++ [(fst r, snd r)])))
      by (cbn [perform]; by rewrite S1).
    rewrite (perform_decls _ _ _ _ P1). exact F'.
Qed.
Lemma path_defined a names t T w f ev post : accepted a -> no_strays (decls a) (a_root a) -> SpecSafe.ready a -> qsort_sorts ->
  path (decls a) (a_root a) names t -> a_tabs a !! t = Some T -> leaving_word T f w ->
  (forall act o h, run_handler act f None (Hst o h []) = Ok (0, Hst o h [ev act])) ->
  exists o a', argus_parse a (names ++ w :: post) = Ok (o, a').
Proof.
  intros Ha Hns Hrdy HQ Hp HT Hw Hrun. pose proof (accepted_ready _ Ha Hns) as [Hst _ HR HS _ _].
  destruct (path_leads _ _ _ _ Hp) as (stk & L & En & F).
  assert (HD : decls a !! t = Some (map decl_of T)) by (unfold decls; by rewrite list_lookup_fmap, HT).
  assert (Hr : reached a names t (map decl_of T) 0 false (map (fun r => Enter (fst r) (snd r)) stk)) by done.
  destruct (enters_ok stk names a) as [a1 P]; [|done|].
  - assert (Z : reads (decls a) (a_root a) 0 false names (map (fun r => Enter (fst r) (snd r)) stk)).
    { rewrite <- (app_nil_r names), <- (app_nil_r (map _ stk)). apply L. constructor. }
    pose proof (accepted_entered _ _ _ Ha Hns Z) as Hle. rewrite En in Hle. rewrite Hst. cbn. lia.
  - eapply (anywhere_defined a names t T 0 _ a1 w f ev post); try done.
    intros t' i' v T' d' X. apply elem_of_list_fmap in X as (y & X & _). done.
Qed.
Lemma path_help_always pcre p a names t T w post h : accepted a -> no_strays (decls a) (a_root a) -> SpecSafe.ready a -> qsort_sorts ->
  path (decls a) (a_root a) names t -> a_tabs a !! t = Some T -> leaving_word T HHelp w ->
  printf_ok -> good_config (p_config p) -> showable_table (a_prefix a) T -> fitting_table (p_config p) (a_prefix a) T ->
  oom h = [] ->
  exists a', argus_parse a (names ++ w :: post) = Ok (Exited 0, a') /\ stderr_of pcre p a' = Ok [] /\
  exists u h', stdout_of p a' h = Shown (tt, Dst (usage_line p names T ++ u) h') /\ SpecHelp.released h h' /\
    help_screen p (a_prefix a) names T u.
Proof.
  intros Ha Hns Hrdy HQ Hp HT Hw PO GC ST FT O.
  destruct (path_defined a names t T w HHelp EHelp post Ha Hns Hrdy HQ Hp HT Hw (fun _ _ _ => eq_refl)) as (o & a' & E).
  destruct (path_help pcre p a names t T w post o a' h Ha Hns Hp HT Hw PO GC ST FT O E) as (-> & X). by exists a'.
Qed.
Lemma path_version_always pcre p a names t T w post h : accepted a -> no_strays (decls a) (a_root a) -> SpecSafe.ready a -> qsort_sorts ->
  path (decls a) (a_root a) names t -> a_tabs a !! t = Some T -> leaving_word T HVersion w ->
  exists a', argus_parse a (names ++ w :: post) = Ok (Exited 0, a') /\ stderr_of pcre p a' = Ok [] /\
    stdout_of p a' h = Shown (tt, Dst (version_text p) h).
Proof.
  intros Ha Hns Hrdy HQ Hp HT Hw.
  destruct (path_defined a names t T w HVersion (fun _ => EVersion) post Ha Hns Hrdy HQ Hp HT Hw (fun _ _ _ => eq_refl)) as (o & a' & E).
  destruct (path_version pcre p a names t T w post o a' h Ha Hns Hp HT Hw E) as (-> & X). by exists a'.
Qed.
End anywhere.
