(** * Proofs about standard output *)
From Coq Require Import Lia.
From Verif Require Import Validate Api LibProofs FrameProofs SpecGrammar GrammarProofs GrammarLemmas SpecStructure StructProofs
  SpecAfter AfterProofs EnvProofs WholeProofs CallProofs IsolationProofs ActiveProofs ToldProofs Messages SpecMessages MessageProofs ExchangeProofs
  SpecRequest RequestProofs SpecTrust TrustProofs SpecHelp HelpProofs Stdout SpecStdout.
From Verif Require Import SpecAfter.

(** ** Declarations decide what is shown *)
Section same.
Context `{Libc, Printf}.
Variables T T' : list opt.
Hypothesis same : map decl_of T' = map decl_of T.

Lemma same_lookup i : decl_of <$> T' !! i = decl_of <$> T !! i.
Proof. rewrite <- !list_lookup_fmap. change (decl_of <$> T') with (map decl_of T'). by rewrite same. Qed.
Lemma same_length : length T' = length T.
Proof. rewrite <- (map_length decl_of T'), same. apply map_length. Qed.
Lemma same_elem o : o ∈ T' -> exists o', o' ∈ T /\ decl_of o' = decl_of o.
Proof.
  intros Ho. assert (X : decl_of o ∈ map decl_of T) by (rewrite <- same; by apply elem_of_list_fmap_1).
  apply elem_of_list_fmap in X as (o' & E & Ho'). by exists o'.
Qed.
Lemma same_showable prefix : showable_table prefix T -> showable_table prefix T'.
Proof.
  intros S o Ho G. apply same_elem in Ho as (o' & Ho' & E). specialize (S o' Ho').
  unfold is_group, entry_is in *. rewrite E in S. auto.
Qed.
Lemma same_fitting c prefix : fitting_table c prefix T -> fitting_table c prefix T'.
Proof.
  intros S o Ho G. apply same_elem in Ho as (o' & Ho' & E). specialize (S o' Ho').
  unfold is_group, entry_is in *. rewrite E in S. auto.
Qed.
Lemma same_positions f f' : (forall i o o', decl_of o = decl_of o' -> f i o = f' i o') ->
  positions f T' = positions f' T.
Proof.
  intros Hf. unfold positions. rewrite same_length. apply List.filter_ext. intros i.
  pose proof (same_lookup i) as L. destruct (T' !! i), (T !! i); try done. injection L as L. by apply Hf.
Qed.
Lemma map_filter (f : opt -> bool) (g : decl -> bool) l : (forall o, f o = g (decl_of o)) ->
  map decl_of (List.filter f l) = List.filter g (map decl_of l).
Proof.
  intros Hf. induction l as [|o l IH]; [done|]. cbn. rewrite Hf. destruct (g (decl_of o)); cbn; by rewrite IH.
Qed.
Lemma same_group i : group_at T' i = group_at T i.
Proof.
  assert (X : forall U, group_at U i = match last (List.filter (fun d => match d_type d with TGroup => true | _ => false end)
     (take i (map decl_of U))) with Some d => d_name d | None => None end).
  { intros U. unfold group_at. change (map decl_of U) with (decl_of <$> U). rewrite <- fmap_take.
    change (decl_of <$> take i U) with (map decl_of (take i U)).
    rewrite <- (map_filter is_group) by done. change (map decl_of ?l) with (decl_of <$> l). rewrite fmap_last.
    by destruct (last _). }
  by rewrite !X, same.
Qed.
Lemma same_in_group n : positions (in_group T' n) T' = positions (in_group T n) T.
Proof.
  apply same_positions. intros i o o' E. unfold in_group, visible, entry_is. by rewrite E, same_group.
Qed.
Lemma same_organized D : organized T' D -> organized T D.
Proof.
  intros [O1 O2 O3 O4 O5 O6 O7]. split; try done.
  - rewrite O1. apply same_positions. intros i o o' E. unfold entry_is. by rewrite E.
  - rewrite O2. apply same_positions. intros i o o' E. unfold entry_is. by rewrite E.
  - rewrite O3. apply same_in_group.
  - intros g Hg. destruct (O4 g Hg) as [X Y]. split; [|done]. rewrite X. apply same_in_group.
  - intros i o n Ho Hv Hg. pose proof (same_lookup i) as L. rewrite Ho in L. destruct (T' !! i) as [o'|] eqn:E'; [|done].
    injection L as L. eapply O6; [exact E'| |by rewrite same_group]. unfold visible, entry_is in *. by rewrite L.
Qed.
Lemma same_listed R l t : listed R T' l t -> listed R T l t.
Proof.
  intros (ts & -> & F). exists ts. split; [done|]. eapply Forall2_impl; [exact F|].
  intros i u (o & Ho & Hr). pose proof (same_lookup i) as L. rewrite Ho in L.
  destruct (T !! i) as [o'|]; [|done]. injection L as L. exists o'. by rewrite <- L.
Qed.
Lemma same_section title R l t : section title R T' l t -> section title R T l t.
Proof.
  intros [[-> ->]|(N & u & -> & L)]; [by left|]. right. split; [done|]. exists u. split; [done|]. by apply same_listed.
Qed.
Lemma same_help p prefix names t : help_screen p prefix names T' t -> help_screen p prefix names T t.
Proof.
  intros (D & t1 & ts & t3 & t4 & O & E & S1 & S2 & S3 & u & S4 & E4).
  exists D, t1, ts, t3, t4. split; [by apply same_organized|]. split; [done|]. split; [by apply same_section|].
  split; [eapply Forall2_impl; [exact S2|]; intros ? ?; apply same_section|]. split; [by apply same_section|].
  exists u. split; [by apply same_section|done].
Qed.
Lemma same_usage p names : usage_line p names T' = usage_line p names T.
Proof.
  assert (X : forall U, usage_line p names U = $"Usage: " ++ p_name p ++ path_words names ++ $" [OPTIONS]" ++
    concat (map (fun d => " "%char :: argument_words d (default [] (d_name d)))
      (List.filter (fun d => match d_type d with TPositional => true | _ => false end) (map decl_of U))) ++
    (if existsb (fun d => match d_type d with TSubcommand => true | _ => false end) (map decl_of U) then $" COMMAND" else []) ++ [newline]).
  { intros U. unfold usage_line. rewrite <- (map_filter (entry_is TPositional)).
    2:{ intros o. unfold entry_is. by destruct (d_type _). }
    rewrite map_map. do 5 f_equal. apply (f_equal (fun b : bool => (if b then $" COMMAND" else []) ++ [newline])).
    induction U as [|o U IH]; [done|]. cbn. rewrite IH. done. }
  by rewrite !X, same.
Qed.
End same.

Section stdout.
Context `{Libc, Printf}.

(** ** The usage takes no memory *)
Definition still {A} (m : DM A) : Prop := forall s x s', m s = Shown (x, s') -> s_heap s' = s_heap s.
Lemma still_bind {A B} (m : DM A) (k : A -> DM B) : still m -> (forall x, still (k x)) -> still (dbind m k).
Proof.
  intros Hm Hk s x s' E. unfold dbind in E. destruct (m s) as [[y s1]| |] eqn:E1; try done.
  apply Hm in E1. apply Hk in E. congruence.
Qed.
Lemma still_put t : still (put t).
Proof. intros s x s' [= <- <-]. done. Qed.
Lemma still_ret {A} (x : A) : still (dret x).
Proof. by intros s y s' [= <- <-]. Qed.
Lemma still_lift {A} (r : res A) : still (dlift r).
Proof. intros s x s'. unfold dlift. destruct r; [|done]. by intros [= <- <-]. Qed.
Lemma still_name n : still (dname n).
Proof. intros s x s'. unfold dname. destruct n; [|done]. by intros [= <- <-]. Qed.
Lemma still_usage p a : still (display_usage p a).
Proof.
  unfold display_usage. apply still_bind; [apply still_lift|]. intros t. apply still_bind; [apply still_put|]. intros _.
  apply still_bind.
  { generalize (a_stack a). intros l. induction l as [|r l IH]; cbn [print_chain]; [apply still_ret|].
    apply still_bind; [apply still_lift|]. intros o. apply still_bind; [apply still_name|]. intros n.
    apply still_bind; [apply still_put|]. intros _. exact IH. }
  intros _. apply still_bind; [apply still_put|]. intros _. apply still_bind; [apply still_lift|]. intros T.
  apply still_bind.
  { induction T as [|o T IH]; cbn [print_usage_positionals]; [apply still_ret|]. destruct (d_type (decl_of o)); try exact IH.
    apply still_bind; [apply still_name|]. intros n. apply still_bind; [apply still_put|]. intros _. exact IH. }
  intros _. apply still_bind; [apply still_put|]. intros _. apply still_put.
Qed.
Lemma usage_shown p a t T names out h :
  get_active_options a = Ok t -> table_ptr t a = Ok T -> selected a names ->
  (forall o, o ∈ T -> entry_is TPositional o = true -> is_Some (d_name (decl_of o))) ->
  display_usage p a (Dst out h) = Shown (tt, Dst (out ++ usage_line p names T) h).
Proof.
  intros Et HT Sel N. destruct (usage_exact p a t T names out h Et HT Sel N) as (h' & E & _).
  pose proof (still_usage p a _ _ _ E) as X. cbn in X. by rewrite E, X.
Qed.

(** ** The line [pre w post], where [w] leaves the program *)
Lemma leaves_line a pre t T k its w i d f ev post o a' a1 :
  a_stack a = [] -> reached a pre t T k false its -> perform a its = Ok (0, a1) ->
  T !! i = Some d -> d_handler d = Some f -> d_validators d = None -> N.testbit (d_flags d) 5 = true ->
  (forall act o h, run_handler act f None (Hst o h []) = Ok (0, Hst o h [ev act])) ->
  (forall rest its', reads (decls a) t k false rest its' -> reads (decls a) t k false (w :: rest) (Call t i None :: its')) ->
  argus_parse a (pre ++ w :: post) = Ok (o, a') ->
  o = Exited 0 /\ a_log a' = a_log a1 ++ [ev t] /\ a_stack a' = a_stack a1 /\ decls a' = decls a /\
  a_root a' = a_root a /\ a_prefix a' = a_prefix a /\ get_active_options a' = Ok (Some t).
Proof.
  intros Hstk Hr Hp Hd Hf Hv Hx Hrun R E. pose proof Hr as [HS HR HT Hl].
  assert (He : ends (decls a) (a_root a) its = Some t).
  { eapply leads_ends; [eauto| |exact Hl]. exists [w], [Call t i None].
    split; [apply R; constructor|eauto]. }
  destruct (perform_active its a (a_root a) a1 t) as [Hact Hroot]; auto.
  { unfold get_active_options. rewrite Hstk. done. }
  { apply Hl. }
  pose proof (perform_decls _ _ _ _ Hp) as Hdec.
  destruct (decls_option a1 t T i d) as (x & Ho & Hod); [congruence|done|].
  destruct (run_screen a1 t i x f (ev t)) as (a2 & E2 & Hlog & _ & F); rewrite ?Hod; auto.
  { by apply (has_bit _ 5) in Hx. }
  { intros act X. rewrite Hact in X. injection X as <-. apply Hrun. }
  { rewrite Hact. done. }
  destruct (reached_total _ _ _ _ _ _ _ post Hr) as [its' Hp'].
  assert (Hn : forall c m, Reject c m ∉ its) by apply Hl.
  rewrite (parse_exit a _ (its ++ Call t i None :: its') a2) in E; [|done|done|apply Hl, R; done|].
  2:{ rewrite perform_app by done. rewrite Hp. cbn [rbind perform].
    change (0 =? 0) with true. cbv iota. rewrite E2. done. }
  apply rbind_Ok in E as (a3 & E3 & E). injection E as <- <-.
  pose proof (argus_free_steps _ _ E3) as [_ P3 D3 _ _]. apply argus_free_err in E3 as (_ & L3 & S3 & R3).
  pose proof (perform_stack _ _ _ _ Hp Hn) as (R1 & P1 & D1 & _ & _).
  destruct F as [F1 F2 F3 F4 F5]. cbn in L3, S3, R3, P3.
  change (decls (set_err a2 1)) with (decls a2) in D3.
  assert (X : get_active_options a3 = Ok (Some t)).
  { rewrite <- Hact. apply active_frame; congruence. }
  split_and!; try done; congruence.
Qed.

(** ** Paths of names *)
Lemma path_leads D t names t' : path D t names t' ->
  exists stk, leads D t 0 false names t' 0 false (map (fun r => Enter (fst r) (snd r)) stk) /\
    entered (map (fun r => Enter (fst r) (snd r)) stk) = stk /\
    Forall2 (fun r n => exists T d, D !! fst r = Some T /\ T !! snd r = Some d /\ d_name d = Some n) stk names.
Proof.
  induction 1 as [t|t T i d n t1 names t' HT Hd Hty Hn Hdash Hhid Hs Hp (stk & [L1 L2] & E & F)].
  { exists []. split; [|split; [done|constructor]]. split; [done|]. intros c m X. by apply elem_of_nil in X. }
  exists ((t, i) :: stk). split; [|split].
  - split.
    + intros rest its' Hr. cbn [map fst snd app]. eapply r_sub; try done; [|by apply L1].
      by eapply full_name_selects.
    + intros c m X. cbn [map] in X. apply elem_of_cons in X as [X|X]; [done|by apply (L2 c m)].
  - cbn [map]. unfold entered in *. cbn [omap list_omap fst snd]. by f_equal.
  - constructor; [|done]. exists T, d. done.
Qed.
Lemma enters_log stk : forall a st a1, perform a (map (fun r => Enter (fst r) (snd r)) stk) = Ok (st, a1) ->
  st = 0 /\ a_log a1 = a_log a.
Proof.
  induction stk as [|r stk IH]; intros a st a1 E; cbn [map perform] in E; [by injection E as <- <-|].
  apply rbind_Ok in E as (a2 & E2 & E). apply IH in E as [-> ->]. split; [done|].
  unfold select in E2. apply rbind_Ok in E2 as (o & _ & E2). destruct (_ <? _)%nat; [|done]. by injection E2 as <-.
Qed.

(** ** Screens *)
Lemma decls_table a a' t T : decls a' = decls a -> a_tabs a !! t = Some T ->
  exists T', a_tabs a' !! t = Some T' /\ map decl_of T' = map decl_of T.
Proof.
  intros D HT. assert (X : decls a' !! t = Some (map decl_of T)) by (rewrite D; unfold decls; by rewrite list_lookup_fmap, HT).
  unfold decls in X. rewrite list_lookup_fmap in X. destruct (a_tabs a' !! t) as [T'|]; [|done].
  injection X as X. by exists T'.
Qed.
Lemma selected_of a stk names : a_stack a = stk ->
  Forall2 (fun r n => exists T d, decls a !! fst r = Some T /\ T !! snd r = Some d /\ d_name d = Some n) stk names ->
  selected a names.
Proof.
  intros <- F. unfold selected. eapply Forall2_impl; [exact F|].
  intros r n (T & d & HT & Hd & Hn). destruct (decls_option a (fst r) T (snd r) d HT Hd) as (o & Ho & <-). by exists o.
Qed.
Lemma positional_names prefix T : showable_table prefix T ->
  forall o, o ∈ T -> entry_is TPositional o = true -> is_Some (d_name (decl_of o)).
Proof.
  intros S o Ho Hp. apply (S o Ho); [|by left]. unfold entry_is, is_group in *. by destruct (d_type _).
Qed.
Lemma help_screens p a' a t T names h :
  printf_ok -> good_config (p_config p) -> a_tabs a !! t = Some T ->
  showable_table (a_prefix a) T -> fitting_table (p_config p) (a_prefix a) T -> oom h = [] ->
  decls a' = decls a -> a_prefix a' = a_prefix a -> get_active_options a' = Ok (Some t) ->
  selected a' names ->
  exists u h', screens p a' [EHelp t] (Dst [] h) = Shown (tt, Dst (usage_line p names T ++ u) h') /\ SpecHelp.released h h' /\
    help_screen p (a_prefix a) names T u.
Proof.
  intros PO GC HT ST FT O D P A Sel. destruct (decls_table a a' t T D HT) as (T' & HT' & Hs).
  assert (Tp : table_ptr (Some t) a' = Ok T') by (cbn; unfold table, cell; by rewrite HT').
  apply (same_showable _ _ Hs) in ST as ST'. apply (same_fitting _ _ Hs) in FT as FT'.
  assert (U : display_usage p a' (Dst [] h) = Shown (tt, Dst (usage_line p names T) h)).
  { rewrite (usage_shown p a' (Some t) T' names [] h); [|done|done|done|by eapply positional_names].
    cbn [app]. by rewrite (same_usage _ _ Hs). }
  rewrite <- P in ST', FT'.
  destruct (help_exact p a' (Some t) (Some t) T' names (Dst (usage_line p names T) h)) as (u & h' & E & R & K); try done.
  exists u, h'. split; [|split; [done|]].
  - cbn [screens screen_of]. unfold dbind. rewrite U, E. done.
  - rewrite P in K. by apply (same_help _ _ Hs).
Qed.
Lemma help_shown p a' a t T names h :
  printf_ok -> good_config (p_config p) -> a_tabs a !! t = Some T ->
  showable_table (a_prefix a) T -> fitting_table (p_config p) (a_prefix a) T -> oom h = [] ->
  a_log a' = [EHelp t] -> decls a' = decls a -> a_prefix a' = a_prefix a -> get_active_options a' = Ok (Some t) ->
  selected a' names ->
  exists u h', stdout_of p a' h = Shown (tt, Dst (usage_line p names T ++ u) h') /\ SpecHelp.released h h' /\
    help_screen p (a_prefix a) names T u.
Proof.
  intros PO GC HT ST FT O L D P A Sel. unfold stdout_of. rewrite L. by eapply help_screens.
Qed.
Lemma typed_reader a t T w f : accepted a -> no_strays (decls a) (a_root a) -> a_tabs a !! t = Some T -> leaving_word T f w ->
  exists i d, map decl_of T !! i = Some d /\ d_handler d = Some f /\ d_validators d = None /\ N.testbit (d_flags d) 5 = true /\
    forall k rest its, reads (decls a) t k false rest its -> reads (decls a) t k false (w :: rest) (Call t i None :: its).
Proof.
  intros Ha Hns HT (o & Ho & Ht & Hfl & Hy & Hf & Hv & Hx).
  apply elem_of_list_lookup in Ho as (i & Ho).
  assert (HD : decls a !! t = Some (map decl_of T)) by (unfold decls; by rewrite list_lookup_fmap, HT).
  assert (Hre : reachable (decls a) (a_root a) t) by (apply Hns; by rewrite HD).
  destruct (accepted_table _ _ _ Ha Hre HD) as (T2 & HT2 & _ & Hok). assert (T2 = T) as -> by congruence.
  assert (Hd : map decl_of T !! i = Some (decl_of o)) by (change (decl_of <$> T !! i = Some (decl_of o)) || idtac; rewrite list_lookup_fmap, Ho; done).
  exists i, (decl_of o). split_and!; try done. intros k rest its Hr.
  change (w :: rest) with ([w] ++ rest). eapply typed_reads; try done. apply (to_named _ _ Hok).
Qed.
Lemma accepted_log a : accepted a -> a_log a = [].
Proof. intros (fuel & tabs & root & prefix & _ & ->). done. Qed.

Lemma parse_prefix_ok a pre t T k its w x post r : reached a pre t T k false its ->
  (forall rest its', reads (decls a) t k false rest its' -> reads (decls a) t k false (w :: rest) (x :: its')) ->
  argus_parse a (pre ++ w :: post) = Ok r -> exists st a1, perform a its = Ok (st, a1).
Proof.
  intros Hr R E. pose proof Hr as [HS HR HT Hl].
  destruct (reached_total _ _ _ _ _ _ _ post Hr) as [its' Hp'].
  destruct (perform a its) as [[st a1]|u] eqn:Ep; [by eauto|exfalso].
  unfold argus_parse in E. rewrite (argus_parse_perform _ _ (its ++ x :: its') HS HR) in E.
  2:{ apply Hl, R. done. }
  rewrite perform_app in E by apply Hl. rewrite Ep in E. done.
Qed.
(** The context that a path of names and a leaving option produce. *)
Lemma path_leaves a names t T w f ev post o a' : accepted a -> no_strays (decls a) (a_root a) ->
  path (decls a) (a_root a) names t -> a_tabs a !! t = Some T -> leaving_word T f w ->
  (forall act o h, run_handler act f None (Hst o h []) = Ok (0, Hst o h [ev act])) ->
  argus_parse a (names ++ w :: post) = Ok (o, a') ->
  o = Exited 0 /\ a_log a' = [ev t] /\ decls a' = decls a /\ a_prefix a' = a_prefix a /\
  get_active_options a' = Ok (Some t) /\ selected a' names.
Proof.
  intros Ha Hns Hp HT Hw Hrun E. pose proof (accepted_ready _ Ha Hns) as [Hst _ HR HS _ _].
  destruct (typed_reader _ _ _ _ _ Ha Hns HT Hw) as (i & d & Hd & Hf & Hv & Hx & R).
  destruct (path_leads _ _ _ _ Hp) as (stk & L & En & F).
  assert (HD : decls a !! t = Some (map decl_of T)) by (unfold decls; by rewrite list_lookup_fmap, HT).
  assert (Hr : reached a names t (map decl_of T) 0 false (map (fun r => Enter (fst r) (snd r)) stk)) by done.
  destruct (parse_prefix_ok _ _ _ _ _ _ _ _ _ _ Hr (R 0%nat) E) as (st & a1 & P).
  destruct (enters_log _ _ _ _ P) as [-> L1].
  destruct (leaves_line _ _ _ _ _ _ _ _ _ _ ev _ _ _ _ Hst Hr P Hd Hf Hv Hx Hrun (R 0%nat) E) as (-> & L2 & S2 & D2 & R2 & P2 & A2).
  pose proof (perform_stack _ _ _ _ P (proj2 L)) as (_ & _ & _ & S1 & _). specialize (S1 eq_refl).
  rewrite Hst, En in S1. cbn [app] in S1. rewrite L1, (accepted_log _ Ha) in L2.
  split_and!; try done. apply (selected_of a' stk); [by rewrite S2, S1|]. rewrite D2. exact F.
Qed.
Lemma quiet_log pcre p a e : a_log a = [e] -> (match e with EDiag _ _ | EUsage => False | _ => True end) ->
  stderr_of pcre p a = Ok [].
Proof.
  intros L He. unfold stderr_of. rewrite L. apply printed_quiet. intros e' X. apply elem_of_list_singleton in X as ->. done.
Qed.
Lemma path_help pcre p a names t T w post o a' h : accepted a -> no_strays (decls a) (a_root a) ->
  path (decls a) (a_root a) names t -> a_tabs a !! t = Some T -> leaving_word T HHelp w ->
  printf_ok -> good_config (p_config p) -> showable_table (a_prefix a) T -> fitting_table (p_config p) (a_prefix a) T ->
  oom h = [] ->
  argus_parse a (names ++ w :: post) = Ok (o, a') ->
  o = Exited 0 /\ stderr_of pcre p a' = Ok [] /\
  exists u h', stdout_of p a' h = Shown (tt, Dst (usage_line p names T ++ u) h') /\ SpecHelp.released h h' /\
    help_screen p (a_prefix a) names T u.
Proof.
  intros Ha Hns Hp HT Hw PO GC ST FT O E.
  destruct (path_leaves a names t T w HHelp EHelp post o a' Ha Hns Hp HT Hw (fun _ _ _ => eq_refl) E) as (-> & L & D & P & A & Sel).
  split; [done|]. split; [exact (quiet_log pcre p a' _ L I)|]. by eapply help_shown.
Qed.
Lemma path_version pcre p a names t T w post o a' h : accepted a -> no_strays (decls a) (a_root a) ->
  path (decls a) (a_root a) names t -> a_tabs a !! t = Some T -> leaving_word T HVersion w ->
  argus_parse a (names ++ w :: post) = Ok (o, a') ->
  o = Exited 0 /\ stderr_of pcre p a' = Ok [] /\ stdout_of p a' h = Shown (tt, Dst (version_text p) h).
Proof.
  intros Ha Hns Hp HT Hw E.
  destruct (path_leaves a names t T w HVersion (fun _ => EVersion) post o a' Ha Hns Hp HT Hw (fun _ _ _ => eq_refl) E) as (-> & L & _).
  split; [done|]. split; [exact (quiet_log pcre p a' _ L I)|]. unfold stdout_of. rewrite L. done.
Qed.

(** ** Events that show nothing on standard output *)
Definition no_screen (e : event) : Prop :=
  match e with EHelp _ | EVersion | EUsage => False | _ => True end.
Definition hush {A} (m : HM A) : Prop := forall s x s', m s = Ok (x, s') ->
  exists l, h_log s' = h_log s ++ l /\ Forall no_screen l.
Lemma hush_calm {A} (m : HM A) : calm m -> hush m.
Proof. intros Hc s x s' E. exists []. rewrite app_nil_r. split; [by eapply Hc|done]. Qed.
Lemma hush_bind {A B} (m : HM A) (k : A -> HM B) : hush m -> (forall a, hush (k a)) -> hush (hbind m k).
Proof.
  intros Hm Hk s x s' E. unfold hbind in E. destruct (m s) as [[a s1]|] eqn:E1; [|discriminate].
  apply Hm in E1 as (l1 & L1 & F1). apply Hk in E as (l2 & L2 & F2).
  exists (l1 ++ l2). rewrite L2, L1, app_assoc. split; [done|]. by apply Forall_app.
Qed.
Lemma hush_emit e : no_screen e -> hush (emit e).
Proof. intros F s x s' [= <- <-]. exists [e]. split; [done|]. by apply Forall_singleton. Qed.
Hint Resolve calm_array_flags calm_map_flags calm_adjust_arr calm_adjust_map calm_find_key calm_push calm_push_pair
  calm_set_map_value calm_range calm_set_value_string calm_set_int_value calm_set_float_value calm_free_split
  calm_set_value_float : calm.
Ltac hus := repeat (first
  [apply hush_emit; exact I
  |apply hush_calm; solve [calm]
  |apply hush_bind; [|intros]
  |match goal with
   | |- hush (if ?b then _ else _) => destruct b
   | |- hush (match ?x with _ => _ end) => destruct x
   | |- hush (let '(_, _) := ?x in _) => destruct x
   end]).
Lemma hush_kv_scalar k h c v : hush (set_kv_scalar k h c v).
Proof. unfold set_kv_scalar. destruct (strchr _ _); hus. Qed.
Lemma hush_kv_string v : hush (set_kv_string v).
Proof. unfold set_kv_string. destruct (strchr _ _); hus. Qed.
Lemma hush_value_int v : hush (set_value_int v).
Proof. unfold set_value_int. destruct (parse_int_range v) as [[]|]; hus. Qed.
Lemma hush_for_words l body : (forall s, hush (body s)) -> hush (for_words l body).
Proof.
  intros Hb. induction l as [|x l IH]; cbn [for_words]; [hus|].
  apply hush_bind; [hus|]. intros []; [hus|].
  apply hush_bind; [hus|]. intros s. apply hush_bind; [apply Hb|]. intros st. destruct (_ =? _); [done|hus].
Qed.
Lemma hush_list one fl v : (forall s, hush (one s)) -> hush fl -> hush (list_handler one fl v).
Proof.
  intros Ho Hf. unfold list_handler. apply hush_bind.
  - destruct (strchr v comma); [|apply Ho]. apply hush_bind; [hus|]. intros [q|]; [|hus].
    apply hush_bind; [hus|]. intros cells. apply hush_bind; [by apply hush_for_words|]. intros; hus.
  - intros st. destruct (_ =? _); [|hus]. apply hush_bind; [done|]. intros. hus.
Qed.
Lemma hush_run_handler active f v : f <> HHelp -> f <> HVersion -> hush (run_handler active f v).
Proof.
  intros N1 N2.
  assert (Hneed : forall k : cstr -> HM Z, (forall s, hush (k s)) -> hush (need v k)).
  { intros k Hk. unfold need. destruct v; [apply Hk|]. hus. }
  destruct f; cbn [run_handler]; try done; try apply Hneed; intros.
  all: try (apply hush_list; [intros|]; auto using hush_kv_scalar, hush_kv_string, hush_value_int; hus; fail).
  - unfold flag_handler. hus.
  - unfold bool_handler. destruct v; hus.
  - unfold string_handler. hus.
  - unfold int_handler. hus.
  - unfold float_handler. hus.
  - unfold variadic_string_handler. hus.
  - unfold variadic_int_handler. apply hush_bind; [hus|]. intros st. destruct (_ =? _); hus.
  - unfold variadic_float_handler. apply hush_bind; [hus|]. intros st. destruct (_ =? _); hus.
  - apply hush_bind; [hus|]. intros o. destruct (f v (value o)). hus.
Qed.
Lemma leave_bit D t T i d : screens_leave D -> D !! t = Some T -> T !! i = Some d ->
  d_handler d = Some HHelp \/ d_handler d = Some HVersion -> has (d_flags d) FLAG_EXIT = true.
Proof.
  intros Hl HT Hd Hh. assert (X : N.testbit (d_flags d) 5 = true).
  { eapply Hl; [| |exact Hh]; by eapply elem_of_list_lookup_2. }
  by apply (has_bit _ 5) in X.
Qed.
Lemma exec_silent a t i v a' : screens_leave (decls a) -> execute_callbacks a t i v = Ok (0, a') ->
  exists l, a_log a' = a_log a ++ l /\ Forall no_screen l.
Proof.
  intros Hl E. unfold execute_callbacks in E. apply rbind_Ok in E as (o & Ho & E).
  pose proof Ho as Ho'. apply get_option_Ok in Ho' as (T & HT & HoT).
  destruct (d_handler (decl_of o)) as [f|] eqn:Ef; [|done].
  apply rbind_Ok in E as ([st1 ev] & Hv & E). cbv beta iota in E.
  change SUCCESS with 0 in E. destruct (Z.eqb_spec st1 0) as [->|N1]; cbn [negb] in E; [|injection E as -> _; done].
  assert (ev = []) as ->.
  { destruct (d_validators (decl_of o)); [by eapply text_validators_silent|by injection Hv]. }
  apply rbind_Ok in E as (act & _ & E). apply rbind_Ok in E as ([st2 s] & Hs & E). cbv beta iota in E.
  pose proof (keeps_run_handler _ _ _ _ _ _ Hs) as Hk. cbn [h_opt] in Hk.
  set (a2 := apply_events _ (h_log s)) in *.
  destruct (Z.eqb_spec st2 0) as [->|N2]; cbn [negb] in E; [|injection E as -> _; done].
  assert (Ho2 : get_option a2 t i = Ok (h_opt s)).
  { unfold a2. rewrite events_get. exact (get_put_same _ _ _ _ _ Ho). }
  rewrite Ho2 in E. cbn [rbind] in E.
  assert (Hd : decl_of (if (value_count (with_set (h_opt s) true) =? 0)%nat
       then with_count (with_set (h_opt s) true) 1 else with_set (h_opt s) true) = decl_of o)
      by (destruct (_ =? _)%nat; exact Hk).
  rewrite Hd in E.
  destruct (has (d_flags (decl_of o)) FLAG_EXIT) eqn:Ex; [done|].
  assert (Hn : f <> HHelp /\ f <> HVersion).
  { assert (X : d_handler (decl_of o) = Some HHelp \/ d_handler (decl_of o) = Some HVersion -> False).
    { intros Hh. apply (leave_bit (decls a) t (map decl_of T) i) in Hh; [congruence|done|..].
      - unfold decls. by rewrite list_lookup_fmap, HT.
      - by rewrite list_lookup_fmap, HoT. }
    split; intros ->; apply X; auto. }
  apply (hush_run_handler _ _ _ (proj1 Hn) (proj2 Hn)) in Hs as (l & L & F). cbn [h_log app] in L.
  injection E as <-. exists l. split; [|done]. cbn. unfold a2. rewrite log_events. cbn. by rewrite L.
Qed.
Lemma perform_silent its : forall a a', screens_leave (decls a) -> (forall c m, Reject c m ∉ its) -> perform a its = Ok (0, a') ->
  exists l, a_log a' = a_log a ++ l /\ Forall no_screen l.
Proof.
  induction its as [|x its IH]; intros a a' Hl Hn E; cbn [perform] in E.
  { injection E as <-. exists []. by rewrite app_nil_r. }
  assert (Hn' : forall c m, Reject c m ∉ its) by (intros c m X; apply (Hn c m); by right).
  destruct x as [t i v|t i|c m]; [| |destruct (Hn c m); by left].
  - apply rbind_Ok in E as ([st1 a1] & E1 & E). cbv beta iota in E. destruct (Z.eqb_spec st1 0) as [->|]; [|congruence].
    pose proof (sf_decls _ _ _ _ (execute_callbacks_frame _ _ _ _ _ _ E1)) as D1.
    apply exec_silent in E1 as (l1 & L1 & F1); [|done]. apply IH in E as (l2 & L2 & F2); [|by rewrite D1|done].
    exists (l1 ++ l2). rewrite L2, L1, app_assoc. split; [done|by apply Forall_app].
  - apply rbind_Ok in E as (a1 & E1 & E). pose proof (select_decls _ _ _ _ E1) as D1.
    apply IH in E as (l2 & L2 & F2); [|by rewrite D1|done]. exists l2. split; [|done]. rewrite L2. f_equal.
    unfold select in E1. apply rbind_Ok in E1 as (o & _ & E1). destruct (_ <? _)%nat; [|done]. by injection E1 as <-.
Qed.
Lemma screens_none p a l s : Forall no_screen l -> screens p a l s = Shown (tt, s).
Proof.
  induction l as [|e l IH]; intros F; [done|]. apply Forall_cons in F as [Fe F]. cbn [screens]. unfold dbind.
  destruct e; try done; cbn; by rewrite IH.
Qed.
Lemma screens_app p a l1 l2 s : Forall no_screen l1 -> screens p a (l1 ++ l2) s = screens p a l2 s.
Proof.
  induction l1 as [|e l IH]; intros F; [done|]. apply Forall_cons in F as [Fe F]. cbn [screens app]. unfold dbind.
  destruct e; try done; cbn; by rewrite IH.
Qed.
(** A successful parse prints nothing. *)
Lemma success_silent p a argv a' h : fresh a -> a_log a = [] -> screens_leave (decls a) ->
  argus_parse a argv = Ok (Returned 0, a') -> stdout_of p a' h = Shown (tt, Dst [] h).
Proof.
  intros Hf L Hl E. apply parse_success in E as (its & _ & Hp & Hn & _); [|done].
  apply perform_silent in Hp as (l & L2 & F); [|done|done]. unfold stdout_of. rewrite L2, L. by apply screens_none.
Qed.
(** A refused line prints the usage of the current command. *)
Lemma refused_usage p a argv its c m cs t T o a' h : stops_at a argv its c m -> called (decls a) its cs ->
  screens_leave (decls a) -> current (decls a) (a_root a) its t -> a_tabs a !! t = Some T ->
  (forall x, x ∈ T -> d_type (decl_of x) = TPositional -> is_Some (d_name (decl_of x))) ->
  argus_parse a argv = Ok (o, a') ->
  o = Returned c /\ stdout_of p a' h = Shown (tt, Dst (usage_line p cs T) h).
Proof.
  intros [HS HR Hst Hlog Hlib Hr (a1 & Hp)] Hc Hl Hcur HT Hpn E.
  assert (Hcode : c = E_INVALID_ARGUMENT \/ c = E_MISSING_VALUE \/ c = E_AMBIGUOUS_SUBCOMMAND).
  { eapply reads_codes; [exact Hr|]. apply elem_of_app. right. by left. }
  assert (Hn : forall c m, Reject c m ∉ its).
  { eapply perform_no_reject; [|exact Hp]. intros c' m' Hx.
    assert (Hx' : Reject c' m' ∈ its ++ [Reject c m]) by (apply elem_of_app; by left).
    destruct (reads_codes _ _ _ _ _ _ _ _ Hr Hx') as [->|[->| ->]]; done. }
  rewrite (parse_error a argv _ c (diag c m a1) HS HR Hr) in E.
  2:{ rewrite perform_app, Hp by done. done. }
  2,3: destruct Hcode as [->|[->| ->]]; done.
  apply rbind_Ok in E as (a2 & E2 & E). injection E as <- <-. split; [done|].
  pose proof (free_decls _ _ E2) as D2. apply argus_free_err in E2 as (_ & L2 & S2 & R2).
  pose proof (perform_stack _ _ _ _ Hp Hn) as (R1 & _ & D1 & S1 & _). specialize (S1 eq_refl). rewrite Hst in S1. cbn [app] in S1.
  apply perform_silent in Hp as (l & L1 & F); [|done|done].
  change (decls (add_log (set_err (diag c m a1) c) [EUsage])) with (decls a1) in D2.
  change (a_stack (add_log (set_err (diag c m a1) c) [EUsage])) with (a_stack a1) in S2.
  change (a_root (add_log (set_err (diag c m a1) c) [EUsage])) with (a_root a1) in R2.
  change (a_log (add_log (set_err (diag c m a1) c) [EUsage])) with ((a_log a1 ++ [EDiag c m]) ++ [EUsage]) in L2.
  unfold stdout_of. rewrite L2, L1, Hlog. cbn [app]. rewrite screens_app.
  2:{ apply Forall_app. split; [done|]. by apply Forall_singleton. }
  destruct (decls_table a a2 t T) as (T' & HT' & Hs); [congruence|done|].
  assert (A : get_active_options a2 = Ok (Some t)).
  { unfold get_active_options. rewrite S2, S1, R2, R1. unfold current in Hcur. destruct (last (entered its)) as [r|]; [|by subst].
    destruct Hcur as (U & d & HU & Hd & Hsub). rewrite sub_of_decls, D2, D1, HU, Hd, Hsub. done. }
  cbn [screens screen_of]. unfold dbind.
  rewrite (usage_shown p a2 (Some t) T' cs [] h A).
  - rewrite (same_usage _ _ Hs). reflexivity.
  - cbn. unfold table, cell. by rewrite HT'.
  - apply (selected_of a2 (entered its)); [congruence|]. rewrite D2, D1. exact Hc.
  - intros x Hx Hty. apply (same_elem _ _ Hs) in Hx as (y & Hy & Ey). rewrite <- Ey. apply (Hpn y Hy).
    unfold entry_is in Hty. rewrite <- Ey in Hty. by destruct (d_type (decl_of y)).
Qed.
End stdout.
