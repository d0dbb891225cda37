(** * Proofs about the help and usage screens *)
From stdpp Require Import sets.
From Coq Require Import Lia Sorting.Sorted.
From Verif Require Export DescProofs OrganizeProofs.

Section help.
Context `{Libc, Printf}.
Context {b : bool}.
Notation tr := (triple b).

Lemma triple_run {A} (m : DM A) (Q : A -> cstr -> cells -> Prop) s :
  tr [] m (fun a u E => E = [] /\ Q a u E) -> (b = true -> oom (s_heap s) = []) ->
  exists a u h', m s = Shown (a, Dst (s_out s ++ u) h') /\ released (s_heap s) h' /\ Q a u [] /\
    (b = true -> oom h' = []).
Proof.
  intros T O.
  destruct (T (blocks (s_heap s)) [] s O (owned_start _)) as (a & t & E & h' & H1 & H2 & H3 & -> & H4).
  exists a, t, h'. split; [done|]. split; [|done]. split.
  - apply H2.
  - intros i x L K. apply (own_live _ _ _ H2) in K; [|done]. by apply elem_of_nil in K.
Qed.

(** A command that owns nothing, run while other blocks are owned. *)
Lemma t_framed {A} E (m : DM A) P :
  tr [] m (fun a u E' => E' = [] /\ P a u) -> tr E m (fun a u E' => E' = E /\ P a u).
Proof.
  intros T. eapply t_conseq; [apply t_frame0, T|]. by intros a u E'' (E' & -> & -> & K).
Qed.
Lemma t_prints E (m : DM unit) ex P :
  tr [] m (prints ex P) -> tr E m (fun _ u E' => E' = E /\ (ex -> P u)).
Proof. intros T. apply (t_framed E m (fun _ u => ex -> P u) T). Qed.

Lemma t_print_list c print R ty T (l : entries) (ex : Prop) : forall E,
  Forall (of_kind_at ty T) l ->
  (forall o, o ∈ T -> entry_is ty o = true ->
     tr [] (print (decl_of o) (option_indent c)) (prints ex (R (decl_of o)))) ->
  tr E (print_list c print T l) (fun _ u E' => E' = E /\ (ex -> listed R T (map snd l) u)).
Proof.
  induction l as [|[a i] l IH]; intros E F P; cbn [print_list].
  { apply t_ret. split; [done|]. intros _. exists []. split; [done|constructor]. }
  apply Forall_cons in F as [(o & Eo & Ko) F]. cbn [snd] in Eo.
  eapply t_bind; [apply t_lift; unfold cell; by rewrite Eo|]. intros ? u E' (-> & -> & ->).
  eapply t_bind; [apply t_prints, P; [by eapply elem_of_list_lookup_2|done]|].
  intros [] u E' [-> K]. eapply t_conseq; [by apply IH|]. intros [] v E' [-> K']. split; [done|].
  intros X. destruct (K' X) as (ts & -> & F2). exists (u :: ts). split; [done|].
  cbn [map snd]. constructor; [|done]. exists o. split; [done|]. by apply K.
Qed.

Context (c : helper_config) (prefix : option cstr) (T : list opt).
Hypothesis PO : printf_ok.
Hypothesis EC : endable c.
Hypothesis ST : showable_table prefix T.
Definition all_exact : Prop := b = true /\ good_config c /\ fitting_table c prefix T.

Lemma kind_not_group ty o : entry_is ty o = true -> ty <> TGroup -> is_group o = false.
Proof. unfold entry_is, is_group. destruct (d_type (decl_of o)), ty; done. Qed.
Lemma opt_prints o : o ∈ T -> entry_is TOption o = true ->
  tr [] (print_option c prefix (decl_of o) (option_indent c))
     (prints all_exact (option_entry c prefix (decl_of o))).
Proof.
  intros Ho K. pose proof (kind_not_group _ _ K ltac:(done)) as NG. destruct (ST o Ho NG) as [Sh _].
  eapply t_conseq; [by apply t_print_option|]. intros [] u E [-> X]. split; [done|].
  intros (Eb & G & F). destruct (F o Ho NG) as [F1 F2]. apply X. split; [done|]. by apply F2.
Qed.
Lemma pos_prints o : o ∈ T -> entry_is TPositional o = true ->
  tr [] (print_positional c prefix (decl_of o) (option_indent c))
     (prints all_exact (positional_entry c prefix (decl_of o))).
Proof.
  intros Ho K. pose proof (kind_not_group _ _ K ltac:(done)) as NG. destruct (ST o Ho NG) as [Sh N].
  eapply t_conseq; [apply t_print_positional; try done; apply N; by left|]. intros [] u E [-> X]. split; [done|].
  intros (Eb & G & F). destruct (F o Ho NG) as [F1 F2]. by apply X.
Qed.
Lemma sub_prints o : o ∈ T -> entry_is TSubcommand o = true ->
  tr [] (print_subcommand c prefix (decl_of o) (option_indent c))
     (prints all_exact (command_entry c prefix (decl_of o))).
Proof.
  intros Ho K. pose proof (kind_not_group _ _ K ltac:(done)) as NG. destruct (ST o Ho NG) as [Sh N].
  eapply t_conseq; [apply t_print_subcommand; try done; apply N; by right|]. intros [] u E [-> X]. split; [done|].
  intros (Eb & G & F). destruct (F o Ho NG) as [F1 F2]. by apply X.
Qed.

Lemma t_section print R ty E title (l : entries) :
  Forall (of_kind_at ty T) l ->
  (forall o, o ∈ T -> entry_is ty o = true ->
     tr [] (print (decl_of o) (option_indent c)) (prints all_exact (R (decl_of o)))) ->
  tr E (match l with
        | [] => dret tt
        | e :: l' => put ([newline] ++ title ++ $":" ++ [newline]) ;;^ print_list c print T (e :: l')
        end)
    (fun _ u E' => E' = E /\ (all_exact -> section title R T (map snd l) u)).
Proof.
  intros F P. destruct l as [|e l].
  { apply t_ret. split; [done|]. intros _. by left. }
  eapply t_bind; [apply t_put|]. intros [] u E' [-> ->].
  eapply t_conseq; [by apply (t_print_list c print R ty T (e :: l) all_exact)|].
  intros [] v E' [-> K]. split; [done|].
  intros X. right. split; [done|]. exists v. rewrite <- !app_assoc. split; [done|]. by apply K.
Qed.
Lemma t_print_groups gs : forall E,
  Forall (fun g => Forall (of_kind_at TOption T) (g_options g)) gs ->
  tr E (print_groups c prefix T gs) (fun _ u E' => E' = E /\
    (all_exact -> exists ts, u = concat ts /\
       Forall2 (fun g u => section (g_name g) (option_entry c prefix) T (map snd (g_options g)) u) gs ts)).
Proof.
  induction gs as [|g gs IH]; intros E F; cbn [print_groups].
  { apply t_ret. split; [done|]. intros _. exists []. split; [done|constructor]. }
  apply Forall_cons in F as [F1 F].
  eapply t_bind; [apply (t_section _ (option_entry c prefix) TOption E (g_name g) (g_options g)); [done|apply opt_prints]|].
  intros [] u E' [-> K]. eapply t_conseq; [by apply IH|]. intros [] v E' [-> K']. split; [done|].
  intros X. destruct (K' X) as (ts & -> & F2). exists (u :: ts). split; [done|]. constructor; [by apply K|done].
Qed.
Lemma t_chain a stk names : forall E,
  Forall2 (fun r n => exists o, get_option a (fst r) (snd r) = Ok o /\ d_name (decl_of o) = Some n) stk names ->
  tr E (print_chain a stk) (fun _ u E' => E' = E /\ u = path_words names).
Proof.
  intros E F. revert E. induction F as [|r n stk names (o & Eo & En) F IH]; intros E; cbn [print_chain].
  { by apply t_ret. }
  eapply t_bind; [by apply t_lift|]. intros ? u E' (-> & -> & ->). rewrite En. cbn [dname].
  eapply t_bind; [by apply (t_ret _ n (fun x u E' => x = n /\ u = [] /\ E' = E))|].
  intros ? u E' (-> & -> & ->). eapply t_bind; [apply t_put|]. intros [] u E' [-> ->].
  eapply t_conseq; [apply IH|]. intros [] u E' [-> ->]. split; [done|].
  unfold path_words. done.
Qed.

Lemma t_sections p a names D E :
  p_config p = c -> selected a names -> sane T D ->
  tr E (print_help_sections c prefix p a T D) (fun _ u E' => E' = E /\
    (all_exact -> exists t1 ts t3 t4, u = t1 ++ concat ts ++ t3 ++ t4 /\
      section ($"Arguments") (positional_entry c prefix) T (map snd (hd_positionals D)) t1 /\
      Forall2 (fun g u => section (g_name g) (option_entry c prefix) T (map snd (g_options g)) u)
        (hd_groups D) ts /\
      section ($"Options") (option_entry c prefix) T (map snd (hd_ungrouped D)) t3 /\
      exists u, section ($"Commands") (command_entry c prefix) T (map snd (hd_subcommands D)) u /\
        t4 = u ++ match hd_subcommands D with [] => [] | _ => footer p names end)).
Proof.
  intros Hc Sel [S1 S2 S3 S4]. unfold print_help_sections.
  eapply t_bind; [apply (t_section _ (positional_entry c prefix) TPositional E ($"Arguments") (hd_positionals D)); [done|apply pos_prints]|].
  intros [] u1 E' [-> K1].
  eapply t_bind; [by apply t_print_groups|]. intros [] u2 E' [-> K2].
  eapply t_bind; [apply (t_section _ (option_entry c prefix) TOption E ($"Options") (hd_ungrouped D)); [done|apply opt_prints]|].
  intros [] u3 E' [-> K3].
  assert (LAST : tr E (match hd_subcommands D with
   | [] => dret tt
   | l =>
       put ([newline] ++ $"Commands:" ++ [newline]) ;;^ print_list c (print_subcommand c prefix) T l ;;^
       put ([newline] ++ $"Run '" ++ p_name p) ;;^ print_chain a (a_stack a) ;;^
       put ($" COMMAND --help' for more information on a command." ++ [newline])
   end) (fun _ u E' => E' = E /\ (all_exact -> exists v,
     section ($"Commands") (command_entry c prefix) T (map snd (hd_subcommands D)) v /\
        u = v ++ match hd_subcommands D with [] => [] | _ => footer p names end))).
  { destruct (hd_subcommands D) as [|e l].
    - apply t_ret. split; [done|]. intros _. exists []. split; [by left|done].
    - eapply t_bind; [apply t_put|]. intros [] u E' [-> ->].
      eapply t_bind; [apply (t_print_list c _ (command_entry c prefix) TSubcommand T _ all_exact); [done|apply sub_prints]|].
      intros [] v E' [-> K]. eapply t_bind; [apply t_put|]. intros [] u E' [-> ->].
      eapply t_bind; [by apply (t_chain a (a_stack a) names)|]. intros [] u E' [-> ->].
      eapply t_conseq; [apply t_put|]. intros [] u E' [-> ->]. split; [done|].
      intros X. exists ([newline] ++ $"Commands:" ++ [newline] ++ v). split.
      + right. split; [done|]. exists v. split; [done|]. by apply K.
      + unfold footer. rewrite <- !app_assoc. done. }
  eapply t_conseq; [exact LAST|]. intros [] u4 E' [-> K4]. split; [done|]. intros X.
  destruct (K2 X) as (ts & -> & F2). destruct (K4 X) as (v & Sv & ->).
  eexists u1, ts, u3, _. split; [done|]. split_and!; eauto.
Qed.
End help.

Section screens.
Context `{Libc, Printf}.

Lemma t_display_help b p a command t T names :
  printf_ok -> endable (p_config p) -> showable_table (a_prefix a) T -> selected a names ->
  match command with Some c => Some c = t | None => get_active_options a = Ok t end ->
  table_ptr t a = Ok T ->
  (b = true \/ Forall (fun o => is_group o = false) T) ->
  triple b [] (display_help p a command) (fun _ u E => E = [] /\
    (b = true /\ good_config (p_config p) /\ fitting_table (p_config p) (a_prefix a) T ->
     help_screen p (a_prefix a) names T u)).
Proof.
  intros PO EC ST Sel Ht HT SAFE. unfold display_help.
  eapply t_bind with (Q := fun x u E => x = t /\ u = [] /\ E = []).
  { destruct command as [c|]; [by apply t_ret|by apply t_lift]. }
  intros ? u E (-> & -> & ->).
  eapply t_bind; [by apply t_lift|]. intros ? u E (-> & -> & ->).
  eapply t_bind; [by apply t_organize_options|]. intros D u E (-> & PE & SD & OD).
  eapply t_bind; [by apply (t_sections (p_config p) (a_prefix a) T PO EC ST p a names D)|].
  intros [] u E' [-> K].
  eapply t_bind; [apply (t_free_data D E []); by rewrite app_nil_r|]. intros [] v E' [-> ->].
  eapply t_conseq; [apply t_put|]. intros [] v E' [-> ->]. split; [done|].
  intros X. destruct (K X) as (t1 & ts & t3 & t4 & -> & K1 & K2 & K3 & K4).
  exists D, t1, ts, t3, t4. split; [by apply OD; apply X|]. split; [|done].
  cbn [app]. rewrite <- !app_assoc. done.
Qed.

(** The help screen, without assumptions about memory and with ample memory. *)
Lemma help_safe p a command t T names s :
  printf_ok -> endable (p_config p) -> showable_table (a_prefix a) T -> selected a names ->
  match command with Some c => Some c = t | None => get_active_options a = Ok t end ->
  table_ptr t a = Ok T ->
  (oom (s_heap s) = [] \/ Forall (fun o => is_group o = false) T) ->
  exists u h', display_help p a command s = Shown (tt, Dst (s_out s ++ u) h') /\ released (s_heap s) h'.
Proof.
  intros PO EC ST Sel Ht HT SAFE.
  set (x := bool_decide (oom (s_heap s) = [])).
  destruct (triple_run (b := x) (display_help p a command) (fun _ _ _ => True) s) as ([] & u & h' & E & R & _).
  - eapply t_conseq; [eapply (t_display_help x); try done|].
    + destruct SAFE as [O|F]; [left; by apply bool_decide_eq_true|by right].
    + cbn. intros ? ? ? [-> _]. done.
  - intros Eb. by apply bool_decide_eq_true in Eb.
  - by exists u, h'.
Qed.
Lemma help_exact p a command t T names s :
  printf_ok -> good_config (p_config p) -> showable_table (a_prefix a) T ->
  fitting_table (p_config p) (a_prefix a) T -> selected a names ->
  match command with Some c => Some c = t | None => get_active_options a = Ok t end ->
  table_ptr t a = Ok T -> oom (s_heap s) = [] ->
  exists u h', display_help p a command s = Shown (tt, Dst (s_out s ++ u) h') /\
    released (s_heap s) h' /\ help_screen p (a_prefix a) names T u.
Proof.
  intros PO GC ST FT Sel Ht HT O.
  destruct (triple_run (b := true) (display_help p a command)
              (fun _ u _ => help_screen p (a_prefix a) names T u) s) as ([] & u & h' & E & R & K & _).
  - eapply t_conseq; [eapply (t_display_help true); try done; [by apply good_endable|by left]|].
    cbn. intros ? ? ? [-> K]. split; [done|]. by apply K.
  - done.
  - by exists u, h'.
Qed.

(** ** Usage *)
Lemma t_usage_positionals b T E :
  (forall o, o ∈ T -> entry_is TPositional o = true -> is_Some (d_name (decl_of o))) ->
  triple b E (print_usage_positionals T) (fun _ u E' => E' = E /\
    u = concat (map (fun o => " "%char :: argument_words (decl_of o) (default [] (d_name (decl_of o))))
            (List.filter (entry_is TPositional) T))).
Proof.
  induction T as [|o T IH]; intros N; cbn [print_usage_positionals List.filter]; [by apply t_ret|].
  assert (N' : forall o', o' ∈ T -> entry_is TPositional o' = true -> is_Some (d_name (decl_of o'))).
  { intros o' Ho. apply N. by right. }
  specialize (IH N').
  assert (K : entry_is TPositional o = match d_type (decl_of o) with TPositional => true | _ => false end).
  { unfold entry_is. by destruct (d_type (decl_of o)). }
  rewrite K. destruct (d_type (decl_of o)) eqn:Ety; try done.
  destruct (N o ltac:(left) K) as [n En]. rewrite En. cbn [dname].
  eapply t_bind; [by apply (t_ret _ n (fun x u E' => x = n /\ u = [] /\ E' = E))|].
  intros ? u E' (-> & -> & ->). eapply t_bind; [apply t_put|]. intros [] u E' [-> ->].
  eapply t_conseq; [exact IH|]. intros [] u E' [-> ->]. split; [done|].
  cbn [map concat]. rewrite En. cbn [default].
  assert (EB : bracketed (decl_of o) n = argument_words (decl_of o) n).
  { unfold bracketed, argument_words. rewrite <- bit_has. change (2 ^ 0)%N with FLAG_REQUIRED.
    destruct (has (d_flags (decl_of o)) FLAG_REQUIRED); by rewrite <- !app_assoc. }
  rewrite EB. done.
Qed.
Lemma have_sub T : have_subcommand T = existsb (entry_is TSubcommand) T.
Proof.
  unfold have_subcommand. induction T as [|o T IH]; [done|]. cbn. rewrite IH.
  unfold entry_is. by destruct (d_type (decl_of o)).
Qed.
Lemma usage_exact p a t T names out h :
  get_active_options a = Ok t -> table_ptr t a = Ok T -> selected a names ->
  (forall o, o ∈ T -> entry_is TPositional o = true -> is_Some (d_name (decl_of o))) ->
  exists h', display_usage p a (Dst out h) = Shown (tt, Dst (out ++ usage_line p names T) h') /\
    released h h'.
Proof.
  intros Et HT Sel N.
  destruct (triple_run (b := false) (display_usage p a) (fun _ u _ => u = usage_line p names T) (Dst out h))
    as ([] & u & h' & E & R & -> & _); [|done|by exists h'].
  unfold display_usage.
  eapply t_bind; [by apply t_lift|]. intros ? u E (-> & -> & ->).
  eapply t_bind; [apply t_put|]. intros [] u E [-> ->].
  eapply t_bind; [by apply (t_chain a (a_stack a) names)|]. intros [] u E [-> ->].
  eapply t_bind; [apply t_put|]. intros [] u E [-> ->].
  eapply t_bind; [by apply t_lift|]. intros ? u E (-> & -> & ->).
  eapply t_bind; [by apply t_usage_positionals|]. intros [] u E [-> ->].
  eapply t_bind; [apply t_put|]. intros [] u E [-> ->].
  eapply t_conseq; [apply t_put|]. intros [] u E [-> ->]. split; [done|].
  rewrite have_sub. unfold usage_line. cbn [app]. rewrite <- !app_assoc. done.
Qed.
End screens.
