(** * Proofs about the command overviews *)
From Coq Require Import Lia.
From Verif Require Export SpecCommands.

(** [m] prints exactly [t] and returns [a]. *)
Definition emits {A} (m : DM A) (a : A) (t : cstr) : Prop :=
  forall s, m s = Shown (a, Dst (s_out s ++ t) (s_heap s)).
Lemma dst_same s : Dst (s_out s ++ []) (s_heap s) = s.
Proof. rewrite app_nil_r. by destruct s. Qed.
Lemma e_ret {A} (a : A) : emits (dret a) a [].
Proof. intros s. by rewrite dst_same. Qed.
Lemma e_put t : emits (put t) tt t.
Proof. done. Qed.
Lemma e_bind {A B} (m : DM A) (k : A -> DM B) a b t u :
  emits m a t -> emits (k a) b u -> emits (dbind m k) b (t ++ u).
Proof.
  intros H1 H2 s. unfold dbind. rewrite H1, H2. cbn. by rewrite app_assoc.
Qed.
Lemma e_bind0 {A B} (m : DM A) (k : A -> DM B) a b u :
  emits m a [] -> emits (k a) b u -> emits (dbind m k) b u.
Proof. intros H1 H2. by apply (e_bind m k a b [] u). Qed.
Lemma e_lift {A} (a : A) : emits (dlift (Ok a)) a [].
Proof. apply e_ret. Qed.
Lemma e_eq {A} (m : DM A) a t u : emits m a t -> t = u -> emits m a u.
Proof. by intros H <-. Qed.

Lemma snprintf_fit n (t : cstr) : (length t <= n)%nat -> snprintf (S n) t = t.
Proof. intros L. unfold snprintf. rewrite take_ge; [done|cbn; lia]. Qed.

Lemma e_line c path help : emits (print_command_line c path help) tt (command_line c path help).
Proof.
  unfold print_command_line. eapply e_eq.
  - eapply e_bind; [apply e_put|]. eapply e_bind; [apply e_put|apply e_put].
  - unfold command_line. rewrite <- !app_assoc.
    replace (description_column c - length path - 2)%nat
      with (description_column c - (length path + 2))%nat by lia. done.
Qed.

Lemma runnable_eq o : is_runnable o = runnable o.
Proof. unfold is_runnable, runnable, entry_is. by destruct (d_type (decl_of o)). Qed.
Lemma runnable_sub o : runnable o = true -> entry_is TSubcommand o = true.
Proof. unfold runnable. by intros [? _]%andb_prop. Qed.

Section all.
Context (p : program) (a : argus).
Notation tabs := (a_tabs a).

Lemma exec_eq o :
  good_command tabs o -> entry_is TSubcommand o = true ->
  has_executable_subcommands a (decl_of o) = Ok (family tabs o) /\
  (family tabs o = true -> table_ptr (d_sub (decl_of o)) a = Ok (children tabs o)).
Proof.
  intros G S. destruct (G S) as [_ G2]. unfold has_executable_subcommands, family, children.
  rewrite S. cbn [andb]. destruct (d_sub (decl_of o)) as [t|]; [|done].
  destruct (G2 t eq_refl) as [T ET]. unfold table_ptr, table, cell. rewrite ET. cbn [rbind default].
  split; [|done]. f_equal. clear. induction T as [|o T IH]; [done|]. cbn. by rewrite IH, runnable_eq.
Qed.

Lemma e_simple T :
  short_paths (p_name p) tabs T ->
  let l := List.filter (fun o => runnable o && negb (family tabs o)) T in
  emits (print_simple_commands p a T) (match l with [] => false | _ => true end)
    (concat (map (line_of (p_config p) (p_name p)) l)).
Proof.
  induction T as [|o T IH]; intros SP; [apply e_ret|].
  assert (SP' : short_paths (p_name p) tabs T) by (intros o' Ho; apply SP; by right).
  specialize (IH SP'). destruct (SP o ltac:(left)) as (G & L & _).
  cbn [print_simple_commands List.filter]. rewrite runnable_eq.
  destruct (runnable o) eqn:R.
  - pose proof (runnable_sub o R) as S. destruct (exec_eq o G S) as [E _]. rewrite E.
    eapply e_bind0; [eapply e_bind0; [apply e_lift|apply e_ret]|]. cbn [andb].
    destruct (family tabs o); cbn [negb]; [exact IH|].
    destruct (G S) as [[n En] _]. rewrite En. cbn [map concat].
    eapply e_bind0; [apply e_ret|]. eapply e_bind.
    + unfold line_of, name_of in *. rewrite En in *. cbn [default] in *.
      change (p_name p ++ $" " ++ n) with (path_under (p_name p) n).
      rewrite snprintf_fit by done. apply e_line.
    + rewrite <- (app_nil_r (concat _)). eapply e_bind; [exact IH|apply e_ret].
  - eapply e_bind0; [apply e_ret|]. exact IH.
Qed.

Lemma e_family base U :
  (forall o, o ∈ U -> good_command tabs o /\ (length (path_under base (name_of o)) <= 1023)%nat) ->
  emits (print_family p base U) tt
    (concat (map (line_of (p_config p) base) (List.filter runnable U))).
Proof.
  induction U as [|o U IH]; intros SP; [apply e_ret|]. cbn [print_family List.filter].
  rewrite runnable_eq. destruct (SP o ltac:(left)) as [G L].
  assert (IH' := IH ltac:(intros o' Ho; apply SP; by right)). clear IH.
  destruct (runnable o) eqn:R; cbn [map concat].
  - pose proof (runnable_sub o R) as S. destruct (G S) as [[n En] _]. rewrite En.
    eapply e_bind; [|exact IH']. eapply e_bind0; [apply e_ret|].
    unfold line_of, name_of in *. rewrite En in *. cbn [default] in *.
    change (base ++ $" " ++ n) with (path_under base n).
    rewrite snprintf_fit by done. apply e_line.
  - eapply e_bind0; [apply e_ret|exact IH'].
Qed.

(** Blocks after something already printed ([again]) or not. *)
Definition after (again : bool) (l : list cstr) : cstr :=
  match l with [] => [] | _ => (if again then [newline] else []) ++ spaced l end.
Lemma after_cons again t l : after again (t :: l) = (if again then [newline] else []) ++ t ++ after true l.
Proof. unfold after. destruct l as [|u l]; cbn [spaced]; [by rewrite app_nil_r|done]. Qed.

Lemma e_families T : forall printed first,
  short_paths (p_name p) tabs T ->
  emits (print_command_families p a printed first T) tt
    (after (printed || negb first)
       (map (family_block (p_config p) (p_name p) tabs) (List.filter (family tabs) T))).
Proof.
  induction T as [|o T IH]; intros printed first SP; [apply e_ret|].
  assert (SP' : short_paths (p_name p) tabs T) by (intros o' Ho; apply SP; by right).
  destruct (SP o ltac:(left)) as (G & L & LC).
  cbn [print_command_families List.filter].
  assert (X : emits (match d_type (decl_of o) with
                 | TSubcommand => dlift (has_executable_subcommands a (decl_of o))
                 | _ => dret false
                 end) (family tabs o) []).
  { destruct (entry_is TSubcommand o) eqn:S.
    - destruct (exec_eq o G S) as [E _]. unfold entry_is in S. destruct (d_type (decl_of o)); try discriminate S.
      rewrite E. apply e_lift.
    - unfold family. rewrite S. cbn [andb]. unfold entry_is in S.
      destruct (d_type (decl_of o)); try discriminate S; apply e_ret. }
  eapply e_bind0; [exact X|]. destruct (family tabs o) eqn:F; [|by apply IH].
  assert (S : entry_is TSubcommand o = true) by (unfold family in F; by apply andb_prop in F as [? _]).
  destruct (exec_eq o G S) as [_ ET]. specialize (ET F). destruct (G S) as [[n En] _].
  cbn [map]. rewrite after_cons. eapply e_bind; [apply e_put|]. rewrite En.
  eapply e_bind0; [apply e_ret|].
  assert (N : name_of o = n) by (unfold name_of; by rewrite En). rewrite N in L.
  change (p_name p ++ $" " ++ n) with (path_under (p_name p) n).
  rewrite snprintf_fit by done. unfold family_block. rewrite <- app_assoc. rewrite N in *.
  eapply e_bind; [|].
  { instantiate (1 := tt). unfold runnable. rewrite S. cbn [andb].
    destruct (d_action (decl_of o)); [|apply e_ret].
    unfold line_of. rewrite N. apply e_line. }
  rewrite ET. eapply e_bind0; [apply e_lift|]. eapply e_bind.
  - apply e_family. intros o' Ho. by apply LC.
  - by apply (IH false false).
Qed.

Lemma all_commands_exact T :
  tabs !! a_root a = Some T -> short_paths (p_name p) tabs T ->
  emits (display_all_commands p a) tt (overview p tabs T).
Proof.
  intros ET SP. unfold display_all_commands, overview. eapply e_eq.
  - eapply e_bind; [apply e_put|]. eapply e_bind; [apply e_put|].
    unfold table, cell. rewrite ET. eapply e_bind0; [apply e_lift|].
    eapply e_bind; [by apply e_simple|]. eapply e_bind; [by apply e_families|]. apply e_put.
  - rewrite <- !app_assoc. do 4 f_equal. unfold overview_blocks.
    destruct (List.filter (fun o => runnable o && negb (family tabs o)) T) as [|o l].
    + cbn [app]. cbn [map concat app orb negb]. unfold after.
      by destruct (map (family_block (p_config p) (p_name p) tabs) (List.filter (family tabs) T)).
    + cbn [orb app]. set (F := map (family_block _ _ _) _). rewrite app_assoc. f_equal.
      change (concat (map (line_of (p_config p) (p_name p)) (o :: l)) ++ after true F =
              spaced (concat (map (line_of (p_config p) (p_name p)) (o :: l)) :: F)).
      unfold after. destruct F as [|f F]; [by rewrite app_nil_r|done].
Qed.
End all.

(** Everything in the first two levels is listed. *)
Definition shows (line t : cstr) : Prop := exists u v, t = u ++ line ++ v.
Lemma shows_app_l l t u : shows l t -> shows l (t ++ u).
Proof. intros (x & y & ->). exists x, (y ++ u). by rewrite <- !app_assoc. Qed.
Lemma shows_app_r l t u : shows l u -> shows l (t ++ u).
Proof. intros (x & y & ->). exists (t ++ x), y. by rewrite <- app_assoc. Qed.
Lemma shows_concat {A} (f : A -> cstr) (l : list A) x : x ∈ l -> shows (f x) (concat (map f l)).
Proof.
  induction 1 as [x l|x y l H IH]; cbn.
  - by exists [], (concat (map f l)).
  - by apply shows_app_r.
Qed.
Lemma shows_spaced l t ts : shows l t -> t ∈ ts -> shows l (spaced ts).
Proof.
  intros S. induction 1 as [t ts|t u ts H IH]; cbn [spaced].
  - destruct ts; [done|]. by apply shows_app_l.
  - destruct ts as [|x ts]; [by apply elem_of_nil in H|].
    apply shows_app_r. apply (shows_app_r l [newline]). by apply IH.
Qed.
Lemma shows_overview p tabs T l b :
  shows l b -> b ∈ overview_blocks (p_config p) (p_name p) tabs T -> shows l (overview p tabs T).
Proof.
  intros S I. unfold overview. do 4 apply shows_app_r. apply shows_app_l. by apply shows_spaced with b.
Qed.
Lemma overview_first p tabs T o :
  o ∈ T -> runnable o = true -> shows (line_of (p_config p) (p_name p) o) (overview p tabs T).
Proof.
  intros Ho R. destruct (family tabs o) eqn:F.
  - eapply shows_overview with (b := family_block (p_config p) (p_name p) tabs o).
    + unfold family_block. rewrite R. apply shows_app_l. exists [], []. by rewrite app_nil_r.
    + apply elem_of_app. right. apply elem_of_list_fmap. exists o. split; [done|].
      apply elem_of_list_In, filter_In. split; [by apply elem_of_list_In|done].
  - set (l := List.filter (fun o => runnable o && negb (family tabs o)) T).
    assert (I : o ∈ l).
    { apply elem_of_list_In, filter_In. split; [by apply elem_of_list_In|]. by rewrite R, F. }
    eapply shows_overview with (b := concat (map (line_of (p_config p) (p_name p)) l)).
    + by apply shows_concat.
    + apply elem_of_app. left. fold l. destruct l; [by apply elem_of_nil in I|left].
Qed.
Lemma overview_second p tabs T o o' :
  o ∈ T -> entry_is TSubcommand o = true -> o' ∈ children tabs o -> runnable o' = true ->
  shows (line_of (p_config p) (path_under (p_name p) (name_of o)) o') (overview p tabs T).
Proof.
  intros Ho S Ho' R.
  assert (F : family tabs o = true).
  { unfold family. rewrite S. cbn [andb]. apply existsb_exists. exists o'.
    split; [by apply elem_of_list_In|done]. }
  eapply shows_overview with (b := family_block (p_config p) (p_name p) tabs o).
  - unfold family_block. apply shows_app_r. apply shows_concat.
    apply elem_of_list_In, filter_In. split; [by apply elem_of_list_In|done].
  - apply elem_of_app. right. apply elem_of_list_fmap. exists o. split; [done|].
    apply elem_of_list_In, filter_In. split; [by apply elem_of_list_In|done].
Qed.

(** ** Below one command *)
Section below.
Context (c : helper_config) (a : argus).
(** The loop of print_subcommand_paths over one table. *)
Definition paths_loop (fuel' : nat) (base : cstr) :=
  fix loop (T : list opt) (started first : bool) : DM unit :=
     match T with
     | [] => dret tt
     | o :: T' =>
         match d_type (decl_of o) with
         | TSubcommand =>
             put (if negb started && negb first then [newline] else []) ;;^
             let^ n := dname (d_name (decl_of o)) in
             let path := snprintf 512 (base ++ $" " ++ n) in
             print_command_line c path (d_help (decl_of o)) ;;^
             (match d_sub (decl_of o) with
              | Some t' => print_subcommand_paths fuel' c a t' path true
              | None => dret tt
              end) ;;^
             loop T' true false
         | _ => loop T' started first
         end
     end.
Lemma paths_eq fuel t base first :
  print_subcommand_paths (S fuel) c a t base first =
  (let^ T := dlift (table a t) in paths_loop fuel base T false first).
Proof. done. Qed.
Lemma e_paths base T t :
  lists_below c (a_tabs a) base T t ->
  exists f0, forall fuel started first, (f0 <= fuel)%nat -> started || first = true ->
    emits (paths_loop fuel base T started first) tt t.
Proof.
  assert (Q : forall started first, started || first = true ->
            (if negb started && negb first then [newline] else []) = []) by (by intros [] []).
  induction 1 as [base|base o T t S B IH|base o n T t S N L D B IH|base o n T t k T' u S N L D E B1 IH1 B2 IH2].
  - exists O. intros. apply e_ret.
  - destruct IH as [f0 IH]. exists f0. intros fuel st fi F X. cbn [paths_loop].
    unfold entry_is in S. specialize (IH fuel st fi F X).
    destruct (d_type (decl_of o)); try discriminate S; exact IH.
  - destruct IH as [f0 IH]. exists f0. intros fuel st fi F X. cbn [paths_loop].
    unfold entry_is in S. destruct (d_type (decl_of o)); try discriminate S.
    rewrite (Q _ _ X), N, D.
    eapply e_bind0; [apply e_put|]. eapply e_bind0; [apply e_ret|].
    change (base ++ $" " ++ n) with (path_under base n). rewrite snprintf_fit by done.
    eapply e_bind; [apply e_line|]. eapply e_bind0; [apply e_ret|]. by apply IH.
  - destruct IH1 as [f1 IH1]. destruct IH2 as [f2 IH2]. exists (1 + (f1 + f2))%nat.
    intros fuel st fi F X. cbn [paths_loop].
    unfold entry_is in S. destruct (d_type (decl_of o)); try discriminate S.
    rewrite (Q _ _ X), N, D.
    eapply e_bind0; [apply e_put|]. eapply e_bind0; [apply e_ret|].
    change (base ++ $" " ++ n) with (path_under base n). rewrite snprintf_fit by done.
    eapply e_bind; [apply e_line|]. destruct fuel as [|fuel]; [lia|].
    eapply e_bind.
    + rewrite paths_eq. unfold table, cell. rewrite E. eapply e_bind0; [apply e_lift|].
      apply IH1; [lia|done].
    + apply IH2; [lia|done].
Qed.
Lemma e_chain stk names :
  Forall2 (fun r n => exists o, get_option a (fst r) (snd r) = Ok o /\ d_name (decl_of o) = Some n) stk names ->
  emits (print_chain a stk) tt (path_words names).
Proof.
  induction 1 as [|r n stk names (o & E & N) H IH]; [apply e_ret|]. cbn [print_chain].
  rewrite E. eapply e_bind0; [apply e_lift|]. rewrite N. eapply e_bind0; [apply e_ret|].
  eapply e_bind; [apply e_put|exact IH].
Qed.
End below.
Lemma available_exact p a r o n k T body names :
  get_option a (fst r) (snd r) = Ok o -> d_name (decl_of o) = Some n ->
  d_sub (decl_of o) = Some k -> a_tabs a !! k = Some T ->
  lists_below (p_config p) (a_tabs a) n T body -> selected a names ->
  exists f0, forall fuel, (f0 <= fuel)%nat ->
    emits (display_available_subcommands fuel p a r) tt (below_screen p names n body).
Proof.
  intros E N D ET B Sel. destruct (e_paths _ _ _ _ _ B) as [f0 P]. exists (S f0).
  intros [|fuel] F; [lia|]. unfold display_available_subcommands, below_screen. eapply e_eq.
  - rewrite E. eapply e_bind0; [apply e_lift|]. rewrite N. eapply e_bind0; [apply e_ret|].
    eapply e_bind; [apply e_put|]. eapply e_bind; [apply e_put|]. rewrite D.
    eapply e_bind.
    + rewrite paths_eq. unfold table, cell. rewrite ET. eapply e_bind0; [apply e_lift|].
      apply P; [lia|done].
    + eapply e_bind; [apply e_put|]. eapply e_bind; [by apply e_chain|apply e_put].
  - rewrite <- !app_assoc. done.
Qed.
