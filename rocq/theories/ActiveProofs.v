(** * The current table while a command line is carried out *)
From Coq Require Import Lia.
From Verif Require Import Api LibProofs FrameProofs SpecGrammar GrammarProofs GrammarLemmas.

(** The table in which the reader is after [its], starting in [t]. *)
Fixpoint ends (D : list (list decl)) (t : nat) (its : list item) : option nat :=
  match its with
  | [] => Some t
  | Call t' _ _ :: r => if decide (t' = t) then ends D t r else None
  | Enter t' i :: r =>
      if decide (t' = t) then
        match D !! t with
        | Some T => match T !! i with
                    | Some d => match d_sub d with Some t2 => ends D t2 r | None => None end
                    | None => None end
        | None => None end
      else None
  | Reject _ _ :: r => ends D t r
  end.

Lemma ends_app D its1 : forall t its2,
  ends D t (its1 ++ its2) = match ends D t its1 with Some t' => ends D t' its2 | None => None end.
Proof.
  induction its1 as [|[t' i v|t' i|c] its1 IH]; intros t its2; cbn [app ends]; [done|..].
  - destruct (decide (t' = t)); [apply IH|done].
  - destruct (decide (t' = t)); [|done]. destruct (D !! t) as [T|]; [|done].
    destruct (T !! i) as [d|]; [|done]. destruct (d_sub d); [apply IH|done].
  - apply IH.
Qed.

Lemma cluster_ends D T t rest cs its r : cluster T t rest cs its r -> ends D t its = Some t.
Proof. induction 1; cbn [ends]; rewrite ?decide_True by done; done. Qed.

Lemma reads_ends D t k only argv its : reads D t k only argv its -> is_Some (ends D t its).
Proof.
  induction 1; cbn [ends]; rewrite ?decide_True by done; try done; eauto.
  - rewrite ends_app. erewrite cluster_ends by eauto. done.
  - erewrite cluster_ends by eauto. eauto.
  - rewrite H, H2, H3. done.
Qed.

Lemma leads_ends D t k o pre t' k' o' its :
  is_Some (D !! t') -> (exists rest its', reads D t' k' o' rest its' /\ exists i v r, its' = Call t' i v :: r) ->
  leads D t k o pre t' k' o' its -> ends D t its = Some t'.
Proof.
  intros HT (rest & its' & Hr & i & v & r & ->) [Hl _]. apply Hl in Hr. apply reads_ends in Hr.
  rewrite ends_app in Hr. destruct (ends D t its) as [t2|]; [|by destruct Hr].
  cbn [ends] in Hr. destruct (decide (t' = t2)) as [->|]; [done|by destruct Hr].
Qed.

Section libc.
Context `{Libc}.

Lemma sub_of_decls a r : sub_of a r =
  match decls a !! fst r with
  | Some T => match T !! snd r with Some d => Ok (d_sub d) | None => UB OutOfBounds end
  | None => UB WildPtr
  end.
Proof.
  unfold sub_of, get_option, table, cell, decls. rewrite list_lookup_fmap.
  destruct (a_tabs a !! fst r) as [T|]; [|done]. simpl. rewrite list_lookup_fmap.
  destruct (T !! snd r); done.
Qed.
Lemma active_frame a a' :
  a_root a' = a_root a -> a_stack a' = a_stack a -> decls a' = decls a ->
  get_active_options a' = get_active_options a.
Proof.
  intros E1 E2 E3. unfold get_active_options. rewrite E1, E2. destruct (last (a_stack a)); [|done].
  rewrite !sub_of_decls, E3. done.
Qed.

Lemma select_active a t i a' T d :
  select a t i = Ok a' -> decls a !! t = Some T -> T !! i = Some d ->
  get_active_options a' = Ok (d_sub d).
Proof.
  intros E HT Hd. pose proof (select_decls _ _ _ _ E) as Hdec.
  unfold select in E. apply rbind_Ok in E as (o & Ho & E). destruct (_ <? _)%nat; [|done].
  injection E as <-. unfold get_active_options. cbn [a_stack set_stack]. rewrite last_snoc.
  rewrite sub_of_decls. rewrite Hdec. cbn [fst snd]. rewrite HT, Hd. done.
Qed.

Lemma perform_active its : forall a t a1 t',
  get_active_options a = Ok (Some t) -> perform a its = Ok (0, a1) ->
  (forall c m, Reject c m ∉ its) ->
  ends (decls a) t its = Some t' -> get_active_options a1 = Ok (Some t') /\ a_root a1 = a_root a.
Proof.
  induction its as [|[t0 i v|t0 i|c m] its IH]; intros a t a1 t' Ha Hp Hn He; cbn [ends perform] in *.
  - injection Hp as <-. injection He as <-. done.
  - destruct (decide (t0 = t)) as [->|]; [|done].
    apply rbind_Ok in Hp as ([st a2] & E & Hp). cbv beta iota in Hp.
    destruct (Z.eqb_spec st 0) as [->|]; [|congruence].
    apply execute_callbacks_frame in E as [F1 F2 _ F4 _].
    destruct (IH a2 t a1 t') as [IH1 IH2]; auto.
    + rewrite (active_frame a a2) by done. done.
    + intros c m Hc. apply (Hn c m). by right.
    + congruence.
    + split; [done|congruence].
  - destruct (decide (t0 = t)) as [->|]; [|done].
    destruct (decls a !! t) as [T|] eqn:HT; [|done].
    destruct (T !! i) as [d|] eqn:Hd; [|done].
    destruct (d_sub d) as [t2|] eqn:Ht2; [|done].
    apply rbind_Ok in Hp as (a2 & E & Hp).
    pose proof (select_active _ _ _ _ _ _ E HT Hd) as Hact.
    pose proof (select_decls _ _ _ _ E) as Hdec.
    assert (Hroot : a_root a2 = a_root a).
    { unfold select in E. apply rbind_Ok in E as (o & _ & E). destruct (_ <? _)%nat; [|done].
      injection E as <-. done. }
    destruct (IH a2 t2 a1 t') as [IH1 IH2]; auto.
    + congruence.
    + intros c m Hc. apply (Hn c m). by right.
    + congruence.
    + split; [done|congruence].
  - destruct (Hn c m). by left.
Qed.

(** ** Help and version screens *)
Lemma run_screen a t i o f ev :
  get_option a t i = Ok o -> d_handler (decl_of o) = Some f -> d_validators (decl_of o) = None ->
  has (d_flags (decl_of o)) FLAG_EXIT = true ->
  (forall act, get_active_options a = Ok act ->
     run_handler (default (a_root a) act) f None (Hst o (a_heap a) []) =
     Ok (0, Hst o (a_heap a) [ev])) ->
  is_Some (match get_active_options a with Ok x => Some x | UB _ => None end) ->
  exists a', execute_callbacks a t i None = Ok (1, a') /\
    a_log a' = a_log a ++ [ev] /\ a_heap a' = a_heap a /\
    same_frame t i a a'.
Proof.
  intros Ho Hf Hv Hx Hrun [act0 Hact].
  destruct (get_active_options a) as [act|] eqn:Ea; [|done]. injection Hact as ->.
  specialize (Hrun act0 eq_refl).
  assert (Hex : exists a', execute_callbacks a t i None = Ok (1, a') /\
    a_log a' = a_log a ++ [ev] /\ a_heap a' = a_heap a).
  { unfold execute_callbacks. rewrite Ho. cbn [rbind]. rewrite Hf, Hv. cbn [rbind].
    change (negb (SUCCESS =? SUCCESS)) with false. cbv iota zeta beta.
    cbn [apply_events fold_left]. rewrite Ea. cbn [rbind]. rewrite Hrun. cbn [rbind].
    change (negb (0 =? SUCCESS)) with false. cbv iota.
    cbn [apply_events fold_left h_log h_heap h_opt].
    set (a2 := apply_event (set_heap (put_option a t i o) (a_heap a)) ev).
    assert (Ho2 : get_option a2 t i = Ok o).
    { rewrite (get_option_tabs a2 (put_option a t i o)).
      - by erewrite get_put_same.
      - unfold a2. rewrite apply_event_tabs. done. }
    rewrite Ho2. cbn [rbind].
    assert (Hd : decl_of (if (value_count (with_set o true) =? 0)%nat
       then with_count (with_set o true) 1 else with_set o true) = decl_of o)
      by (destruct (_ =? _)%nat; done).
    rewrite Hd, Hx. eexists. split; [reflexivity|].
    split; [|destruct ev; done]. unfold a2. destruct ev; done. }
  destruct Hex as (a' & E & Hl & Hh). exists a'. split; [done|]. split; [done|].
  split; [done|]. by eapply execute_callbacks_frame.
Qed.

Lemma run_help a t i o :
  get_option a t i = Ok o -> d_handler (decl_of o) = Some HHelp -> d_validators (decl_of o) = None ->
  has (d_flags (decl_of o)) FLAG_EXIT = true ->
  get_active_options a = Ok (Some t) ->
  exists a', execute_callbacks a t i None = Ok (1, a') /\
    a_log a' = a_log a ++ [EHelp t] /\ a_heap a' = a_heap a /\ same_frame t i a a'.
Proof.
  intros Ho Hf Hv Hx Ha. eapply run_screen; eauto.
  - intros act E. rewrite Ha in E. injection E as <-. done.
  - rewrite Ha. done.
Qed.

Lemma help_exits a pre t T k its name i d a1 post :
  a_stack a = [] ->
  reached a pre t T k false its ->
  "="%char ∉ name -> name <> [] ->
  first (long_named (key63 name)) T i -> T !! i = Some d -> flag_option d ->
  d_handler d = Some HHelp -> d_validators d = None -> N.testbit (d_flags d) 5 = true ->
  perform a its = Ok (0, a1) ->
  exists a2, argus_parse a (pre ++ ($"--" ++ name) :: post) =
               (let* a3 := argus_free a2 in Ok (Exited 0, a3)) /\
    a_log a2 = a_log a1 ++ [EHelp t].
Proof.
  intros Hstk Hr Heq Hne Hf Hd Hfl Hh Hv Hx Hp.
  assert (R : forall post its', reads (decls a) t k false post its' ->
     reads (decls a) t k false (($"--" ++ name) :: post) (Call t i None :: its')).
  { intros. rewrite <- (app_nil_r name). destruct Hr. eapply r_long_flag; eauto.
    rewrite app_nil_r. done. }
  pose proof Hr as [HS HR HT Hl].
  assert (He : ends (decls a) (a_root a) its = Some t).
  { eapply leads_ends; [eauto| |exact Hl]. exists [$"--" ++ name], [Call t i None].
    split; [apply R; constructor|eauto]. }
  destruct (perform_active its a (a_root a) a1 t) as [Hact Hroot]; auto.
  { unfold get_active_options. rewrite Hstk. done. }
  { apply Hl. }
  pose proof (perform_decls _ _ _ _ Hp) as Hdec.
  destruct (decls_option a1 t T i d) as (o & Ho & Hod); [congruence|done|].
  destruct (run_help a1 t i o) as (a2 & E & Hlog & _ & _); rewrite ?Hod; auto.
  { by apply (has_bit _ 5) in Hx. }
  destruct (reached_total _ _ _ _ _ _ _ post Hr) as [its' Hp'].
  exists (set_err a2 1). split; [|done].
  eapply (parse_exit a _ (its ++ Call t i None :: its')); auto.
  - apply Hl, R. done.
  - rewrite perform_app by apply Hl. rewrite Hp. cbn [rbind perform].
    change (0 =? 0) with true. cbv iota. rewrite E. done.
Qed.
End libc.
