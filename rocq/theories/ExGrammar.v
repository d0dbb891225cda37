(** * Lemmas to build concrete instances of the hypotheses of PropsGrammar.v *)
From Verif Require Import Api LibProofs FrameProofs SpecGrammar GrammarProofs GrammarLemmas ExLib.
From Coq Require Import Lia.

Definition subs_presentb (D : list (list decl)) : bool :=
  forallb (forallb (fun d => negb (bool_decide (d_type d = TSubcommand)) ||
    match d_sub d with Some t => (t <? length D)%nat | None => false end)) D.
Lemma subs_presentb_ok D : subs_presentb D = true -> subs_present D.
Proof.
  unfold subs_presentb, subs_present. intros H t T i d HT Hi Hd.
  rewrite forallb_forall in H. specialize (H T).
  rewrite forallb_forall in H.
  specialize (H ltac:(apply elem_of_list_In; by eapply elem_of_list_lookup_2) d
                ltac:(apply elem_of_list_In; by eapply elem_of_list_lookup_2)).
  rewrite bool_decide_eq_true_2 in H by done. simpl in H.
  destruct (d_sub d) as [t'|]; [|done]. exists t'. split; [done|].
  apply Nat.ltb_lt in H. by apply lookup_lt_is_Some_2.
Qed.

Lemma leads_nil D t k only : leads D t k only [] t k only [].
Proof. split; [done|]. intros c m. apply not_elem_of_nil. Qed.
Lemma leads_trans D t k o p t1 k1 o1 its p' t2 k2 o2 its' :
  leads D t k o p t1 k1 o1 its -> leads D t1 k1 o1 p' t2 k2 o2 its' ->
  leads D t k o (p ++ p') t2 k2 o2 (its ++ its').
Proof.
  intros [H1 R1] [H2 R2]. split.
  - intros rest its'' Hr. rewrite <- !app_assoc. auto.
  - intros c m. rewrite elem_of_app. intros [?|?]; [by eapply R1|by eapply R2].
Qed.
Lemma no_rej_call t i v c m : Reject c m ∉ [Call t i v].
Proof. rewrite elem_of_list_singleton. done. Qed.

Lemma leads_flag D t T k name i d :
  D !! t = Some T -> "="%char ∉ name -> name <> [] ->
  dlong T (key63 name) = Some i -> T !! i = Some d -> d_vtype d = 16%N ->
  leads D t k false [$"--" ++ name] t k false [Call t i None].
Proof.
  intros HT He Hn Hl Hd Hf. split; [|apply no_rej_call]. intros rest its' Hr.
  cbn [app]. rewrite <- (app_nil_r name). eapply r_long_flag; eauto.
  - rewrite app_nil_r. done.
  - by apply dlong_Some.
Qed.
Lemma leads_long D t T k name v i d :
  D !! t = Some T -> "="%char ∉ name -> name <> [] ->
  dlong T (key63 name) = Some i -> T !! i = Some d -> d_vtype d <> 16%N ->
  leads D t k false [$"--" ++ name; v] t k false [Call t i (Some v)].
Proof.
  intros HT He Hn Hl Hd Hf. split; [|apply no_rej_call]. intros rest its' Hr.
  cbn [app]. eapply r_long_separate; eauto. by apply dlong_Some.
Qed.
Lemma leads_word D t T k w i :
  D !! t = Some T -> head w <> Some "-"%char -> dsub_loop T w None 0 = SubNone ->
  dpos T k = Some i ->
  leads D t k false [w] t (S k) false [Call t i (Some w)].
Proof.
  intros HT Hw Hs Hp. split; [|apply no_rej_call]. intros rest its' Hr.
  apply dsub_find in Hs. inversion Hs; subst.
  cbn [app]. eapply r_word; eauto; [|by apply dpos_Some]. intros s ->. done.
Qed.
Lemma leads_sub D t T k w i d t' :
  D !! t = Some T -> head w <> Some "-"%char -> dsub_loop T w None 0 = SubFound i ->
  T !! i = Some d -> d_sub d = Some t' ->
  leads D t k false [w] t' 0 false [Enter t i].
Proof.
  intros HT Hw Hs Hd Ht. split; [|intros c m; rewrite elem_of_list_singleton; done]. intros rest its' Hr.
  apply dsub_find in Hs. inversion Hs; subst.
  cbn [app]. eapply r_sub; eauto. intros s ->. done.
Qed.

Lemma not_in_dec (c : ascii) (l : cstr) : bool_decide (c ∈ l) = false -> c ∉ l.
Proof. apply bool_decide_eq_false. Qed.
Lemma not_negative T k s : dneg T k s = false -> ~ negative_for T k s.
Proof. rewrite <- dneg_dec. congruence. Qed.

(** The table of [ex_flat_ctx]. *)
Definition T0 : list decl := map decl_of (default [] (head ex_flat)).
Definition T0' : list decl := map decl_of (default [] (head ex_tree)).

(** The beginning "--verbose --output f 3" of a command line for [ex_flat_ctx]. *)
Definition pre0 : list cstr := [$"--verbose"; $"--output"; $"f"; $"3"].
Definition its0 : list item :=
  [Call 0 1 None; Call 0 3 (Some ($"f")); Call 0 6 (Some ($"3"))].
Lemma pre0_reached : reached ex_flat_ctx pre0 0 T0 1 false its0.
Proof.
  constructor.
  - apply subs_presentb_ok. vm_compute. reflexivity.
  - eexists. reflexivity.
  - reflexivity.
  - change pre0 with ([$"--" ++ $"verbose"] ++ [$"--" ++ $"output"; $"f"] ++ [$"3"]).
    change its0 with ([Call 0 1 None] ++ [Call 0 3 (Some ($"f"))] ++ [Call 0 6 (Some ($"3"))]).
    eapply leads_trans.
    { eapply (leads_flag _ _ T0); [reflexivity|by apply not_in_dec|done|vm_compute; reflexivity..]. }
    eapply leads_trans.
    { eapply (leads_long _ _ T0); [reflexivity|by apply not_in_dec|done|vm_compute; reflexivity..|].
      vm_compute. done. }
    eapply (leads_word _ _ T0); [reflexivity|done|vm_compute; reflexivity..].
Qed.
Lemma start_reached : reached ex_flat_ctx [] 0 T0 0 false [].
Proof.
  constructor; [|eexists; reflexivity|reflexivity|apply leads_nil].
  apply subs_presentb_ok. vm_compute. reflexivity.
Qed.
Lemma tree_reached : reached ex_tree_ctx [$"--verbose"] 0 T0' 0 false [Call 0 1 None].
Proof.
  constructor; [|eexists; reflexivity|reflexivity|].
  - apply subs_presentb_ok. vm_compute. reflexivity.
  - eapply (leads_flag _ _ T0' _ ($"verbose"));
      [reflexivity|by apply not_in_dec|done|vm_compute; reflexivity..].
Qed.
