(** * Command lines written after the usage line: proofs *)
From Coq Require Import Lia.
From Verif Require Import Macros Validate Api LibProofs FrameProofs SpecGrammar GrammarProofs GrammarLemmas
  ActiveProofs AfterProofs EnvProofs CallProofs WholeProofs AfterFacts MoreFacts SpecMessages Display Stdout
  SpecStdout AskedProofs TypedProofs.
From Verif Require Export SpecTemplate.
From Verif Require Import SpecAfter.

Lemma entry_is_positional o : entry_is TPositional o = true <-> positional (decl_of o).
Proof. unfold entry_is, positional. by destruct (d_type (decl_of o)). Qed.

(** Index of the k-th positional *)
Fixpoint place_of (T : list opt) (k : nat) : nat :=
  match T with
  | [] => O
  | o :: T' => if entry_is TPositional o then match k with O => O | S k' => S (place_of T' k') end
               else S (place_of T' k)
  end.
Lemma place_of_spec T : forall k o, arguments T !! k = Some o ->
  T !! place_of T k = Some o /\ positional (decl_of o) /\ positionals_before (map decl_of T) (place_of T k) = k.
Proof.
  unfold arguments. induction T as [|x T IH]; intros k o E; [done|]. cbn [List.filter place_of] in *.
  destruct (entry_is TPositional x) eqn:Ex.
  - destruct k as [|k]; cbn in E.
    + injection E as <-. split; [done|]. split; [by apply entry_is_positional|done].
    + destruct (IH _ _ E) as (H1 & H2 & H3). split; [done|]. split; [done|].
      unfold positionals_before in *. cbn [map take List.filter]. apply entry_is_positional in Ex.
      rewrite bool_decide_eq_true_2 by exact Ex. cbn [length]. by rewrite H3.
  - destruct (IH _ _ E) as (H1 & H2 & H3). split; [done|]. split; [done|].
    unfold positionals_before in *. cbn [map take List.filter].
    rewrite bool_decide_eq_false_2; [done|]. intros Hp. apply entry_is_positional in Hp. by rewrite Hp in Ex.
Qed.
Lemma receives_place T k n : orderly T -> enough T n -> (k < n)%nat ->
  exists o, argument_for T k = Some o /\
    receives (map decl_of T) k (place_of T (Nat.min k (length (arguments T) - 1))) /\
    T !! place_of T (Nat.min k (length (arguments T) - 1)) = Some o.
Proof.
  intros Ho He Hk. set (m := Nat.min k (length (arguments T) - 1)).
  assert (Hne : (0 < length (arguments T))%nat).
  { destruct He as [He|(x & Hx & _)]; [lia|]. destruct (arguments T); [done|cbn; lia]. }
  destruct (lookup_lt_is_Some_2 (arguments T) m) as [o Eo]; [lia|].
  destruct (place_of_spec T m o Eo) as (H1 & H2 & H3).
  exists o. split; [exact Eo|]. split; [|exact H1]. exists (decl_of o).
  assert (L : forall i x, T !! i = Some x -> map decl_of T !! i = Some (decl_of x)).
  { intros i x Hx. by rewrite list_lookup_fmap, Hx. }
  split; [by apply L|]. split; [done|]. split.
  - intros j e Hj Hje Hpe Hv. rewrite list_lookup_fmap in Hje. destruct (T !! j) as [x|] eqn:Ex; [|done].
    injection Hje as <-. pose proof (Ho j _ x o Ex Hpe Hv H1 H2). lia.
  - destruct (decide (k < length (arguments T))%nat) as [Hlt|Hge].
    + left. rewrite H3. subst m. lia.
    + right. destruct He as [He|(x & Hx & Hv)]; [lia|]. rewrite last_lookup in Hx.
      replace (Nat.pred (length (arguments T))) with m in Hx by (subst m; lia).
      rewrite Eo in Hx. injection Hx as ->. split; [done|]. rewrite H3. subst m. lia.
Qed.

Definition entering (rs : list (nat * nat)) : list item := map (fun r => Enter (fst r) (snd r)) rs.
Lemma entered_handed t r : forall ws k, entered (handed t r k ws) = [].
Proof. induction ws as [|w ws IH]; intros k; [done|]. cbn. apply IH. Qed.
Lemma entered_entering rs : entered (entering rs) = rs.
Proof. induction rs as [|[t i] rs IH]; [done|]. cbn. f_equal. exact IH. Qed.
Lemma entered_app_ l l' : entered (l ++ l') = entered l ++ entered l'.
Proof. unfold entered. apply omap_app. Qed.
Lemma names_entering D t ws rs d t' post its : names D t ws rs d t' -> reads D t' 0 false post its ->
  reads D t 0 false (ws ++ post) (entering rs ++ its).
Proof.
  intros Hn Hr. induction Hn as [t T w i d t' HT Hc Hs|t T w i d t' ws rs d' t'' HT Hc Hs Hn IH]; cbn [app entering map].
  - eapply r_sub; [exact HT|apply Hc|by eapply callable_selects|apply Hc|exact Hs|exact Hr].
  - eapply r_sub; [exact HT|apply Hc|by eapply callable_selects|apply Hc|exact Hs|by apply IH].
Qed.
Lemma names_called D t ws rs d t' : names D t ws rs d t' ->
  Forall2 (fun r c => exists T d, D !! fst r = Some T /\ T !! snd r = Some d /\ d_name d = Some c) rs ws.
Proof.
  intros Hn. induction Hn as [t T w i d t' HT Hc Hs|t T w i d t' ws rs d' t'' HT Hc Hs Hn IH].
  - constructor; [|constructor]. exists T, d. split; [done|]. split; apply Hc.
  - constructor; [|exact IH]. exists T, d. split; [done|]. split; apply Hc.
Qed.
Lemma names_current D t ws rs d t' : names D t ws rs d t' ->
  exists r T, last rs = Some r /\ D !! fst r = Some T /\ T !! snd r = Some d /\ d_sub d = Some t'.
Proof.
  intros Hn. induction Hn as [t T w i d t' HT Hc Hs|t T w i d t' ws rs d' t'' HT Hc Hs Hn IH].
  - exists (t, i), T. split; [done|]. split; [done|]. split; [apply Hc|done].
  - destruct IH as (r & T' & E & H1). exists r, T'. split; [|done]. destruct rs; [done|]. exact E.
Qed.

Lemma template_read a ws rs t T vs : leads_to (decls a) (a_root a) ws rs t -> a_tabs a !! t = Some T ->
  orderly T -> enough T (length vs) -> Forall (plain_word (map decl_of T)) vs ->
  exists r, reads (decls a) (a_root a) 0 false (ws ++ vs)
      (map (fun r => Enter (fst r) (snd r)) rs ++ handed t r 0 vs) /\
    forall k, (k < length vs)%nat -> exists o, T !! r k = Some o /\ argument_for T k = Some o.
Proof.
  intros Hl HT Ho He Hp. exists (fun k => place_of T (Nat.min k (length (arguments T) - 1))).
  assert (HD : decls a !! t = Some (map decl_of T)).
  { unfold decls. by rewrite list_lookup_fmap, HT. }
  assert (R : reads (decls a) t 0 false vs
    (handed t (fun k => place_of T (Nat.min k (length (arguments T) - 1))) 0 vs)).
  { eapply reads_words; [exact HD|exact Hp|]. intros j Hj. cbn [Nat.add].
    destruct (receives_place T j (length vs) Ho He Hj) as (o & _ & H & _). exact H. }
  split.
  - destruct Hl as [(-> & -> & ->)|(d & Hn)]; [exact R|]. exact (names_entering _ _ _ _ _ _ _ _ Hn R).
  - intros k Hk. destruct (receives_place T k (length vs) Ho He Hk) as (o & H1 & _ & H2). by exists o.
Qed.
Lemma template_usage `{Libc} p a ws rs t T vs a' h : fresh a ->
  leads_to (decls a) (a_root a) ws rs t -> a_tabs a !! t = Some T ->
  orderly T -> enough T (length vs) -> Forall (plain_word (map decl_of T)) vs ->
  argus_parse a (ws ++ vs) = Ok (Returned 0, a') ->
  argus_print_usage p a' (Dst [] h) = Shown (tt, Dst (
    $"Usage: " ++ p_name p ++ path_words ws ++ $" [OPTIONS]" ++
    concat (map (fun o => " "%char :: argument_words (decl_of o) (default [] (d_name (decl_of o)))) (arguments T)) ++
    (if existsb (entry_is TSubcommand) T then $" COMMAND" else []) ++ [newline]) h).
Proof.
  intros Hf Hl HT Ho He Hp E.
  destruct (template_read a ws rs t T vs Hl HT Ho He Hp) as (r & R & _). fold (entering rs) in R.
  assert (En : entered (entering rs ++ handed t r 0 vs) = rs).
  { by rewrite entered_app_, entered_entering, entered_handed, app_nil_r. }
  refine (asked_usage p a (ws ++ vs) a' _ ws t T [] h Hf E R _ _ HT _).
  - unfold called. rewrite En. destruct Hl as [(-> & -> & ->)|(d & Hn)]; [constructor|].
    exact (names_called _ _ _ _ _ _ Hn).
  - unfold current. rewrite En. destruct Hl as [(-> & -> & ->)|(d & Hn)]; [done|].
    destruct (names_current _ _ _ _ _ _ Hn) as (x & U & -> & H1 & H2 & H3). by exists U, d.
  - intros x Hx Ht. pose proof (f_named a Hf t T HT) as N. apply (N x Hx).
    unfold group_entry. by rewrite Ht.
Qed.
