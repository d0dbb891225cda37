(** * Corollaries of the grammar theorem (proofs for PropsGrammar.v) *)
From Verif Require Import Api LibProofs FrameProofs SpecGrammar GrammarProofs.
From Coq Require Import Lia.

Section libc.
Context `{Libc}.

Lemma perform_app a its1 its2 :
  (forall c m, Reject c m ∉ its1) ->
  perform a (its1 ++ its2) =
  let* (st, a') := perform a its1 in if st =? 0 then perform a' its2 else Ok (st, a').
Proof.
  revert a. induction its1 as [|[t i v|t i|c m] its1 IH]; intros a HR; cbn [app perform].
  - done.
  - destruct (execute_callbacks a t i v) as [[st a']|]; cbn [rbind]; [|done].
    destruct (st =? 0) eqn:E; cbn [rbind]; [|rewrite E; done].
    apply IH. intros c m Hc. apply (HR c m). by right.
  - destruct (select a t i); cbn [rbind]; [|done].
    apply IH. intros c m Hc. apply (HR c m). by right.
  - destruct (HR c m). by left.
Qed.

Lemma reached_parse a pre t T k only its argv its' :
  reached a pre t T k only its -> reads (decls a) t k only argv its' ->
  parse_args a (Some (a_root a)) 0 false (pre ++ argv) = perform a (its ++ its').
Proof.
  intros [HS HR HT [Hl _]] Hr. apply parse_reads; [done|done|]. by apply Hl.
Qed.
Lemma reached_total a pre t T k only its argv :
  reached a pre t T k only its -> exists its', reads (decls a) t k only argv its'.
Proof. intros [HS HR HT _]. apply reads_total; eauto. Qed.

Lemma same_reading a pre t T k only its argv1 argv2 :
  reached a pre t T k only its ->
  (exists its', reads (decls a) t k only argv1 its' /\ reads (decls a) t k only argv2 its') ->
  argus_parse a (pre ++ argv1) = argus_parse a (pre ++ argv2).
Proof.
  intros Hr (its' & H1 & H2). unfold argus_parse.
  rewrite (reached_parse _ _ _ _ _ _ _ _ _ Hr H1), (reached_parse _ _ _ _ _ _ _ _ _ Hr H2). done.
Qed.

Lemma argus_parse_perform a argv its :
  subs_present (decls a) -> is_Some (decls a !! a_root a) ->
  reads (decls a) (a_root a) 0 false argv its ->
  parse_args a (Some (a_root a)) 0 false argv = perform a its.
Proof. apply parse_reads. Qed.

Lemma parse_error a argv its st a1 :
  subs_present (decls a) -> is_Some (decls a !! a_root a) ->
  reads (decls a) (a_root a) 0 false argv its ->
  perform a its = Ok (st, a1) -> st <> 0 -> st <> 1 ->
  argus_parse a argv =
    let* a2 := argus_free (add_log (set_err a1 st) [EUsage]) in Ok (Returned st, a2).
Proof.
  intros HS HR Hr Hp H0 H1. unfold argus_parse.
  rewrite (argus_parse_perform _ _ _ HS HR Hr), Hp. cbn [rbind]. unfold SHOULD_EXIT, SUCCESS.
  destruct (Z.eqb_spec st 1); [done|]. destruct (Z.eqb_spec st 0); done.
Qed.
Lemma parse_exit a argv its a1 :
  subs_present (decls a) -> is_Some (decls a !! a_root a) ->
  reads (decls a) (a_root a) 0 false argv its ->
  perform a its = Ok (1, a1) ->
  argus_parse a argv = let* a2 := argus_free (set_err a1 1) in Ok (Exited 0, a2).
Proof.
  intros HS HR Hr Hp. unfold argus_parse.
  rewrite (argus_parse_perform _ _ _ HS HR Hr), Hp. done.
Qed.
Lemma parse_ub a argv its u :
  subs_present (decls a) -> is_Some (decls a !! a_root a) ->
  reads (decls a) (a_root a) 0 false argv its ->
  perform a its = UB u -> argus_parse a argv = UB u.
Proof.
  intros HS HR Hr Hp. unfold argus_parse.
  rewrite (argus_parse_perform _ _ _ HS HR Hr), Hp. done.
Qed.
Lemma parse_goes_on a argv its a1 :
  subs_present (decls a) -> is_Some (decls a !! a_root a) ->
  reads (decls a) (a_root a) 0 false argv its ->
  perform a its = Ok (0, a1) ->
  argus_parse a argv = argus_parse a1 [].
Proof.
  intros HS HR Hr Hp. unfold argus_parse.
  rewrite (argus_parse_perform _ _ _ HS HR Hr), Hp. done.
Qed.

(** ** C02-C05 *)
Lemma equal_or_separate a pre t T k its name v i d post :
  reached a pre t T k false its ->
  "="%char ∉ name -> name <> [] ->
  first (long_named (key63 name)) T i -> T !! i = Some d -> ~ flag_option d ->
  argus_parse a (pre ++ ($"--" ++ name ++ "="%char :: v) :: post) =
  argus_parse a (pre ++ ($"--" ++ name) :: v :: post).
Proof.
  intros Hr Hn Hne Hf Hd Hfl. destruct (reached_total _ _ _ _ _ _ _ post Hr) as [its' Hp].
  destruct Hr as [HS HR HT Hl]. eapply same_reading; [by constructor|].
  eexists. split; [eapply r_long_equal|eapply r_long_separate]; eauto.
Qed.

Lemma cluster_cut T t rest c cs i d its r :
  first (short_named c) T i -> T !! i = Some d -> flag_option d ->
  cluster T t rest (c :: cs) (Call t i None :: its) r <-> cluster T t rest cs its r.
Proof.
  intros Hf Hd Hfl. split; intros Hc; [|by econstructor].
  apply cluster_cplan in Hc. apply cplan_cluster. cbn in Hc.
  apply dshort_Some in Hf. rewrite Hf, Hd, flag_eqb in Hc by done.
  destruct (cplan T t rest cs) as [its1 r1]. congruence.
Qed.

Lemma cluster_total T t rest chars : exists its r, cluster T t rest chars its r.
Proof.
  destruct (cplan T t rest chars) as [its r] eqn:E. apply cplan_cluster in E. eauto.
Qed.

Lemma cut_cluster a pre t T k its c cs i d post :
  reached a pre t T k false its ->
  first (short_named c) T i -> T !! i = Some d -> flag_option d ->
  c <> "-"%char -> cs <> [] -> (forall s, cs <> "-"%char :: s) ->
  ~ negative_for T k (c :: cs) -> ~ negative_for T k [c] -> ~ negative_for T k cs ->
  argus_parse a (pre ++ ("-"%char :: c :: cs) :: post) =
  argus_parse a (pre ++ ["-"%char; c] :: ("-"%char :: cs) :: post).
Proof.
  intros Hr Hf Hd Hfl Hc Hcs Hcs' N1 N2 N3.
  pose proof Hr as [HS HR HT Hl].
  destruct (cluster_total T t post cs) as (its1 & r & Hcl).
  assert (Hc0 : forall s, c :: cs <> "-"%char :: s) by congruence.
  assert (Hc1 : forall s, [c] <> "-"%char :: s) by congruence.
  assert (Hone : cluster T t (("-"%char :: cs) :: post) [c] [Call t i None]
                   (Some (("-"%char :: cs) :: post))).
  { econstructor; eauto. constructor. }
  eapply same_reading; [exact Hr|].
  destruct r as [post'|].
  - destruct (reached_total _ _ _ _ _ _ _ post' Hr) as [its' Hp].
    exists ((Call t i None :: its1) ++ its'). split.
    + eapply (r_short _ t T k (c :: cs)); eauto. eapply cl_flag; eauto.
    + change ((Call t i None :: its1) ++ its') with ([Call t i None] ++ (its1 ++ its')).
      eapply (r_short _ t T k [c]); eauto. eapply (r_short _ t T k cs); eauto.
  - exists (Call t i None :: its1). split.
    + eapply (r_short_bad _ t T k (c :: cs)); eauto. eapply cl_flag; eauto.
    + change (Call t i None :: its1) with ([Call t i None] ++ its1).
      eapply (r_short _ t T k [c]); eauto. eapply (r_short_bad _ t T k cs); eauto.
Qed.

Lemma attached_or_separate a pre t T k its c v i d post :
  reached a pre t T k false its ->
  first (short_named c) T i -> T !! i = Some d -> ~ flag_option d ->
  c <> "-"%char -> v <> [] ->
  ~ negative_for T k (c :: v) -> ~ negative_for T k [c] ->
  argus_parse a (pre ++ ("-"%char :: c :: v) :: post) =
  argus_parse a (pre ++ ["-"%char; c] :: v :: post).
Proof.
  intros Hr Hf Hd Hfl Hc Hv N1 N2.
  pose proof Hr as [HS HR HT Hl].
  assert (Hc0 : forall s, c :: v <> "-"%char :: s) by congruence.
  assert (Hc1 : forall s, [c] <> "-"%char :: s) by congruence.
  destruct (reached_total _ _ _ _ _ _ _ post Hr) as [its' Hp].
  eapply same_reading; [exact Hr|]. exists ([Call t i (Some v)] ++ its'). split.
  - eapply (r_short _ t T k (c :: v)); eauto. eapply cl_attached; eauto.
  - eapply (r_short _ t T k [c]); eauto. eapply cl_separate; eauto.
Qed.

Lemma short_or_long a pre t T k its c name v i d post :
  reached a pre t T k false its ->
  first (short_named c) T i -> first (long_named name) T i -> T !! i = Some d ->
  ~ flag_option d ->
  c <> "-"%char -> name <> [] -> "="%char ∉ name -> (length name <= 63)%nat ->
  ~ negative_for T k [c] ->
  argus_parse a (pre ++ ["-"%char; c] :: v :: post) =
  argus_parse a (pre ++ ($"--" ++ name) :: v :: post).
Proof.
  intros Hr Hf Hfn Hd Hfl Hc Hne Heq Hlen N.
  pose proof Hr as [HS HR HT Hl].
  assert (Hc1 : forall s, [c] <> "-"%char :: s) by congruence.
  destruct (reached_total _ _ _ _ _ _ _ post Hr) as [its' Hp].
  eapply same_reading; [exact Hr|]. exists ([Call t i (Some v)] ++ its'). split.
  - eapply (r_short _ t T k [c]); eauto. eapply cl_separate; eauto.
  - eapply r_long_separate; eauto. unfold key63. rewrite take_ge by done. done.
Qed.
Lemma short_or_long_flag a pre t T k its c name i d post :
  reached a pre t T k false its ->
  first (short_named c) T i -> first (long_named name) T i -> T !! i = Some d ->
  flag_option d ->
  c <> "-"%char -> name <> [] -> "="%char ∉ name -> (length name <= 63)%nat ->
  ~ negative_for T k [c] ->
  argus_parse a (pre ++ ["-"%char; c] :: post) =
  argus_parse a (pre ++ ($"--" ++ name) :: post).
Proof.
  intros Hr Hf Hfn Hd Hfl Hc Hne Heq Hlen N.
  pose proof Hr as [HS HR HT Hl].
  assert (Hc1 : forall s, [c] <> "-"%char :: s) by congruence.
  destruct (reached_total _ _ _ _ _ _ _ post Hr) as [its' Hp].
  eapply same_reading; [exact Hr|]. exists ([Call t i None] ++ its'). split.
  - eapply (r_short _ t T k [c]); eauto. eapply cl_flag; eauto. constructor.
  - rewrite <- (app_nil_r name). eapply r_long_flag; eauto.
    + rewrite app_nil_r. done.
    + unfold key63. rewrite take_ge by done. done.
Qed.

(** ** C06, C07 *)
Lemma without_dashes_eq ws : without_dashes ($"--" :: ws) = without_dashes ws.
Proof. done. Qed.
Lemma without_dashes_ne w ws : w <> $"--" -> without_dashes (w :: ws) = w :: without_dashes ws.
Proof.
  intros Hw. unfold without_dashes. cbn [List.filter]. rewrite bool_decide_eq_false_2 by done. done.
Qed.
Lemma reads_raw D t T k ws (r : nat -> nat) :
  D !! t = Some T ->
  (forall j w, without_dashes ws !! j = Some w -> receives T (k + j) (r (k + j)%nat)) ->
  reads D t k true ws (handed t r k (without_dashes ws)).
Proof.
  intros HT. revert k. induction ws as [|w ws IH]; intros k Hr; [constructor|].
  destruct (decide (w = $"--")) as [->|Hw].
  - rewrite without_dashes_eq in *. constructor. by apply IH.
  - rewrite without_dashes_ne in * by done. cbn [handed]. eapply r_raw; eauto.
    + specialize (Hr 0%nat w eq_refl). rewrite Nat.add_0_r in Hr. done.
    + apply IH. intros j w' Hj. specialize (Hr (S j) w' Hj).
      rewrite <- plus_n_Sm in Hr. done.
Qed.
Lemma reads_raw_extra D t T k ws w post (r : nat -> nat) :
  D !! t = Some T -> w <> $"--" ->
  (forall j w, without_dashes ws !! j = Some w -> receives T (k + j) (r (k + j)%nat)) ->
  no_receiver T (k + length (without_dashes ws)) ->
  reads D t k true (ws ++ w :: post)
    (handed t r k (without_dashes ws) ++ [Reject E_INVALID_ARGUMENT (quoted $"Unknown positional: " (MStr (Some w)))]).
Proof.
  intros HT Hw. revert k. induction ws as [|w' ws IH]; intros k Hr Hn.
  - cbn in Hn. rewrite Nat.add_0_r in Hn. eapply r_raw_extra; eauto.
  - cbn [app]. destruct (decide (w' = $"--")) as [->|Hw'].
    + rewrite without_dashes_eq in *. constructor. by apply IH.
    + rewrite without_dashes_ne in * by done. cbn [handed app]. eapply r_raw; eauto.
      * specialize (Hr 0%nat w' eq_refl). rewrite Nat.add_0_r in Hr. done.
      * apply IH; [|cbn in Hn; rewrite <- plus_n_Sm in Hn; done].
        intros j w'' Hj. specialize (Hr (S j) w'' Hj). rewrite <- plus_n_Sm in Hr. done.
Qed.
Lemma reads_words D t T k ws (r : nat -> nat) :
  D !! t = Some T -> Forall (plain_word T) ws ->
  (forall j, (j < length ws)%nat -> receives T (k + j) (r (k + j)%nat)) ->
  reads D t k false ws (handed t r k ws).
Proof.
  intros HT. revert k. induction ws as [|w ws IH]; intros k Hw Hr; [constructor|].
  inversion Hw as [|? ? [Hd Hs] Hw']; subst. cbn [handed app]. eapply r_word; eauto.
  - specialize (Hr 0%nat ltac:(simpl; lia)). rewrite Nat.add_0_r in Hr. done.
  - apply IH; [done|]. intros j Hj. specialize (Hr (S j) ltac:(simpl; lia)).
    rewrite <- plus_n_Sm in Hr. done.
Qed.
Lemma reads_words_extra D t T k ws w post (r : nat -> nat) :
  D !! t = Some T -> Forall (plain_word T) (ws ++ [w]) ->
  (forall j, (j < length ws)%nat -> receives T (k + j) (r (k + j)%nat)) ->
  no_receiver T (k + length ws) ->
  reads D t k false (ws ++ w :: post) (handed t r k ws ++ [Reject E_INVALID_ARGUMENT (quoted $"Unknown positional: " (MStr (Some w)))]).
Proof.
  intros HT. revert k. induction ws as [|w' ws IH]; intros k Hw Hr Hn; simpl in *.
  - inversion Hw as [|? ? [Hd Hs] _]; subst. rewrite Nat.add_0_r in Hn. eapply r_word_extra; eauto.
  - inversion Hw as [|? ? [Hd Hs] Hw']; subst. cbn [handed app]. eapply r_word; eauto.
    + specialize (Hr 0%nat ltac:(lia)). rewrite Nat.add_0_r in Hr. done.
    + apply IH; [done| |rewrite <- plus_n_Sm in Hn; done].
      intros j Hj. specialize (Hr (S j) ltac:(lia)). rewrite <- plus_n_Sm in Hr. done.
Qed.

Lemma after_dashes a pre t T k its ws r :
  reached a pre t T k false its ->
  (forall j w, without_dashes ws !! j = Some w -> receives T (k + j) (r (k + j)%nat)) ->
  parse_args a (Some (a_root a)) 0 false (pre ++ $"--" :: ws) =
  perform a (its ++ handed t r k (without_dashes ws)).
Proof.
  intros Hr Hw. eapply reached_parse; [exact Hr|]. destruct Hr. constructor. eapply reads_raw; eauto.
Qed.
Lemma after_dashes_extra a pre t T k its ws w post r :
  reached a pre t T k false its -> w <> $"--" ->
  (forall j w, without_dashes ws !! j = Some w -> receives T (k + j) (r (k + j)%nat)) ->
  no_receiver T (k + length (without_dashes ws)) ->
  parse_args a (Some (a_root a)) 0 false (pre ++ $"--" :: ws ++ w :: post) =
  perform a (its ++ handed t r k (without_dashes ws) ++ [Reject E_INVALID_ARGUMENT (quoted $"Unknown positional: " (MStr (Some w)))]).
Proof.
  intros Hr Hw. intros. eapply reached_parse; [exact Hr|]. destruct Hr. constructor.
  eapply reads_raw_extra; eauto.
Qed.
Lemma words_filled a pre t T k its ws r :
  reached a pre t T k false its -> Forall (plain_word T) ws ->
  (forall j, (j < length ws)%nat -> receives T (k + j) (r (k + j)%nat)) ->
  parse_args a (Some (a_root a)) 0 false (pre ++ ws) = perform a (its ++ handed t r k ws).
Proof.
  intros Hr Hw Hj. eapply reached_parse; [exact Hr|]. destruct Hr. eapply reads_words; eauto.
Qed.
Lemma words_extra a pre t T k its ws w post r :
  reached a pre t T k false its -> Forall (plain_word T) (ws ++ [w]) ->
  (forall j, (j < length ws)%nat -> receives T (k + j) (r (k + j)%nat)) ->
  no_receiver T (k + length ws) ->
  parse_args a (Some (a_root a)) 0 false (pre ++ ws ++ w :: post) =
  perform a (its ++ handed t r k ws ++ [Reject E_INVALID_ARGUMENT (quoted $"Unknown positional: " (MStr (Some w)))]).
Proof.
  intros Hr Hw Hj Hn. eapply reached_parse; [exact Hr|]. destruct Hr. eapply reads_words_extra; eauto.
Qed.

(** ** Receivers *)
Lemma receives_unique T k i j : receives T k i -> receives T k j -> i = j.
Proof. intros Hi Hj. apply dpos_Some in Hi, Hj. congruence. Qed.

Lemma no_receiver_iff T k :
  no_receiver T k <->
  (positionals_before T (length T) <= k)%nat /\
  (forall i d, T !! i = Some d -> positional d -> ~ variadic d).
Proof.
  unfold no_receiver. revert k. induction T as [|d T IH]; intros k.
  - split; [|intros [_ Hv] i (d & Hd & _); done]. intros _. split; [cbn; lia|done].
  - split.
    + intros Hn.
      assert (Hd : positional d -> ~ variadic d /\ k <> 0%nat).
      { intros Hp. split.
        - intros Hv. apply (Hn 0%nat). exists d. split; [done|]. split; [done|].
          split; [intros; lia|]. right. split; [done|]. cbn. lia.
        - intros ->. apply (Hn 0%nat). exists d. split; [done|]. split; [done|].
          split; [intros; lia|]. left. done. }
      assert (Hn' : forall i, ~ receives T (if bool_decide (positional d) then Nat.pred k else k) i).
      { intros i (e & He & Hp & Hb & Hk). apply (Hn (S i)). exists e. split; [done|].
        split; [done|]. split.
        - intros [|j] e' Hj He' Hp'; [injection He' as <-; by apply Hd|].
          eapply Hb; eauto. lia.
        - unfold positionals_before in *. simpl.
          unfold positional in *. case_bool_decide as E; [|done]. simpl.
          destruct (Hd E) as [_ Hk0]. destruct Hk as [Hk|[Hv Hk]]; [left; lia|right].
          split; [done|lia]. }
      rewrite IH in Hn'. destruct Hn' as [Hle Hv]. split.
      * unfold positionals_before in *. simpl. unfold positional in *.
        case_bool_decide as E; simpl; [|done]. destruct (Hd E). lia.
      * intros [|i] e He Hp; [injection He as <-; by apply Hd|]. eauto.
    + intros [Hle Hv] i (e & He & Hp & Hb & Hk).
      destruct Hk as [Hk|[Hx _]]; [|by eapply Hv].
      assert (positionals_before (d :: T) i < positionals_before (d :: T) (length (d :: T)))%nat; [|lia].
      unfold positionals_before. rewrite firstn_all.
      rewrite <- (take_drop_middle (d :: T) i e He) at 2.
      rewrite List.filter_app, app_length. cbn.
      unfold positional in Hp. rewrite bool_decide_eq_true_2 by done. cbn. lia.
Qed.

(** ** C08 *)
Lemma negative_value a pre t T k its s i d post its' :
  reached a pre t T k false its ->
  negative_tail s -> receives T k i -> T !! i = Some d -> numeric d ->
  reads (decls a) t (S k) false post its' ->
  parse_args a (Some (a_root a)) 0 false (pre ++ ("-"%char :: s) :: post) =
  perform a (its ++ Call t i (Some ("-"%char :: s)) :: its').
Proof.
  intros Hr Hs Hi Hd Hn Hp. eapply reached_parse; [exact Hr|]. destruct Hr.
  eapply (r_negative _ t T k s); eauto. split; eauto 10.
Qed.

(** ** C09 *)
Lemma selects_reading a pre t T k its w i d t' post its' :
  reached a pre t T k false its -> (forall s, w <> "-"%char :: s) ->
  selects T w i -> T !! i = Some d -> d_sub d = Some t' ->
  reads (decls a) t' 0 false post its' ->
  parse_args a (Some (a_root a)) 0 false (pre ++ w :: post) = perform a (its ++ Enter t i :: its').
Proof.
  intros Hr Hw Hs Hd Ht Hp. eapply reached_parse; [exact Hr|]. destruct Hr. eapply r_sub; eauto.
Qed.
Lemma exact_selected a pre t T k its w i d t' post its' :
  reached a pre t T k false its -> (forall s, w <> "-"%char :: s) ->
  T !! i = Some d -> sub_exact w d ->
  (forall j e, (j < i)%nat -> T !! j = Some e -> ~ sub_match w e) ->
  d_sub d = Some t' -> reads (decls a) t' 0 false post its' ->
  parse_args a (Some (a_root a)) 0 false (pre ++ w :: post) = perform a (its ++ Enter t i :: its').
Proof.
  intros Hr Hw Hd [Hty Hex] Hb Ht Hp. eapply selects_reading; eauto. split.
  - exists d. split; [done|]. split; [|done]. split; [done|]. exists []. rewrite app_nil_r. done.
  - left. exists d. done.
Qed.
Lemma prefix_selected a pre t T k its w i d t' post its' :
  reached a pre t T k false its -> (forall s, w <> "-"%char :: s) ->
  T !! i = Some d -> sub_match w d ->
  (forall j e, T !! j = Some e -> sub_match w e -> j = i) ->
  d_sub d = Some t' -> reads (decls a) t' 0 false post its' ->
  parse_args a (Some (a_root a)) 0 false (pre ++ w :: post) = perform a (its ++ Enter t i :: its').
Proof.
  intros Hr Hw Hd Hm Hu Ht Hp. eapply selects_reading; eauto. split; [|by right].
  exists d. split; [done|]. split; [done|]. intros j y Hj Hy Hm'.
  specialize (Hu j y Hy Hm'). lia.
Qed.
Lemma first_exists {A} (P : A -> Prop) (dec : forall x, {P x} + {~ P x}) l j x :
  l !! j = Some x -> P x -> exists i, first P l i /\ (i <= j)%nat.
Proof.
  revert j. induction l as [|y l IH]; intros j Hj Hx; [done|].
  destruct (dec y) as [Hy|Hy].
  - exists 0%nat. split; [|lia]. exists y. split; [done|]. split; [done|]. intros; lia.
  - destruct j as [|j]; [injection Hj as ->; done|].
    destruct (IH j Hj Hx) as (i & (z & Hz & Pz & Hb) & Hi). exists (S i). split; [|lia].
    exists z. split; [done|]. split; [done|]. intros [|m] e Hm He; [injection He as <-; done|].
    eapply Hb; eauto. lia.
Qed.
Lemma several_ambiguous a pre t T k its w i j d e post :
  reached a pre t T k false its -> (forall s, w <> "-"%char :: s) ->
  i <> j -> T !! i = Some d -> T !! j = Some e -> sub_match w d -> sub_match w e ->
  nowhere (sub_exact w) T ->
  exists f g d1 d2, ambiguous T w f g /\ T !! f = Some d1 /\ T !! g = Some d2 /\
    parse_args a (Some (a_root a)) 0 false (pre ++ w :: post) =
    perform a (its ++ [Reject E_AMBIGUOUS_SUBCOMMAND (two_matches w d1 d2)]).
Proof.
  intros Hr Hw Hij Hd He Hmd Hme Hex.
  assert (dec : forall x, {sub_match w x} + {~ sub_match w x}).
  { intros x. destruct (dmatch w x) eqn:E.
    - left. by apply dmatch_dec.
    - right. rewrite <- dmatch_dec. congruence. }
  destruct (first_exists _ dec T i d Hd Hmd) as (f & Hf & Hle).
  destruct (first_exists _ dec T j e He Hme) as (f' & Hf' & Hle').
  assert (f' = f) as ->.
  { destruct Hf as (x & Hx & Px & Hb), Hf' as (y & Hy & Py & Hb').
    destruct (lt_eq_lt_dec f f') as [[Hl|Hl]|Hl]; [destruct (Hb' _ _ Hl Hx Px)|done|destruct (Hb _ _ Hl Hy Py)]. }
  destruct (first_lookup _ _ _ Hf) as [x Hx].
  assert (exists m z, (f < m)%nat /\ T !! m = Some z /\ sub_match w z) as (m & z & Hfm & Hz & Pz).
  { destruct (decide (f = j)) as [->|Hfj]; [exists i, d|exists j, e]; split_and!; auto; lia. }
  destruct (first_exists _ dec (drop (S f) T) (m - S f) z) as (g & (y & Hy & Py & Hb) & Hgm).
  { rewrite lookup_drop. replace (S f + (m - S f))%nat with m by lia. done. }
  { done. }
  rewrite lookup_drop in Hy.
  assert (HA : ambiguous T w f (S f + g)).
  { exists x, y. split_and!; auto; [|lia|].
    - intros Hx'. eapply Hex; [|exact Hx']. by eapply elem_of_list_lookup_2.
    - intros q u Hq Hu. apply (Hb (q - S f)%nat); [lia|]. rewrite lookup_drop.
      replace (S f + (q - S f))%nat with q by lia. done. }
  exists f, (S f + g)%nat, x, y. split; [done|]. split; [done|]. split; [done|].
  eapply reached_parse; [exact Hr|]. destruct Hr. eapply r_ambiguous; eauto.
Qed.

Lemma first_ambiguous a pre t T k its w i j d e post :
  reached a pre t T k false its -> (forall s, w <> "-"%char :: s) ->
  first (sub_match w) T i -> T !! i = Some d -> ~ sub_exact w d ->
  i <> j -> T !! j = Some e -> sub_match w e ->
  exists g d2, ambiguous T w i g /\ T !! g = Some d2 /\
    parse_args a (Some (a_root a)) 0 false (pre ++ w :: post) =
    perform a (its ++ [Reject E_AMBIGUOUS_SUBCOMMAND (two_matches w d d2)]).
Proof.
  intros Hr Hw Hf Hx Hnx Hij He Hme.
  assert (dec : forall x, {sub_match w x} + {~ sub_match w x}).
  { intros x. destruct (dmatch w x) eqn:E.
    - left. by apply dmatch_dec.
    - right. rewrite <- dmatch_dec. congruence. }
  assert (Hlt : (i < j)%nat).
  { destruct Hf as (x & _ & _ & Hb). destruct (lt_eq_lt_dec i j) as [[Hl|Hl]|Hl]; [done..|].
    destruct (Hb _ _ Hl He Hme). }
  destruct (first_exists _ dec (drop (S i) T) (j - S i) e) as (g & (y & Hy & Py & Hb) & Hgm).
  { rewrite lookup_drop. replace (S i + (j - S i))%nat with j by lia. done. }
  { done. }
  rewrite lookup_drop in Hy.
  assert (HA : ambiguous T w i (S i + g)).
  { exists d, y. split_and!; auto; [lia|].
    intros q u Hq Hu. apply (Hb (q - S i)%nat); [lia|]. rewrite lookup_drop.
    replace (S i + (q - S i))%nat with q by lia. done. }
  exists (S i + g)%nat, y. split; [done|]. split; [done|].
  eapply reached_parse; [exact Hr|]. destruct Hr. eapply r_ambiguous; eauto.
Qed.

(** ** C10 *)
Lemma cluster_codes T t rest cs its r c m :
  cluster T t rest cs its r -> Reject c m ∈ its -> c = E_INVALID_ARGUMENT \/ c = E_MISSING_VALUE.
Proof.
  induction 1 as [| | | | |]; rewrite ?elem_of_cons, ?elem_of_nil; intros Hx;
    destruct_or? Hx; try done; try (injection Hx as -> _; auto); eauto.
Qed.
Lemma reads_codes D t k only argv its c m :
  reads D t k only argv its -> Reject c m ∈ its ->
  c = E_INVALID_ARGUMENT \/ c = E_MISSING_VALUE \/ c = E_AMBIGUOUS_SUBCOMMAND.
Proof.
  induction 1; rewrite ?elem_of_app, ?elem_of_cons, ?elem_of_nil; intros Hx;
    destruct_or? Hx; try done; try (injection Hx as -> _; auto); eauto;
    match goal with Hc : cluster _ _ _ _ _ _ |- _ =>
      eapply cluster_codes in Hc; eauto; tauto end.
Qed.

Lemma perform_no_reject a its a1 :
  (forall c m, Reject c m ∈ its -> c <> 0) -> perform a its = Ok (0, a1) -> forall c m, Reject c m ∉ its.
Proof.
  revert a. induction its as [|[t i v|t i|c0 m0] its IH]; intros a Hc Hp c m; cbn [perform] in Hp.
  - apply not_elem_of_nil.
  - apply rbind_Ok in Hp as ([st a'] & _ & Hp). cbv beta iota in Hp.
    rewrite elem_of_cons. intros [|Hin]; [done|].
    destruct (Z.eqb_spec st 0); [|congruence]. eapply IH in Hp; [by apply Hp|].
    intros c' m' Hc'. apply (Hc c' m'). by right.
  - apply rbind_Ok in Hp as (a' & _ & Hp).
    rewrite elem_of_cons. intros [|Hin]; [done|]. eapply IH in Hp; [by apply Hp|].
    intros c' m' Hc'. apply (Hc c' m'). by right.
  - injection Hp as -> _. destruct (Hc 0 m0); [by left|done].
Qed.

Lemma argus_parse_zero a argv a' :
  argus_parse a argv = Ok (Returned 0, a') ->
  exists a1, parse_args a (Some (a_root a)) 0 false argv = Ok (0, a1).
Proof.
  unfold argus_parse. intros E. apply rbind_Ok in E as ([st a1] & Hp & E). cbv beta iota in E.
  unfold SHOULD_EXIT, SUCCESS in E.
  destruct (Z.eqb_spec st 1); [apply rbind_Ok in E as (? & _ & E); done|].
  destruct (Z.eqb_spec st 0) as [->|]; [eauto|].
  simpl in E. apply rbind_Ok in E as (? & _ & E). congruence.
Qed.

Lemma success_accepted a argv a' :
  subs_present (decls a) -> is_Some (decls a !! a_root a) ->
  argus_parse a argv = Ok (Returned 0, a') ->
  exists its, reads (decls a) (a_root a) 0 false argv its /\ forall c m, Reject c m ∉ its.
Proof.
  intros HS HR E. destruct (argus_parse_zero _ _ _ E) as [a1 Hp].
  destruct (reads_total _ _ 0%nat false argv HS HR) as [its Hr]. exists its. split; [done|].
  rewrite (parse_reads _ _ _ _ _ _ HS HR Hr) in Hp.
  eapply perform_no_reject; [|exact Hp]. intros c m Hc.
  eapply reads_codes in Hr; [|exact Hc]. destruct Hr as [->|[->| ->]]; done.
Qed.

(** argus_free touches neither error_code nor the log *)
Lemma free_option_err a t i a' : free_option a t i = Ok a' ->
  a_err a' = a_err a /\ a_log a' = a_log a /\ a_stack a' = a_stack a /\ a_root a' = a_root a.
Proof.
  unfold free_option. intros E. apply rbind_Ok in E as (o & _ & E).
  apply rbind_Ok in E as ([[] s] & _ & E). injection E as <-. done.
Qed.
Lemma free_options_from_err t n : forall a i a', free_options_from a t i n = Ok a' ->
  a_err a' = a_err a /\ a_log a' = a_log a /\ a_stack a' = a_stack a /\ a_root a' = a_root a.
Proof.
  induction n as [|n IH]; intros a i a' E; cbn in E; [by injection E as <-|].
  apply rbind_Ok in E as (a1 & E1 & E). apply free_option_err in E1 as (? & ? & ? & ?).
  apply IH in E as (? & ? & ? & ?). split_and!; congruence.
Qed.
Lemma free_options_err a tp a' : free_options a tp = Ok a' ->
  a_err a' = a_err a /\ a_log a' = a_log a /\ a_stack a' = a_stack a /\ a_root a' = a_root a.
Proof.
  unfold free_options. intros E. apply rbind_Ok in E as (T & _ & E).
  destruct tp; [|done]. by apply free_options_from_err in E.
Qed.
Lemma free_stack_err stk : forall a a', free_stack a stk = Ok a' ->
  a_err a' = a_err a /\ a_log a' = a_log a /\ a_stack a' = a_stack a /\ a_root a' = a_root a.
Proof.
  induction stk as [|r stk IH]; intros a a' E; cbn in E; [by injection E as <-|].
  apply rbind_Ok in E as (s & _ & E). apply rbind_Ok in E as (a1 & E1 & E).
  apply free_options_err in E1 as (? & ? & ? & ?). apply IH in E as (? & ? & ? & ?).
  split_and!; congruence.
Qed.
Lemma argus_free_err a a' : argus_free a = Ok a' ->
  a_err a' = a_err a /\ a_log a' = a_log a /\ a_stack a' = a_stack a /\ a_root a' = a_root a.
Proof.
  unfold argus_free. intros E. apply rbind_Ok in E as (a1 & E1 & E).
  apply free_options_err in E1 as (? & ? & ? & ?). apply free_stack_err in E as (? & ? & ? & ?).
  split_and!; congruence.
Qed.

Lemma rejected_code a argv its c m a1 o a' :
  subs_present (decls a) -> is_Some (decls a !! a_root a) ->
  reads (decls a) (a_root a) 0 false argv (its ++ [Reject c m]) ->
  (forall c m, Reject c m ∉ its) -> perform a its = Ok (0, a1) ->
  argus_parse a argv = Ok (o, a') -> o = Returned c /\ a_err a' = c.
Proof.
  intros HS HR Hr Hn Hp E.
  assert (Hc : c = E_INVALID_ARGUMENT \/ c = E_MISSING_VALUE \/ c = E_AMBIGUOUS_SUBCOMMAND).
  { eapply reads_codes; [exact Hr|]. apply elem_of_app. right. by left. }
  rewrite (parse_error a argv _ c (diag c m a1) HS HR Hr) in E.
  - apply rbind_Ok in E as (a2 & E2 & E). injection E as <- <-.
    apply argus_free_err in E2 as (-> & _). done.
  - rewrite perform_app, Hp by done. done.
  - destruct Hc as [->|[->| ->]]; done.
  - destruct Hc as [->|[->| ->]]; done.
Qed.

Lemma unknown_long a pre t T k its name suffix post :
  reached a pre t T k false its ->
  "="%char ∉ name -> name ++ suffix <> [] ->
  (suffix = [] \/ exists v, suffix = "="%char :: v) ->
  nowhere (long_named (key63 name)) T ->
  parse_args a (Some (a_root a)) 0 false (pre ++ ($"--" ++ name ++ suffix) :: post) =
  perform a (its ++ [Reject E_INVALID_ARGUMENT (quoted_long $"Unknown option: " (key63 name))]).
Proof.
  intros Hr. intros. eapply reached_parse; [exact Hr|]. destruct Hr. eapply r_long_unknown; eauto.
Qed.
Lemma missing_long a pre t T k its name i d :
  reached a pre t T k false its ->
  "="%char ∉ name -> name <> [] ->
  first (long_named (key63 name)) T i -> T !! i = Some d -> ~ flag_option d ->
  parse_args a (Some (a_root a)) 0 false (pre ++ [$"--" ++ name]) =
  perform a (its ++ [Reject E_MISSING_VALUE (quoted_long $"Missing value for option: " (key63 name))]).
Proof.
  intros Hr. intros. eapply reached_parse; [exact Hr|]. destruct Hr. eapply r_long_missing; eauto.
Qed.
Lemma cluster_flags T t rest fs (r : nat -> nat) cs its o :
  (forall j c, fs !! j = Some c -> exists d, first (short_named c) T (r j) /\ T !! r j = Some d /\ flag_option d) ->
  cluster T t rest cs its o ->
  cluster T t rest (fs ++ cs) (imap (fun j _ => Call t (r j) None) fs ++ its) o.
Proof.
  revert r. induction fs as [|c fs IH]; intros r Hf Hc; [done|]. simpl.
  destruct (Hf 0%nat c eq_refl) as (d & H1 & H2 & H3). eapply cl_flag; [exact H1|exact H2|exact H3|].
  apply (IH (fun j => r (S j))); [|done]. intros j c' Hj. apply (Hf (S j) c' Hj).
Qed.
Lemma unknown_short a pre t T k its fs r c cs post :
  reached a pre t T k false its ->
  (forall s, fs ++ c :: cs <> "-"%char :: s) -> ~ negative_for T k (fs ++ c :: cs) ->
  (forall j c, fs !! j = Some c -> exists d, first (short_named c) T (r j) /\ T !! r j = Some d /\ flag_option d) ->
  nowhere (short_named c) T ->
  parse_args a (Some (a_root a)) 0 false (pre ++ ("-"%char :: fs ++ c :: cs) :: post) =
  perform a (its ++ imap (fun j _ => Call t (r j) None) fs ++ [Reject E_INVALID_ARGUMENT (quoted_short $"Unknown option: " c)]).
Proof.
  intros Hr. intros. eapply reached_parse; [exact Hr|]. destruct Hr.
  eapply (r_short_bad _ t T k); eauto. eapply cluster_flags; eauto. by constructor.
Qed.
Lemma missing_short a pre t T k its fs r c i d :
  reached a pre t T k false its ->
  (forall s, fs ++ [c] <> "-"%char :: s) -> ~ negative_for T k (fs ++ [c]) ->
  (forall j c, fs !! j = Some c -> exists d, first (short_named c) T (r j) /\ T !! r j = Some d /\ flag_option d) ->
  first (short_named c) T i -> T !! i = Some d -> ~ flag_option d ->
  parse_args a (Some (a_root a)) 0 false (pre ++ ["-"%char :: fs ++ [c]]) =
  perform a (its ++ imap (fun j _ => Call t (r j) None) fs ++ [Reject E_MISSING_VALUE (quoted_short $"Missing value for option: " c)]).
Proof.
  intros Hr. intros. eapply reached_parse; [exact Hr|]. destruct Hr.
  eapply (r_short_bad _ t T k); eauto. eapply cluster_flags; eauto. by econstructor.
Qed.

(** ** C38 *)
Lemma execute_exit a t i v st a' o :
  execute_callbacks a t i v = Ok (st, a') -> get_option a t i = Ok o ->
  has (d_flags (decl_of o)) FLAG_EXIT = true -> st <> 0.
Proof.
  intros E Ho Hx. pose proof E as E0. unfold execute_callbacks in E. rewrite Ho in E. cbn [rbind] in E.
  destruct (d_handler (decl_of o)) as [f|]; [|injection E as <- <-; done].
  apply rbind_Ok in E as ([st1 ev] & Hv & E). cbv beta iota in E.
  destruct (Z.eqb_spec st1 SUCCESS) as [->|Hst]; cbn [negb] in E.
  2:{ injection E as <- <-. done. }
  apply rbind_Ok in E as (act & Hact & E).
  apply rbind_Ok in E as ([st2 s] & Hs & E). cbv beta iota in E.
  destruct (Z.eqb_spec st2 SUCCESS) as [->|Hst]; cbn [negb] in E.
  2:{ injection E as <- <-. done. }
  apply rbind_Ok in E as (o2 & Ho2 & E).
  assert (Hd : decl_of o2 = decl_of o).
  { apply keeps_run_handler in Hs. simpl in Hs.
    assert (Hos : get_option (apply_events a ev) t i = Ok o).
    { rewrite <- Ho. apply get_option_tabs, apply_events_tabs. }
    rewrite (get_option_tabs _ (put_option (apply_events a ev) t i (h_opt s))) in Ho2
      by (rewrite apply_events_tabs; done).
    erewrite get_put_same in Ho2 by exact Hos. congruence. }
  assert (Hx' : has (d_flags (decl_of (if (value_count (with_set o2 true) =? 0)%nat
    then with_count (with_set o2 true) 1 else with_set o2 true))) FLAG_EXIT = true).
  { destruct (_ =? _)%nat; simpl; rewrite Hd; done. }
  rewrite Hx' in E. injection E as <- <-. done.
Qed.

Lemma decls_option a t T i d : decls a !! t = Some T -> T !! i = Some d ->
  exists o, get_option a t i = Ok o /\ decl_of o = d.
Proof.
  intros Ht Hi. destruct (decls_table a t T Ht) as (T' & HT' & <-).
  unfold get_option. rewrite HT'. cbn [rbind]. by apply decls_cell.
Qed.

Lemma select_decls a t i a' : select a t i = Ok a' -> decls a' = decls a.
Proof.
  unfold select. intros E. apply rbind_Ok in E as (o & Ho & E).
  destruct (_ <? _)%nat; [|done]. injection E as <-.
  change (decls (put_option a t i (with_set o true)) = decls a). eapply decls_put; eauto.
Qed.
Lemma perform_decls its : forall a st a', perform a its = Ok (st, a') -> decls a' = decls a.
Proof.
  induction its as [|[t i v|t i|c m] its IH]; intros a st a' E; cbn [perform] in E.
  - injection E as _ <-. done.
  - apply rbind_Ok in E as ([st1 a1] & E1 & E). cbv beta iota in E.
    apply execute_callbacks_frame in E1. destruct E1 as [_ _ _ E1 _].
    destruct (st1 =? 0); [|injection E as _ <-; done]. apply IH in E. congruence.
  - apply rbind_Ok in E as (a1 & E1 & E). apply select_decls in E1. apply IH in E. congruence.
  - injection E as _ <-. done.
Qed.

Lemma exit_stops a its t T i d v its1 its2 :
  (forall c m, Reject c m ∉ its) ->
  decls a !! t = Some T -> T !! i = Some d -> has (d_flags d) FLAG_EXIT = true ->
  perform a (its ++ Call t i v :: its1) = perform a (its ++ Call t i v :: its2).
Proof.
  intros Hn HT Hi Hx. rewrite !perform_app by done.
  destruct (perform a its) as [[st a1]|] eqn:Ep; cbn [rbind]; [|done].
  destruct (st =? 0); [|done]. cbn [perform].
  destruct (execute_callbacks a1 t i v) as [[st1 a2]|] eqn:E; cbn [rbind]; [|done].
  apply perform_decls in Ep.
  destruct (decls_option a1 t T i d) as (o & Ho & <-); [congruence|done|].
  eapply execute_exit in Ho; [|exact E|done].
  destruct (Z.eqb_spec st1 0); [done|]. done.
Qed.

Lemma exit_ignores_rest a pre t T k its name i d post1 post2 :
  reached a pre t T k false its ->
  "="%char ∉ name -> name <> [] ->
  first (long_named (key63 name)) T i -> T !! i = Some d -> flag_option d ->
  N.testbit (d_flags d) 5 = true ->
  argus_parse a (pre ++ ($"--" ++ name) :: post1) = argus_parse a (pre ++ ($"--" ++ name) :: post2).
Proof.
  intros Hr Heq Hne Hf Hd Hfl Hx.
  destruct (reached_total _ _ _ _ _ _ _ post1 Hr) as [its1 H1].
  destruct (reached_total _ _ _ _ _ _ _ post2 Hr) as [its2 H2].
  unfold argus_parse. pose proof Hr as [HS HR HT [_ Hn]].
  assert (R : forall post its', reads (decls a) t k false post its' ->
     reads (decls a) t k false (($"--" ++ name) :: post) (Call t i None :: its')).
  { intros. rewrite <- (app_nil_r name). eapply r_long_flag; eauto. rewrite app_nil_r. done. }
  rewrite (reached_parse _ _ _ _ _ _ _ _ _ Hr (R _ _ H1)),
    (reached_parse _ _ _ _ _ _ _ _ _ Hr (R _ _ H2)).
  f_equal. eapply exit_stops; eauto.
  apply (has_bit _ 5) in Hx. exact Hx.
Qed.
End libc.
