(** * A command seen as a program of its own: what the program can ask afterwards (C90) *)
From Coq Require Import Lia.
From Verif Require Import CallProofs SpecNest LibProofs FrameProofs GrammarProofs GrammarLemmas ActiveProofs EnvProofs
  IsolationProofs SpecStructure StructProofs ExtendProofs ExtendWhole MoreFacts NestProofs NestWhole SpecAfter.

Section nest.
Context `{Libc}.
Lemma nested_inv a T i o0 t' w argv b : fresh a -> a_tabs a !! a_root a = Some T ->
  (forall s, w <> "-"%char :: s) -> selects (map decl_of T) w i -> T !! i = Some o0 -> d_sub (decl_of o0) = Some t' ->
  idle a T i -> argus_parse (as_program t' a) argv = Ok (Returned 0, b) -> (length (a_stack b) < 8)%nat ->
  inv (a_root a) t' (decls a) (a_prefix a) b /\ decls a !! a_root a = Some (map decl_of T) /\ t' <> a_root a.
Proof.
  intros Hf HT Hw Hsel Hi Hsub Hid E L.
  destruct (nested_start a T i o0 t' w argv Hf HT Hw Hsel Hi Hsub) as (its & Hr & P & P' & I & Hc & HD & Hty & Htr).
  unfold argus_parse in E. change (a_root (as_program t' a)) with t' in E. rewrite P in E.
  apply rbind_Ok in E as ([st b1] & E1 & E). cbv beta iota zeta in E.
  destruct (st =? SHOULD_EXIT). { apply rbind_Ok in E as (b2 & E2 & E). done. }
  destruct (negb (st =? SUCCESS)) eqn:Est.
  { apply rbind_Ok in E as (b2 & E2 & E). injection E as -> <-. done. }
  apply rbind_Ok in E as ([st2 b2] & E2 & E).
  destruct (negb (st2 =? SUCCESS)) eqn:Est2.
  { apply rbind_Ok in E as (b3 & E3 & E). injection E as -> <-. done. }
  apply rbind_Ok in E as ([st3 b3] & E3 & E).
  destruct (negb (st3 =? SUCCESS)) eqn:Est3.
  { apply rbind_Ok in E as (b4 & E4 & E). injection E as -> <-. done. }
  injection E as <-.
  assert (L1 : (length (a_stack b1) < MAX_SUBCOMMAND_DEPTH)%nat).
  { eapply Nat.le_lt_trans; [|exact L]. pose proof E2 as E2'. pose proof E3 as E3'.
    apply load_env_vars_steps, steps_length in E2'. apply post_steps, steps_length in E3'.
    change (a_stack (set_err b1 st)) with (a_stack b1) in E2'. lia. }
  destruct (perform_up _ _ _ _ _ _ _ Hi Hsub HD Htr its _ _ _ I Hc E1 L1) as [_ I1].
  assert (I2 : inv (a_root a) t' (decls a) (a_prefix a) (set_err b1 st)) by (by destruct I1).
  destruct (load_vars_up _ _ _ _ _ _ _ Hi Hsub Hty HD Htr a eq_refl Hid _ _ _ I2 E2) as [_ I3].
  destruct (post_up _ _ _ _ _ _ _ Hi Hsub Hty HD Htr a Hid _ _ _ I3 E3) as [_ I4].
  by split_and!.
Qed.
End nest.

Section look.
Context (r i t' : nat) (T : list opt) (D : list (list decl)) (pf : option cstr).
Context (o0 : opt) (Hi : T !! i = Some o0) (Hsub : d_sub (decl_of o0) = Some t').
Context (HT : D !! r = Some (map decl_of T)) (Htr : t' <> r).
Notation up := (as_command r i T).

Lemma relative_up b p stk : inv r t' D pf b -> Forall (good r D) stk -> forall x, find_from_relative b stk p = Ok x ->
  match x with
  | Some q => find_from_relative (up b) (stk ++ [(r, i)]) p = Ok (Some q) /\ fst q <> r
  | None => find_from_relative (up b) (stk ++ [(r, i)]) p = find_from_relative (up b) [] p
  end.
Proof.
  intros I. induction 1 as [|q stk G _ IH]; intros x E; cbn [find_from_relative app] in *.
  - rewrite (up_sub0 r i t' T D pf o0 Hi Hsub HT b I). cbn [rbind table_ptr]. rewrite (up_tab r i T b t' Htr).
    rewrite (in_root _ _ _ _ b I) in E. apply rbind_Ok in E as (T1 & -> & E). cbn [rbind]. injection E as <-.
    by destruct (find_option_by_name T1 p).
  - rewrite (up_sub r i T D b q G). apply rbind_Ok in E as (s & Hs & E). rewrite Hs. cbn [rbind].
    destruct (good_sub r t' D pf b q s I G Hs) as (t1 & -> & N). cbn [table_ptr] in *. rewrite (up_tab r i T b t1 N).
    apply rbind_Ok in E as (T1 & -> & E). cbn [rbind].
    destruct (find_option_by_name T1 p); [by injection E as <-|by apply IH].
Qed.
Lemma found_up b p x : inv r t' D pf b -> "."%char ∉ p -> find_option_by_active_path b (Some p) = Ok x ->
  match x with
  | Some q => find_option_by_active_path (up b) (Some p) = Ok (Some q) /\ fst q <> r
  | None => find_option_by_active_path (up b) (Some p) = find_option_by_active_path (up b) (Some ("."%char :: p))
  end.
Proof.
  intros I Hp. unfold find_option_by_active_path. apply strchr_None in Hp. change dot with "."%char. rewrite Hp.
  change (a_stack (up b)) with ((r, i) :: a_stack b). cbn [rev]. intros E.
  apply (relative_up b p (rev (a_stack b)) I) in E; [exact E|].
  apply Forall_rev, Forall_forall, I.
Qed.
Lemma lookup_up b p o : inv r t' D pf b -> "."%char ∉ p -> lookup_option b (Some p) = Ok (Some o) ->
  lookup_option (up b) (Some p) = Ok (Some o).
Proof.
  intros I Hp. unfold lookup_option. intros E. apply rbind_Ok in E as (x & Hx & E).
  apply (found_up b p x I Hp) in Hx. destruct x as [[t j]|]; [|done]. destruct Hx as [-> N]. cbn [rbind fst] in *.
  by rewrite (up_get r i T b t j N).
Qed.
Lemma unknown_up b p : inv r t' D pf b -> "."%char ∉ p -> lookup_option b (Some p) = Ok None ->
  lookup_option (up b) (Some p) = lookup_option (up b) (Some ("."%char :: p)).
Proof.
  intros I Hp. unfold lookup_option. intros E. apply rbind_Ok in E as (x & Hx & E).
  apply (found_up b p x I Hp) in Hx. destruct x as [[t j]|]; [|by rewrite Hx].
  cbn [rbind] in E. apply rbind_Ok in E as (o & _ & E). done.
Qed.
(** Paths *)
Lemma walk_up b stk : inv r t' D pf b -> Forall (good r D) stk -> forall p t n, t <> r ->
  walk_path (up b) stk p (Some t) n = walk_path b stk p (Some t) n /\
  forall t1 q, walk_path b stk p (Some t) n = Ok (Some (t1, q)) -> exists t2, t1 = Some t2 /\ t2 <> r.
Proof.
  intros I. induction 1 as [|q stk G Hg IH]; intros p t n N; (destruct n as [|n]; cbn [walk_path];
    [split; [done|]; intros t1 q0 [= <- <-]; eauto|]); (destruct (strchr p dot) as [k|]; [|split; [done|]; intros t1 q0 [= <- <-]; eauto]).
  - done.
  - destruct G as [G1 G2]. rewrite (up_get r i T b _ _ G1). destruct (get_option b q.1 q.2) as [o|] eqn:Ho; cbn [rbind]; [|done].
    destruct (d_name (decl_of o)) as [m|]; [|done]. destruct (strncmp p m k =? 0); [|done].
    destruct (good_sub r t' D pf b q (d_sub (decl_of o)) I (conj G1 G2)) as (t1 & -> & N1); [unfold sub_of; by rewrite Ho|].
    by apply IH.
Qed.
Lemma count_app u p : "."%char ∉ u -> count_components (u ++ "."%char :: p) = S (count_components p).
Proof.
  induction u as [|x u IH]; intros N; cbn; [done|]. apply not_elem_of_cons in N as [N1 N2]. rewrite IH by done.
  destruct (Ascii.eqb_spec x dot) as [->|]; [done|done].
Qed.
Lemma strchr_path n p : "."%char ∉ n -> strchr (n ++ "."%char :: p) "." = Some (length n).
Proof. intros N. apply strchr_Some. by exists n, p. Qed.
Lemma path_up b n p x : inv r t' D pf b -> d_name (decl_of o0) = Some n -> n <> [] -> "."%char ∉ n ->
  ("."%char ∈ p /\ (forall q, p <> "."%char :: q) /\ find_option_by_active_path b (Some p) = Ok x \/
   "."%char ∉ p /\ find_option_by_active_path b (Some ("."%char :: p)) = Ok x) ->
  find_option_by_active_path (up b) (Some (n ++ "."%char :: p)) = Ok x /\ forall q, x = Some q -> fst q <> r.
Proof.
  intros I Hn Hne Hd E. unfold find_option_by_active_path at 1. change dot with "."%char. rewrite strchr_path by done.
  destruct n as [|c0 n0]; [done|]. cbn [length]. set (n := c0 :: n0) in *. cbv zeta. rewrite count_app by done.
  change (a_stack (up b)) with ((r, i) :: a_stack b). cbn [length]. change (S ?x <? S ?y)%nat with (x <? y)%nat.
  assert (W : forall m, walk_path (up b) ((r, i) :: a_stack b) (n ++ "."%char :: p) (Some (a_root (up b))) (S m) =
    walk_path (up b) (a_stack b) p (Some t') m).
  { intros m. cbn [walk_path]. change dot with "."%char. rewrite strchr_path by done. cbn [fst snd].
    rewrite (proj2 (get_option_Ok (up b) r i (with_set o0 true)))
      by (exists (marked i T); split; [by apply (up_root r i t' T D pf HT b I)|by apply (marked_i i T o0 Hi)]).
    cbn [rbind]. change (decl_of (with_set o0 true)) with (decl_of o0). rewrite Hn, Hsub.
    assert (Z : (strncmp (n ++ "."%char :: p) n (length n) =? 0) = true) by (apply strncmp_app; by eexists).
    rewrite Z. f_equal. change (S (length n)) with (1 + length n)%nat. rewrite Nat.add_comm, <- drop_drop, drop_app. done. }
  assert (G : Forall (good r D) (a_stack b)) by (apply Forall_forall, I).
  pose proof (walk_up b (a_stack b) I G) as WU.
  destruct E as [(Hp & Hq & E)|[Hp E]].
  - assert (S1 : exists k, strchr p "." = Some (S k)).
    { destruct (strchr p ".") as [k|] eqn:Es; [|apply strchr_None in Es; done]. destruct k as [|k]; [|eauto].
      apply strchr_Some in Es as (u & v & -> & Hu & _). destruct u; [by destruct (Hq v)|done]. }
    destruct S1 as [k S1]. unfold find_option_by_active_path in E. change dot with "."%char in E. rewrite S1 in E. cbv zeta in E.
    destruct (length (a_stack b) <? count_components p)%nat; [injection E as <-; by split|].
    rewrite W. rewrite (in_root _ _ _ _ b I) in E. destruct (WU p t' (count_components p) Htr) as [-> K].
    apply rbind_Ok in E as (w & Hw & E). rewrite Hw. cbn [rbind]. destruct w as [[t1 q]|]; [|injection E as <-; by split].
    destruct (K _ _ Hw) as (t2 & -> & N2). cbn [table_ptr] in *. rewrite (up_tab r i T b t2 N2).
    apply rbind_Ok in E as (T1 & -> & E). cbn [rbind].
    destruct (find_option_by_name T1 q); injection E as <-; (split; [done|]); [by intros q0 [= <-]|done].
  - unfold find_option_by_active_path in E. cbn in E. rewrite drop_0 in E. rewrite (in_root _ _ _ _ b I) in E.
    assert (C0 : count_components p = 0%nat).
    { clear - Hp. induction p as [|x p IH]; [done|]. apply not_elem_of_cons in Hp as [N1 N2]. cbn.
      destruct (Ascii.eqb_spec x dot) as [->|]; [done|by apply IH]. }
    rewrite C0. cbn [Nat.ltb Nat.leb]. change (length (a_stack b) <? 0)%nat with false. cbv iota. rewrite W.
    assert (W0 : walk_path (up b) (a_stack b) p (Some t') 0 = Ok (Some (Some t', p))) by (by destruct (a_stack b)).
    rewrite W0. cbn [rbind table_ptr].
    rewrite (up_tab r i T b t' Htr). apply rbind_Ok in E as (T1 & -> & E). cbn [rbind].
    destruct (find_option_by_name T1 p); injection E as <-; (split; [done|]); [by intros q0 [= <-]|done].
Qed.
Lemma err_up b p z : lookup_option (set_err b z) p = lookup_option b p.
Proof. unfold lookup_option. by rewrite path_err. Qed.
Lemma action_up act b z b' : inv r t' D pf b -> a_stack b <> [] -> argus_exec act b = Ok (z, b') ->
  argus_exec act (up b) = Ok (z, up b').
Proof.
  intros I N. unfold argus_exec. change (a_stack (up b)) with ((r, i) :: a_stack b). destruct (a_stack b) as [|q stk] eqn:Es; [done|].
  assert (L : exists q1, last (q :: stk) = Some q1) by (apply last_is_Some; done). destruct L as [q1 L].
  rewrite (last_cons (r, i)), L. apply last_Some_elem_of in L. rewrite <- Es in L. destruct (in_stack _ _ _ _ b I _ L) as [G _].
  intros E. rewrite (up_get r i T b _ _ G). apply rbind_Ok in E as (o & -> & E). cbn [rbind].
  by destruct (d_action (decl_of o)); injection E as <- <-.
Qed.
End look.

Section nest2.
Context `{Libc} (a : argus) (T : list opt) (i : nat) (o0 : opt) (t' : nat) (w : cstr) (argv : list cstr) (b : argus).
Context (Hf : fresh a) (HT : a_tabs a !! a_root a = Some T) (Hw : forall s, w <> "-"%char :: s)
  (Hsel : selects (map decl_of T) w i) (Hi : T !! i = Some o0) (Hsub : d_sub (decl_of o0) = Some t') (Hid : idle a T i)
  (E : argus_parse (as_program t' a) argv = Ok (Returned 0, b)) (L : (length (a_stack b) < 8)%nat).
Notation c := (as_command (a_root a) i T b).

Lemma nested_value p v b' : "."%char ∉ p -> argus_get b (Some p) = Ok (v, b') -> a_err b' = 0 ->
  argus_get c (Some p) = Ok (v, as_command (a_root a) i T b') /\
  argus_is_set c (Some p) = argus_is_set b (Some p) /\ argus_count c (Some p) = argus_count b (Some p) /\
  forall k x b2, argus_array_get b (Some p) k = Ok (x, b2) -> argus_array_get c (Some p) k = Ok (x, as_command (a_root a) i T b2).
Proof.
  intros Hp. destruct (nested_inv a T i o0 t' w argv b Hf HT Hw Hsel Hi Hsub Hid E L) as (I & HD & N).
  unfold argus_get, argus_is_set, argus_count, argus_array_get. cbv zeta. rewrite !err_up. intros G.
  apply rbind_Ok in G as (x & Hx & G). destruct x as [o|].
  - intros _. rewrite (lookup_up _ _ _ _ _ _ _ Hi Hsub HD N b p o I Hp Hx), Hx. cbn [rbind].
    injection G as <- <-. split_and!; try done. intros k x b2.
    destruct (negb _); [by intros [= <- <-]|]. destruct (_ <=? _)%nat; [by intros [= <- <-]|].
    intros Q. change (a_heap (set_err c 0)) with (a_heap (set_err b 0)).
    apply rbind_Ok in Q as (cs & -> & Q). cbn [rbind]. apply rbind_Ok in Q as (y & -> & Q). cbn [rbind]. by injection Q as <- <-.
  - injection G as <- <-. done.
Qed.
Lemma nested_collections p v b' : "."%char ∉ p -> argus_get b (Some p) = Ok (v, b') -> a_err b' = 0 ->
  (forall key x b2, argus_map_get b (Some p) key = Ok (x, b2) -> argus_map_get c (Some p) key = Ok (x, as_command (a_root a) i T b2)) /\
  argus_array_it c (Some p) = argus_array_it b (Some p) /\ argus_map_it c (Some p) = argus_map_it b (Some p).
Proof.
  intros Hp. destruct (nested_inv a T i o0 t' w argv b Hf HT Hw Hsel Hi Hsub Hid E L) as (I & HD & N).
  unfold argus_get, argus_map_get, argus_array_it, argus_map_it. cbv zeta. rewrite !err_up. intros G.
  apply rbind_Ok in G as (x & Hx & G). destruct x as [o|].
  - intros _. rewrite (lookup_up _ _ _ _ _ _ _ Hi Hsub HD N b p o I Hp Hx), Hx. cbn [rbind].
    split_and!; try done. intros k x b2. destruct (negb _); [by intros [= <- <-]|].
    intros Q. change (a_heap (set_err c 0)) with (a_heap (set_err b 0)).
    apply rbind_Ok in Q as (y & -> & Q). cbn [rbind]. by destruct y; injection Q as <- <-.
  - injection G as <- <-. done.
Qed.
Lemma path_lookup_up p o n : d_name (decl_of o0) = Some n -> n <> [] -> "."%char ∉ n ->
  ("."%char ∈ p /\ (forall q, p <> "."%char :: q) /\ lookup_option b (Some p) = Ok o \/
   "."%char ∉ p /\ lookup_option b (Some ("."%char :: p)) = Ok o) ->
  lookup_option c (Some (n ++ "."%char :: p)) = Ok o.
Proof.
  destruct (nested_inv a T i o0 t' w argv b Hf HT Hw Hsel Hi Hsub Hid E L) as (I & HD & N). intros Hn Hne Hd G.
  assert (X : exists x, ("."%char ∈ p /\ (forall q, p <> "."%char :: q) /\ find_option_by_active_path b (Some p) = Ok x \/
   "."%char ∉ p /\ find_option_by_active_path b (Some ("."%char :: p)) = Ok x) /\
   match x with None => Ok None | Some (t, j) => let* o := get_option b t j in Ok (Some o) end = Ok o).
  { unfold lookup_option in G. destruct G as [(P1 & P2 & G)|(P1 & G)]; apply rbind_Ok in G as (x & Hx & G); exists x; eauto 10. }
  destruct X as (x & X & Y).
  unfold lookup_option. destruct (path_up _ _ _ _ _ _ _ Hi Hsub HD N b n p x I Hn Hne Hd X) as [-> K]. cbn [rbind].
  destruct x as [[t j]|]; [|done]. by rewrite (up_get _ _ _ b t j (K _ eq_refl)).
Qed.
Lemma nested_path p q v b' n : d_name (decl_of o0) = Some n -> n <> [] -> "."%char ∉ n ->
  ("."%char ∈ p /\ (forall s, p <> "."%char :: s) /\ q = p \/ "."%char ∉ p /\ q = "."%char :: p) ->
  argus_get b (Some q) = Ok (v, b') ->
  argus_get c (Some (n ++ "."%char :: p)) = Ok (v, as_command (a_root a) i T b') /\
  argus_is_set c (Some (n ++ "."%char :: p)) = argus_is_set b (Some q) /\
  argus_count c (Some (n ++ "."%char :: p)) = argus_count b (Some q).
Proof.
  intros Hn Hne Hd Hq G. unfold argus_get, argus_is_set, argus_count in *. cbv zeta in *. rewrite !err_up in *.
  apply rbind_Ok in G as (o & Ho & G).
  assert (X : lookup_option c (Some (n ++ "."%char :: p)) = Ok o).
  { apply (path_lookup_up p o n Hn Hne Hd). destruct Hq as [(P1 & P2 & ->)|(P1 & ->)]; eauto. }
  rewrite X, Ho. cbn [rbind]. by destruct o; injection G as <- <-.
Qed.
Lemma nested_unknown p v b' : "."%char ∉ p -> argus_get b (Some p) = Ok (v, b') -> a_err b' <> 0 ->
  argus_get c (Some p) = argus_get c (Some ("."%char :: p)).
Proof.
  intros Hp. destruct (nested_inv a T i o0 t' w argv b Hf HT Hw Hsel Hi Hsub Hid E L) as (I & HD & N).
  unfold argus_get. cbv zeta. rewrite !err_up. intros G. apply rbind_Ok in G as (x & Hx & G). destruct x as [o|].
  - by injection G as <- <-.
  - intros _. by rewrite (unknown_up _ _ _ _ _ _ _ Hi Hsub HD N b p I Hp Hx).
Qed.
Lemma nested_action act z b' : a_stack b <> [] -> argus_exec act b = Ok (z, b') ->
  argus_exec act c = Ok (z, as_command (a_root a) i T b').
Proof.
  destruct (nested_inv a T i o0 t' w argv b Hf HT Hw Hsel Hi Hsub Hid E L) as (I & HD & N).
  by apply (action_up _ _ _ _ _ _ act b z b' I).
Qed.
Lemma nested_itself act f : a_stack b = [] -> d_action (decl_of o0) = Some f ->
  argus_exec act c = Ok (act f, as_command (a_root a) i T (add_log b [EAction f])).
Proof.
  destruct (nested_inv a T i o0 t' w argv b Hf HT Hw Hsel Hi Hsub Hid E L) as (I & HD & N). intros Es Ha.
  unfold argus_exec. change (a_stack c) with ((a_root a, i) :: a_stack b). rewrite Es. cbn [last fst snd].
  rewrite (proj2 (get_option_Ok c (a_root a) i (with_set o0 true)))
    by (exists (marked i T); split; [by eapply up_root|by apply (marked_i i T o0 Hi)]).
  cbn [rbind]. change (decl_of (with_set o0 true)) with (decl_of o0). by rewrite Ha.
Qed.
End nest2.

(** Options and positionals of the program before the command *)
Lemma fresh_decls a a1 : fresh a -> decls a1 = decls a -> a_root a1 = a_root a -> a_stack a1 = [] -> a_err a1 = 0 -> fresh a1.
Proof.
  intros [F1 F2 F3 F4 F5 F6] D R S E. split; rewrite ?D, ?R; try done.
  intros t T1 HT o Ho Hg.
  assert (X : decls a !! t = Some (map decl_of T1)) by (rewrite <- D; unfold decls; by rewrite list_lookup_fmap, HT).
  unfold decls in X. rewrite list_lookup_fmap in X. destruct (a_tabs a !! t) as [T0|] eqn:E0; [|done].
  injection X as X. apply elem_of_list_lookup in Ho as [j Hj].
  assert (Y : map decl_of T0 !! j = Some (decl_of o)) by (rewrite X, list_lookup_fmap, Hj; done).
  rewrite list_lookup_fmap in Y. destruct (T0 !! j) as [o'|] eqn:Ej; [|done]. injection Y as Y.
  rewrite <- Y. apply (F6 t T0 E0 o'); [by eapply elem_of_list_lookup_2|]. unfold group_entry in *. by rewrite Y.
Qed.
Lemma nested_after `{Libc} a pre k its a1 T i o0 t' w argv st b : fresh a ->
  reached a pre (a_root a) (map decl_of T) k false its -> (forall t j, Enter t j ∉ its) ->
  perform a its = Ok (0, a1) -> a_tabs a1 !! a_root a = Some T ->
  (forall s, w <> "-"%char :: s) -> selects (map decl_of T) w i -> T !! i = Some o0 -> d_sub (decl_of o0) = Some t' ->
  parse_args (as_program t' a1) (Some t') 0 false argv = Ok (st, b) -> (length (a_stack b) < 8)%nat ->
  parse_args a (Some (a_root a)) 0 false (pre ++ w :: argv) = Ok (st, as_command (a_root a) i T b).
Proof.
  intros Hf Hr He E HT Hw Hsel Hi Hsub P L. pose proof (proj2 (re_leads _ _ _ _ _ _ _ Hr)) as HR.
  assert (Hc : calls_only its).
  { intros [t j v|t j|c m] Hx; [eauto|by apply He in Hx|by apply HR in Hx]. }
  destruct (perform_frame _ _ _ _ Hc E) as (R1 & S1 & _ & D1 & _). pose proof (perform_err _ _ _ E HR) as Er.
  assert (F1 : fresh a1).
  { apply (fresh_decls a); try done; [by rewrite S1, (f_stack a Hf)|by rewrite Er, (f_err a Hf)]. }
  rewrite <- R1 in HT. pose proof (nested_reading a1 T i o0 t' w argv st b F1 HT Hw Hsel Hi Hsub P L) as N. rewrite R1 in N, HT.
  assert (HD : decls a !! a_root a = Some (map decl_of T)) by (by apply (re_table _ _ _ _ _ _ _ Hr)).
  destruct (nested_start a1 T i o0 t' w argv F1 ltac:(by rewrite R1) Hw Hsel Hi Hsub) as (its2 & Hr2 & _ & _ & _ & _ & _ & Hty & _).
  rewrite D1 in Hr2. assert (Hd : map decl_of T !! i = Some (decl_of o0)) by (by rewrite list_lookup_fmap, Hi).
  assert (X : forall k', reads (decls a) (a_root a) k' false (w :: argv) (Enter (a_root a) i :: its2)) by (intros k'; by eapply r_sub).
  rewrite (reached_parse _ _ _ _ _ _ _ _ _ Hr (X k)). rewrite perform_app by done. rewrite E. cbn [rbind].
  change (0 =? 0) with true. cbv iota. rewrite <- N. symmetry. rewrite <- R1.
  apply (argus_parse_perform a1 (w :: argv)); [apply F1|apply F1|]. rewrite D1, R1. apply X.
Qed.
