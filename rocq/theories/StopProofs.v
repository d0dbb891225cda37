(** * Proofs: a line that was refused while its words were read *)
From Verif Require Import Validate Api LibProofs SpecGrammar GrammarProofs GrammarLemmas SpecAfter SpecEnvironment
  SpecListen ListenProofs.

Section stop.
Context `{Libc}.

(** With a word behind it, an option ends as without, unless it lacked its value. *)
Lemma long_more a t w next st u a' : handle_long_option a t w None = Ok (st, u, a') -> st <> E_MISSING_VALUE ->
  handle_long_option a t w next = Ok (st, u, a').
Proof.
  unfold handle_long_option. intros E Hm. destruct (table a t) as [T|]; [|done]. cbn [rbind] in *.
  destruct (find_option_by_lname T (long_option_name w)) as [i|]; [|done].
  destruct (cell T i) as [o|]; [|done]. cbn [rbind] in *.
  destruct (d_vtype (decl_of o) =? VT_FLAG)%N; [done|].
  destruct (strchr w equal_sign); [done|]. injection E as <- <- <-. done.
Qed.
Lemma short_more t w next : forall a st u a', handle_short_option a t w None = Ok (st, u, a') -> st <> E_MISSING_VALUE ->
  handle_short_option a t w next = Ok (st, u, a').
Proof.
  induction w as [|c w IH]; intros a st u a' E Hm; [done|]. cbn [handle_short_option] in *.
  destruct (table a t) as [T|]; [|done]. cbn [rbind] in *.
  destruct (find_option_by_sname T c) as [i|]; [|done].
  destruct (cell T i) as [o|]; [|done]. cbn [rbind] in *.
  destruct (d_vtype (decl_of o) =? VT_FLAG)%N.
  - destruct (execute_callbacks a t i None) as [[st1 a1]|]; [|done]. cbn [rbind] in *.
    destruct (st1 =? SUCCESS); [|done]. by apply IH.
  - destruct w; [|done]. injection E as <- <- <-. done.
Qed.

Lemma args_more post : forall argv n a tp pos only st a', (length argv <= n)%nat ->
  parse_args a tp pos only argv = Ok (st, a') -> st <> 0 -> st <> E_MISSING_VALUE ->
  parse_args a tp pos only (argv ++ post) = Ok (st, a').
Proof.
  intros argv n. revert argv. induction n as [|n IH]; intros [|w argv] a tp pos only st a' Hn E H0 Hm; cbn in Hn; try lia;
    try (cbn in E; injection E as <- <-; done).
  cbn [app parse_args] in *.
  destruct (strcmp w ($"--") =? 0); [apply IH; [lia|done..]|].
  destruct tp as [t|]; [|done].
  destruct only.
  { destruct (handle_positional a t w pos) as [[st1 a1]|]; [|done]. cbn [rbind] in *.
    destruct (st1 =? SUCCESS); [apply IH; [lia|done..]|done]. }
  destruct (starts_with (Some ($"--")) (Some w)) as [lw|].
  { destruct argv as [|v argv]; cbn [head app] in *.
    - destruct (handle_long_option a t lw None) as [[[st1 u] a1]|] eqn:El; [|done]. cbn [rbind] in E.
      destruct (Z.eqb_spec st1 SUCCESS) as [->|Hne]; [injection E as <- <-; done|]. injection E as <- <-.
      rewrite (long_more a t lw (head post) _ _ _ El Hm). cbn [rbind].
      by rewrite (proj2 (Z.eqb_neq _ _) Hne).
    - destruct (handle_long_option a t lw (Some v)) as [[[st1 u] a1]|]; [|done]. cbn [rbind] in *.
      destruct (st1 =? SUCCESS); [|done]. cbn [length] in Hn.
      destruct u; [apply IH; [lia|done..]|].
      change (v :: argv ++ post) with ((v :: argv) ++ post). apply IH; [cbn; lia|done..]. }
  destruct (starts_with (Some ($"-")) (Some w)) as [sw|].
  { destruct (table a t) as [T|]; [|done]. cbn [rbind] in *.
    match type of E with (if ?b then _ else _) = _ => destruct b end.
    { destruct (handle_positional a t w pos) as [[st1 a1]|]; [|done]. cbn [rbind] in *.
      destruct (st1 =? SUCCESS); [apply IH; [lia|done..]|done]. }
    destruct argv as [|v argv]; cbn [head app] in *.
    - destruct (handle_short_option a t sw None) as [[[st1 u] a1]|] eqn:El; [|done]. cbn [rbind] in E.
      destruct (Z.eqb_spec st1 SUCCESS) as [->|Hne]; [injection E as <- <-; done|]. injection E as <- <-.
      rewrite (short_more t sw (head post) _ _ _ _ El Hm). cbn [rbind].
      by rewrite (proj2 (Z.eqb_neq _ _) Hne).
    - destruct (handle_short_option a t sw (Some v)) as [[[st1 u] a1]|]; [|done]. cbn [rbind] in *.
      destruct (st1 =? SUCCESS); [|done]. cbn [length] in Hn.
      destruct u; [apply IH; [lia|done..]|].
      change (v :: argv ++ post) with ((v :: argv) ++ post). apply IH; [cbn; lia|done..]. }
  destruct (table a t) as [T|]; [|done]. cbn [rbind] in *.
  destruct (find_subcommand T w) as [|i|i j].
  - destruct (handle_positional a t w pos) as [[st1 a1]|]; [|done]. cbn [rbind] in *.
    destruct (st1 =? SUCCESS); [apply IH; [lia|done..]|done].
  - destruct (enter_subcommand a t i) as [[s a1]|]; [|done]. cbn [rbind] in *. apply IH; [lia|done..].
  - done.
Qed.

Lemma parse_more a argv post st b : parse_args a (Some (a_root a)) 0 false argv = Ok (st, b) ->
  st <> 0 -> st <> E_MISSING_VALUE -> argus_parse a (argv ++ post) = argus_parse a argv.
Proof.
  intros E H0 Hm. unfold argus_parse. rewrite E.
  by rewrite (args_more post argv (length argv) a _ _ _ _ _ (le_n _) E H0 Hm).
Qed.
Lemma refused_more a argv its st b post : subs_present (decls a) -> is_Some (decls a !! a_root a) ->
  reads (decls a) (a_root a) 0 false argv its -> perform a its = Ok (st, b) -> st <> 0 -> st <> E_MISSING_VALUE ->
  argus_parse a (argv ++ post) = argus_parse a argv.
Proof.
  intros HS HR Hr Hp. rewrite <- (argus_parse_perform a argv its HS HR Hr) in Hp. by apply (parse_more a argv post st b).
Qed.
Lemma exited_more a argv c a' post : argus_parse a argv = Ok (Exited c, a') ->
  argus_parse a (argv ++ post) = Ok (Exited c, a').
Proof.
  intros E. assert (X := E). unfold argus_parse in X.
  destruct (parse_args a (Some (a_root a)) 0 false argv) as [[st b]|] eqn:Ep; [|done]. cbn [rbind] in X. cbv beta iota zeta in X.
  destruct (Z.eqb_spec st SHOULD_EXIT) as [->|Hne].
  { rewrite (parse_more a argv post _ _ Ep); done. }
  exfalso. destruct (st =? SUCCESS); cbn [negb] in X.
  - destruct (load_env_vars (set_err b st)) as [[s2 b2]|]; [|done]. cbn [rbind] in X.
    destruct (s2 =? SUCCESS); cbn [negb] in X; [|by destruct (argus_free b2)].
    destruct (post_parse_validation b2) as [[s3 b3]|]; [|done]. cbn [rbind] in X.
    destruct (s3 =? SUCCESS); cbn [negb] in X; [done|by destruct (argus_free b3)].
  - by destruct (argus_free (add_log (set_err b st) [EUsage])).
Qed.
End stop.

Lemma refused_environment L L' a argv its st b : same_but_environment L L' ->
  subs_present (decls a) -> is_Some (decls a !! a_root a) ->
  reads (decls a) (a_root a) 0 false argv its -> perform (H := L) a its = Ok (st, b) -> st <> 0 ->
  argus_parse (H := L') a argv = argus_parse (H := L) a argv.
Proof.
  intros HL HS HR Hr Hp H0. unfold argus_parse.
  rewrite (parse_reads (H := L) _ _ _ _ _ _ HS HR Hr), (parse_reads (H := L') _ _ _ _ _ _ HS HR Hr).
  rewrite <- (perform_same L L' a its HL), Hp. cbn [rbind]. cbv beta iota zeta.
  destruct (st =? SHOULD_EXIT); [done|]. by rewrite (proj2 (Z.eqb_neq st SUCCESS) H0).
Qed.

(** A line that lacks a value at its end takes the next word for it. *)
Lemma cluster_more T t x rest s its r : cluster T t rest s its r -> forall rest', r = Some rest' ->
  cluster T t (rest ++ x) s its (Some (rest' ++ x)) /\ forall c m, Reject c m ∉ its.
Proof.
  induction 1 as [|c cs i d its r Hf Hd Hg Hc IH|c v i d Hf Hd Hg Hv|c i d v rest' Hf Hd Hg ->|c i d Hf Hd Hg ->|c cs Hn];
    intros rest0 E; try discriminate E.
  - injection E as <-. split; [apply cl_end|]. intros ? ? Hx. by apply elem_of_nil in Hx.
  - destruct (IH _ E) as [IH1 IH2]. split; [by eapply cl_flag|].
    intros ? ? Hx. apply elem_of_cons in Hx as [Hx|Hx]; [done|]. by apply IH2 in Hx.
  - injection E as <-. split; [by eapply cl_attached|]. intros ? ? Hx. apply elem_of_list_singleton in Hx. done.
  - injection E as <-. split; [by eapply cl_separate|]. intros ? ? Hx. apply elem_of_list_singleton in Hx. done.
Qed.
Lemma cluster_missing T t rest s its r m : cluster T t rest s its r -> r = None -> Reject E_MISSING_VALUE m ∈ its ->
  rest = [] /\ exists its0 i, its = its0 ++ [Reject E_MISSING_VALUE m] /\
    forall v, cluster T t [v] s (its0 ++ [Call t i (Some v)]) (Some []).
Proof.
  induction 1 as [|c cs i d its r Hf Hd Hg Hc IH|c v i d Hf Hd Hg Hv|c i d v rest' Hf Hd Hg ->|c i d Hf Hd Hg ->|c cs Hn];
    intros E Hx; try discriminate E.
  - apply elem_of_cons in Hx as [Hx|Hx]; [done|]. destruct (IH E Hx) as (-> & its0 & j & -> & Hv).
    split; [done|]. exists (Call t i None :: its0), j. split; [done|]. intros v. cbn [app]. by eapply cl_flag.
  - split; [done|]. apply elem_of_list_singleton in Hx. injection Hx as ->. exists [], i. split; [done|].
    intros v. by eapply cl_separate.
  - apply elem_of_list_singleton in Hx. done.
Qed.

Lemma reads_missing D t k only argv its m : reads D t k only argv its -> Reject E_MISSING_VALUE m ∈ its ->
  exists its0 t' i, its = its0 ++ [Reject E_MISSING_VALUE m] /\
    forall v, reads D t k only (argv ++ [v]) (its0 ++ [Call t' i (Some v)]).
Proof.
  induction 1; intros Hx.
  all: try (by apply elem_of_nil in Hx).
  all: try (by apply elem_of_list_singleton in Hx).
  all: try (apply elem_of_cons in Hx as [Hx|Hx]; [done|];
    destruct IHreads as (its0 & t1 & i1 & -> & Hv); [done|]; eexists (_ :: its0), t1, i1; split; [reflexivity|];
    intros v1; cbn [app]; econstructor; eauto; done).
  - destruct IHreads as (its0 & t1 & i1 & -> & Hv); [done|]. exists its0, t1, i1. split; [done|].
    intros v. cbn [app]. apply r_dashes, Hv.
  - apply elem_of_list_singleton in Hx. injection Hx as ->. exists [], t, i. split; [done|].
    intros v. cbn [app]. eapply r_long_separate; eauto. apply r_end.
  - destruct (cluster_more _ _ [] _ _ _ _ H2 _ eq_refl) as [_ Hn].
    apply elem_of_app in Hx as [Hx|Hx]; [by apply Hn in Hx|].
    destruct IHreads as (its0 & t1 & i1 & -> & Hv); [done|]. exists (its1 ++ its0), t1, i1. split; [by rewrite app_assoc|].
    intros v. rewrite <- app_assoc. cbn [app]. eapply r_short; eauto.
    by destruct (cluster_more _ _ [v] _ _ _ _ H2 _ eq_refl).
  - destruct (cluster_missing _ _ _ _ _ _ _ H2 eq_refl Hx) as (-> & its0 & i & -> & Hv). exists its0, t, i. split; [done|].
    intros v. cbn [app]. rewrite <- (app_nil_r (its0 ++ _)). eapply r_short; eauto. apply r_end.
Qed.

Lemma missing_more `{Libc} a argv its m : subs_present (decls a) -> is_Some (decls a !! a_root a) ->
  reads (decls a) (a_root a) 0 false argv its -> Reject E_MISSING_VALUE m ∈ its ->
  exists its0 t i, its = its0 ++ [Reject E_MISSING_VALUE m] /\
    forall v, reads (decls a) (a_root a) 0 false (argv ++ [v]) (its0 ++ [Call t i (Some v)]) /\
      parse_args a (Some (a_root a)) 0 false (argv ++ [v]) = perform a (its0 ++ [Call t i (Some v)]).
Proof.
  intros HS HR Hr Hx. destruct (reads_missing _ _ _ _ _ _ _ Hr Hx) as (its0 & t & i & -> & Hv).
  exists its0, t, i. split; [done|]. intros v. split; [done|]. by apply argus_parse_perform.
Qed.
