(** * Every word of an accepted line is used *)
From Coq Require Import Lia.
From Verif Require Import Api LibProofs FrameProofs SpecGrammar GrammarProofs GrammarLemmas SpecWords.

Definition accounts (D : list (list decl)) (argv : list cstr) (its : list item) : Prop :=
  exists us, sublist us (concat (map uses_of its)) /\ Forall2 (used_as D) (telling argv) us.
Lemma telling_cons w argv : telling (w :: argv) = telling argv /\ (w = $"-" \/ w = $"--") \/ telling (w :: argv) = w :: telling argv.
Proof.
  unfold telling. cbn [List.filter]. destruct (bool_decide_reflect (w = $"-" \/ w = $"--")); cbn; auto.
Qed.
Lemma accounts_nil D : accounts D [] [].
Proof. exists []. split; [constructor|]. constructor. Qed.
(** One word, used by the next item. *)
Lemma accounts_word D w argv it its u : u ∈ uses_of it -> used_as D w u -> accounts D argv its ->
  accounts D (w :: argv) (it :: its).
Proof.
  intros Hu Hw (us & S1 & F). cbn [accounts]. unfold accounts. cbn [map concat].
  destruct (telling_cons w argv) as [[-> _]| ->].
  - exists us. split; [|done]. by apply sublist_inserts_l.
  - exists (u :: us). split; [|by constructor]. change (u :: us) with ([u] ++ us). apply sublist_app; [|done].
    apply elem_of_list_split in Hu as (l1 & l2 & ->). apply sublist_inserts_l, sublist_skip, sublist_nil_l.
Qed.
(** An option word and its value. *)
Lemma accounts_pair D w v argv t i its : used_as D w (Name t i) -> accounts D argv its ->
  accounts D (w :: v :: argv) (Call t i (Some v) :: its).
Proof.
  intros Hw (us & S1 & F). unfold accounts. cbn [map concat uses_of app].
  destruct (telling_cons w (v :: argv)) as [[-> _]| ->]; destruct (telling_cons v argv) as [[-> _]| ->].
  - exists us. split; [|done]. by do 2 apply sublist_cons.
  - exists (Text v :: us). split; [|by constructor]. apply sublist_cons. by apply sublist_skip.
  - exists (Name t i :: us). split; [|by constructor]. apply sublist_skip. by apply sublist_cons.
  - exists (Name t i :: Text v :: us). split; [by do 2 apply sublist_skip|]. by repeat constructor.
Qed.
Lemma accounts_skip D w argv its : w = $"-" \/ w = $"--" -> accounts D argv its -> accounts D (w :: argv) its.
Proof.
  intros Hw (us & S1 & F). exists us. split; [done|]. unfold telling. cbn [List.filter].
  by rewrite bool_decide_eq_true_2.
Qed.
(** Further items of a cluster. *)
Lemma accounts_more D argv its1 its2 : accounts D argv its2 -> accounts D argv (its1 ++ its2).
Proof.
  intros (us & S1 & F). exists us. split; [|done]. rewrite map_app, concat_app. by apply sublist_inserts_l.
Qed.
Lemma name_short D t T i d c s : D !! t = Some T -> T !! i = Some d -> short_named c d ->
  used_as D ("-"%char :: c :: s) (Name t i).
Proof. intros HT Hi Hc. exists T, d. split_and!; eauto 10. Qed.
Lemma name_long D t T i d n s : D !! t = Some T -> T !! i = Some d -> long_named (key63 n) d ->
  (s = [] \/ exists v, s = "="%char :: v) -> used_as D ($"--" ++ n ++ s) (Name t i).
Proof. intros HT Hi Hc. exists T, d. split_and!; eauto 10. Qed.
Lemma first_here {A} (P : A -> Prop) l i d : first P l i -> l !! i = Some d -> P d.
Proof. intros (x & Hx & Px & _) Hd. rewrite Hx in Hd. by injection Hd as ->. Qed.

Lemma cluster_accounts D t T rest s its rest' its2 : D !! t = Some T -> cluster T t rest s its (Some rest') ->
  accounts D rest' its2 -> accounts D (("-"%char :: s) :: rest) (its ++ its2).
Proof.
  intros HT C A. remember (Some rest') as r eqn:Er. destruct C as [|c cs i d its r F Hd Fl C|c v i d F Hd Fl Hv|c i d v r' F Hd Fl ->|c i d F Hd Fl ->|c cs N];
    try discriminate Er.
  - injection Er as ->. apply accounts_skip; [by left|done].
  - subst r. cbn [app]. apply accounts_word with (u := Name t i); [by left| |].
    + eapply name_short; [exact HT|exact Hd|by eapply first_here].
    + clear - C A. remember (Some rest') as r eqn:Er. revert Er. induction C as [|c cs i d its r F Hd Fl C IH|c v i d F Hd Fl Hv|c i d v r' F Hd Fl ->|c i d F Hd Fl ->|c cs N]; intros Er;
        try discriminate Er.
      * by injection Er as ->.
      * apply (accounts_more _ _ [Call t i None]). by apply IH.
      * injection Er as ->. by apply accounts_more.
      * injection Er as ->. cbn [app]. apply accounts_word with (u := Text v); [right; by left|done|done].
  - injection Er as ->. cbn [app]. apply accounts_word with (u := Name t i); [by left| |done].
    eapply name_short; [exact HT|exact Hd|by eapply first_here].
  - injection Er as ->. cbn [app]. apply accounts_pair; [|done].
    eapply name_short; [exact HT|exact Hd|by eapply first_here].
Qed.
Lemma cluster_bad T t rest s its : cluster T t rest s its None -> exists c m, Reject c m ∈ its.
Proof.
  remember None as r eqn:Er. induction 1; try discriminate Er.
  - destruct IHcluster as (c' & m' & Hc); [done|]. exists c', m'. by right.
  - do 2 eexists. by left.
  - do 2 eexists. by left.
Qed.
Lemma reads_accounts D t k only argv its : reads D t k only argv its -> (forall c m, Reject c m ∉ its) -> accounts D argv its.
Proof.
  assert (Tail : forall it its, (forall c m, Reject c m ∉ it :: its) -> forall c m, Reject c m ∉ its).
  { intros it its0 N c m Hc. apply (N c m). by right. }
  assert (Bad : forall c0 m0 its, ~ (forall c m, Reject c m ∉ Reject c0 m0 :: its)).
  { intros c0 m0 its0 N. apply (N c0 m0). by left. }
  induction 1; intros N; try (by destruct (Bad _ _ _ N)); try specialize (IHreads (Tail _ _ N)).
  - apply accounts_nil.
  - apply accounts_skip; [by right|]. by apply IHreads.
  - apply accounts_word with (u := Text w); [right; by left|done|done].
  - apply accounts_word with (u := Name t i); [by left| |done]. eapply name_long; eauto. by eapply first_here.
  - apply accounts_word with (u := Name t i); [by left| |done]. eapply name_long; eauto. by eapply first_here.
  - apply accounts_pair; [|done]. rewrite <- (app_nil_r name). eapply name_long; eauto. by eapply first_here.
  - apply accounts_word with (u := Text ($"-" ++ s)); [right; by left|done|done].
  - eapply cluster_accounts; [done|done|]. apply IHreads. intros c m Hc. apply (N c m). apply elem_of_app. by right.
  - destruct (cluster_bad _ _ _ _ _ H2) as (c & m & Hc). by destruct (N c m).
  - apply accounts_word with (u := Name t i); [by left| |done]. exists T, d. split_and!; [done|done|]. left.
    match goal with X : selects _ _ _ |- _ => destruct X as [X _]; by eapply first_here end.
  - apply accounts_word with (u := Text w); [right; by left|done|done].
Qed.

Section libc.
Context `{Libc}.
Lemma words_used a argv a' : subs_present (decls a) -> is_Some (decls a !! a_root a) ->
  argus_parse a argv = Ok (Returned 0, a') ->
  exists its a1, parse_args a (Some (a_root a)) 0 false argv = Ok (0, a1) /\ perform a its = Ok (0, a1) /\
    (forall c m, Reject c m ∉ its) /\
    exists us, sublist us (concat (map uses_of its)) /\ Forall2 (used_as (decls a)) (telling argv) us.
Proof.
  intros HS HR E. destruct (success_accepted _ _ _ HS HR E) as (its & Hr & N).
  destruct (argus_parse_zero _ _ _ E) as [a1 Hp]. exists its, a1. split; [done|]. split.
  - by rewrite <- (parse_reads _ _ _ _ _ _ HS HR Hr).
  - split; [done|]. by apply (reads_accounts _ _ _ _ _ _ Hr).
Qed.
Lemma dash_lost a pre t T k its post : reached a pre t T k false its ->
  argus_parse a (pre ++ $"-" :: post) = argus_parse a (pre ++ post).
Proof.
  intros Hr. eapply same_reading; [exact Hr|]. destruct (reached_total _ _ _ _ _ _ _ post Hr) as [its' Hp].
  exists its'. split; [|done]. change its' with ([] ++ its'). change ($"-") with ($"-" ++ []).
  eapply (r_short _ t T k []); [by destruct Hr|done| |constructor|done].
  intros [[(c & r & X & _)|(c & r & X & _)] _]; discriminate X.
Qed.
End libc.
