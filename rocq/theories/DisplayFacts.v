(** * Consequences of the proofs about the screens *)
From stdpp Require Import sets.
From Coq Require Import Lia.
From Verif Require Export Api HelpProofs CommandProofs WrapProofs ChoiceProofs BufferProofs.

(** ** Wrapping *)
Lemma cut_lengths w t ls : cut_into w t ls -> Forall (fun l => (length l <= w)%nat) ls.
Proof.
  induction 1 as [t N L|l t ls N L C IH|l u v ls N1 N2 N3 L C IH|l t ls N1 N2 L C IH];
    constructor; try done; try lia.
  rewrite app_length in L. cbn in L. lia.
Qed.
Lemma cut_rejoined w t ls : cut_into w t ls -> rejoined ls t.
Proof.
  induction 1 as [t N L|l t ls N L C IH|l u v ls N1 N2 N3 L C IH|l t ls N1 N2 L C IH].
  - constructor.
  - apply (rejoined_more l ls [newline] t); auto.
  - apply (rejoined_more l ls [" "%char] (u ++ v)); auto.
  - apply (rejoined_more l ls [] t); auto.
Qed.
Lemma wrapped_lines text indent width out h :
  text <> [] -> (indent + 2 < width)%nat -> Z.of_nat width < two64 ->
  exists ls, print_wrapped_text text indent width (Dst out h) =
      Shown (tt, Dst (out ++ layout (spaces (indent + 2)) ls) h) /\
    cut_into (width - indent - 2) text ls /\
    Forall (fun l => (length l <= width - indent - 2)%nat) ls /\ rejoined ls text.
Proof.
  intros N L W. destruct (wrapped text indent width out h N L W) as (ls & E & C).
  exists ls. split; [done|]. split; [done|]. split; [by eapply cut_lengths|by eapply cut_rejoined].
Qed.
Lemma wrapped_words ws indent width out h :
  ws <> [] -> Forall is_word ws -> Forall (fun w => (length w < width - indent - 2)%nat) ws ->
  (indent + 2 < width)%nat -> Z.of_nat width < two64 ->
  exists wss, concat wss = ws /\
    print_wrapped_text (unwords ws) indent width (Dst out h) =
      Shown (tt, Dst (out ++ layout (spaces (indent + 2)) (map unwords wss)) h).
Proof.
  intros N F B L W.
  assert (N' : unwords ws <> []).
  { destruct ws as [|w ws]; [done|]. rewrite Forall_cons in F. destruct F as [[Nw _] _].
    destruct ws as [|w' ws]; [done|]. rewrite unwords_cons by done. by destruct w. }
  destruct (wrapped (unwords ws) indent width out h N' L W) as (ls & E & C).
  destruct (cut_words (width - indent - 2) (unwords ws) ls ws ltac:(lia) C eq_refl F B)
    as (wss & E1 & ->). exists wss. done.
Qed.

(** ** Organising *)
Lemma positions_NoDup f T : NoDup (positions f T).
Proof. apply NoDup_ListNoDup. apply List.NoDup_filter, seq_NoDup. Qed.
Lemma groups_once T gs :
  (forall g, g ∈ gs -> map snd (g_options g) = positions (in_group T (Some (g_name g))) T) ->
  NoDup (map g_name gs) ->
  NoDup (concat (map (fun g => map snd (g_options g)) gs)) /\
  forall i, i ∈ concat (map (fun g => map snd (g_options g)) gs) <->
    exists o g, T !! i = Some o /\ g ∈ gs /\ visible o = true /\ group_at T i = Some (g_name g).
Proof.
  induction gs as [|g gs IH]; intros G N; cbn [map concat].
  { split; [constructor|]. intros i. rewrite elem_of_nil. split; [done|].
    intros (o & g & _ & Hg & _). by apply elem_of_nil in Hg. }
  cbn in N. apply NoDup_cons in N as [N1 N2].
  destruct IH as [IH1 IH2]; [intros g' Hg; apply G; by right|done|].
  assert (M : forall i, i ∈ map snd (g_options g) <->
            exists o, T !! i = Some o /\ visible o = true /\ group_at T i = Some (g_name g)).
  { intros i. rewrite (G g ltac:(left)), positions_In. unfold in_group. split.
    - intros (o & E & K). apply andb_prop in K as [K1 K2]. apply bool_decide_eq_true in K2. by exists o.
    - intros (o & E & K1 & K2). exists o. split; [done|]. rewrite K1. by apply bool_decide_eq_true. }
  split.
  - apply NoDup_app. split; [rewrite (G g ltac:(left)); apply positions_NoDup|]. split; [|done].
    intros i Hi Hj. apply M in Hi as (o & E & V & K). apply IH2 in Hj as (o' & g' & E' & Hg & V' & K').
    apply N1. apply elem_of_list_fmap. exists g'. split; [congruence|done].
  - intros i. rewrite elem_of_app, M, IH2. split.
    + intros [(o & E & V & K)|(o & g' & E & Hg & V & K)].
      * exists o, g. split; [done|]. split; [left|done].
      * exists o, g'. split; [done|]. split; [by right|done].
    + intros (o & g' & E & Hg & V & K). apply elem_of_cons in Hg as [->|Hg].
      * left. by exists o.
      * right. by exists o, g'.
Qed.
Lemma organized_once T D :
  organized T D ->
  Permutation (concat (map (fun g => map snd (g_options g)) (hd_groups D)) ++ map snd (hd_ungrouped D))
    (positions (fun _ => visible) T).
Proof.
  intros [H1 H2 H3 H4 H5 H6 H7].
  destruct (groups_once T (hd_groups D)) as [N M]; [intros g Hg; by apply H4|done|].
  apply NoDup_Permutation.
  - apply NoDup_app. split; [done|]. split; [|rewrite H3; apply positions_NoDup].
    intros i Hi Hj. apply M in Hi as (o & g & E & Hg & V & K).
    rewrite H3 in Hj. apply positions_In in Hj as (o' & E' & K').
    unfold in_group in K'. apply andb_prop in K' as [_ K']. apply bool_decide_eq_true in K'. congruence.
  - apply positions_NoDup.
  - intros i. rewrite elem_of_app, M, H3, !positions_In. split.
    + intros [(o & g & E & Hg & V & K)|(o & E & K)]; exists o; split; try done.
      unfold in_group in K. by apply andb_prop in K as [K _].
    + intros (o & E & V). destruct (group_at T i) as [n|] eqn:K.
      * left. pose proof (H6 i o n E V K) as Hn. apply elem_of_list_fmap in Hn as (g & -> & Hg).
        by exists o, g.
      * right. exists o. split; [done|]. unfold in_group. rewrite V. by apply bool_decide_eq_true.
Qed.
Lemma organize_ok T s :
  oom (s_heap s) = [] ->
  exists D h', organize_options T s = Shown (D, Dst (s_out s) h') /\ organized T D.
Proof.
  intros O.
  destruct (t_organize_options (b := true) T (or_introl eq_refl) (blocks (s_heap s)) [] s (fun _ => O) (owned_start _))
    as (D & u & E & h' & E1 & _ & _ & -> & _ & _ & K).
  exists D, h'. split; [by rewrite E1, app_nil_r|by apply K].
Qed.

(** ** Descriptions *)
Lemma description_exact `{Libc, Printf} c prefix d s :
  printf_ok -> showable prefix d -> fits prefix d -> oom (s_heap s) = [] ->
  exists l h', build_option_description c prefix d s = Shown (Some l, Dst (s_out s) h') /\
    blocks h' !! l = Some (Some (BStr (description c prefix d))).
Proof.
  intros PO Sh F O.
  destruct (t_build (b := true) c prefix d PO Sh (blocks (s_heap s)) [] s (fun _ => O) (owned_start _))
    as (p & u & E & h' & E1 & OW & _ & -> & K).
  destruct K as [(Eb & _)|(l & t & -> & -> & _ & K)]; [done|].
  exists l, h'. split; [by rewrite E1, app_nil_r|]. injection (K (conj eq_refl F)) as ->.
  eapply owned_get; [exact OW|]. left.
Qed.
Lemma env_in_help `{Libc, Printf} c prefix d s n :
  printf_ok -> showable prefix d -> fits prefix d -> oom (s_heap s) = [] ->
  get_env_var_name prefix d = Some n ->
  exists l h' t, build_option_description c prefix d s = Shown (Some l, Dst (s_out s) h') /\
    blocks h' !! l = Some (Some (BStr t)) /\ shows ($"env: " ++ n ++ $")") t.
Proof.
  intros PO Sh F O N. destruct (description_exact c prefix d s PO Sh F O) as (l & h' & E & K).
  exists l, h', (description c prefix d). split; [done|]. split; [done|].
  unfold description. apply shows_app_l.
  assert (V : env_variable prefix d = Some n) by (rewrite <- display_env; exact N).
  rewrite V. unfold add_variable. destruct (bool_decide _).
  - apply shows_app_r. exists ($", "), []. rewrite app_nil_r. done.
  - apply shows_app_r. exists ($" ("), []. rewrite app_nil_r. done.
Qed.

(** Searching. *)
Fixpoint findb (l t : cstr) : bool :=
  bool_decide (l `prefix_of` t) || match t with [] => false | _ :: t' => findb l t' end.
Lemma findb_ok l t : shows l t -> findb l t = true.
Proof.
  intros (u & v & ->). induction u as [|x u IH]; cbn [app].
  - destruct (l ++ v) eqn:E; cbn [findb]; rewrite <- E;
      (rewrite bool_decide_eq_true_2; [done|by exists v]).
  - cbn [findb]. rewrite IH. apply orb_true_r.
Qed.
Lemma not_shows l t : findb l t = false -> ~ shows l t.
Proof. intros E S. apply findb_ok in S. congruence. Qed.

Definition good_commandb (tabs : list (list opt)) (o : opt) : bool :=
  negb (entry_is TSubcommand o) ||
  (match d_name (decl_of o) with Some _ => true | None => false end &&
   match d_sub (decl_of o) with Some t => (t <? length tabs)%nat | None => true end).
Lemma good_commandb_ok tabs o : good_commandb tabs o = true -> good_command tabs o.
Proof.
  unfold good_commandb. intros E S. rewrite S in E. cbn [negb orb] in E.
  apply andb_prop in E as [E1 E2]. split; [destruct (d_name (decl_of o)); [by eexists|done]|].
  intros t Et. rewrite Et in E2. apply Nat.ltb_lt in E2. by apply lookup_lt_is_Some_2.
Qed.
Definition short_pathsb (prog : cstr) (tabs : list (list opt)) (T : list opt) : bool :=
  forallb (fun o => good_commandb tabs o &&
    (length (path_under prog (name_of o)) <=? 511)%nat &&
    forallb (fun o' => good_commandb tabs o' &&
      (length (path_under (path_under prog (name_of o)) (name_of o')) <=? 1023)%nat) (children tabs o)) T.
Lemma short_pathsb_ok prog tabs T : short_pathsb prog tabs T = true -> short_paths prog tabs T.
Proof.
  unfold short_pathsb. intros E o Ho. rewrite forallb_forall in E.
  specialize (E o ltac:(by apply elem_of_list_In)). apply andb_prop in E as [E E3].
  apply andb_prop in E as [E1 E2]. split; [by apply good_commandb_ok|].
  split; [by apply Nat.leb_le|]. intros o' Ho'. rewrite forallb_forall in E3.
  specialize (E3 o' ltac:(by apply elem_of_list_In)). apply andb_prop in E3 as [E4 E5].
  split; [by apply good_commandb_ok|by apply Nat.leb_le].
Qed.

(** Error codes *)
Lemma strerror_distinct e e' :
  0 <= e <= 30 -> 0 <= e' <= 30 ->
  e ∉ [2; 20; 22; 23; 24; 25; 26; 27; 28] -> e' ∉ [2; 20; 22; 23; 24; 25; 26; 27; 28] ->
  argus_strerror e <> $"Unknown error" /\ (argus_strerror e = argus_strerror e' -> e = e').
Proof.
  intros R R' N N'.
  assert (A : forall x, 0 <= x <= 30 -> x ∈ map Z.of_nat (seq 0 31)).
  { intros x Rx. apply elem_of_list_In, in_map_iff. exists (Z.to_nat x). split; [lia|]. apply in_seq. lia. }
  assert (C : forallb (fun x => forallb (fun y =>
      bool_decide (x ∈ [2; 20; 22; 23; 24; 25; 26; 27; 28]) || bool_decide (y ∈ [2; 20; 22; 23; 24; 25; 26; 27; 28]) ||
      (negb (bool_decide (argus_strerror x = $"Unknown error")) &&
       (negb (bool_decide (argus_strerror x = argus_strerror y)) || (x =? y)))) (map Z.of_nat (seq 0 31)))
      (map Z.of_nat (seq 0 31)) = true) by (vm_compute; reflexivity).
  rewrite forallb_forall in C. specialize (C e ltac:(apply elem_of_list_In; by apply A)).
  rewrite forallb_forall in C. specialize (C e' ltac:(apply elem_of_list_In; by apply A)).
  rewrite (bool_decide_eq_false_2 _ N), (bool_decide_eq_false_2 _ N') in C. cbn [orb] in C.
  apply andb_prop in C as [C1 C2]. split.
  - intros X. by rewrite (bool_decide_eq_true_2 _ X) in C1.
  - intros X. rewrite (bool_decide_eq_true_2 _ X) in C2. by apply Z.eqb_eq.
Qed.
Lemma strerror_unknown e :
  e ∈ [2; 20; 22; 23; 24; 25; 26; 27; 28] -> argus_strerror e = $"Unknown error".
Proof.
  intros I. repeat (apply elem_of_cons in I as [->|I]; [reflexivity|]). by apply elem_of_nil in I.
Qed.
Lemma strerror_known e :
  argus_strerror e <> $"Unknown error" <-> 0 <= e <= 30 /\ e ∉ [2; 20; 22; 23; 24; 25; 26; 27; 28].
Proof.
  split.
  - intros N. split.
    + destruct (decide (0 <= e <= 30)) as [|B]; [done|]. exfalso. apply N. unfold argus_strerror.
      repeat (match goal with |- context [Z.eqb ?x ?y] =>
        rewrite (proj2 (Z.eqb_neq x y)) by
          (intros ->; apply B; vm_compute; split; discriminate) end). done.
    + intros I. by apply N, strerror_unknown.
  - intros [R I]. exact (proj1 (strerror_distinct e e R R I I)).
Qed.
