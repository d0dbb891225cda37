(** * Proofs: what the help shows can be typed *)
From Coq Require Import Lia Znumtheory.
From Verif Require Import Validate Api LibProofs SpecGrammar GrammarProofs SpecAfter SpecValues
  SpecStructure StructProofs SpecRequest RequestProofs CheckFacts AfterFacts MoreFacts SpecHelp OrganizeProofs DisplayFacts ValueProofs SpecCollections RangeProofs SpecTrust.
From Verif Require Import SpecAfter.

Lemma appears_mid x t y : appears t (x ++ t ++ y).
Proof. by exists x, y. Qed.
Lemma appears_trans t u w : appears t u -> appears u w -> appears t w.
Proof. intros (x & y & ->) (x' & y' & ->). exists (x' ++ x), (y ++ y'). by rewrite <- !app_assoc. Qed.
Lemma appears_l t u w : appears t u -> appears t (w ++ u).
Proof. intros (x & y & ->). exists (w ++ x), y. by rewrite <- !app_assoc. Qed.
Lemma appears_r t u w : appears t u -> appears t (u ++ w).
Proof. intros (x & y & ->). exists x, (y ++ w). by rewrite <- !app_assoc. Qed.
Lemma appears_refl t : appears t t.
Proof. exists [], []. by rewrite app_nil_r. Qed.
Lemma appears_concat t u us : appears t u -> u ∈ us -> appears t (concat us).
Proof.
  intros Ht. induction us as [|u' us IH]; intros Hu; [by apply elem_of_nil in Hu|].
  cbn [concat]. apply elem_of_cons in Hu as [<-|Hu]; [by apply appears_r|apply appears_l; auto].
Qed.

(** A decision procedure for the examples. *)
Definition appearsb (t u : cstr) : bool :=
  existsb (fun k => bool_decide (take (length t) (drop k u) = t)) (seq 0 (S (length u))).
Lemma appearsb_ok t u : appearsb t u = true -> appears t u.
Proof.
  intros E. apply existsb_exists in E as (k & _ & E). apply bool_decide_eq_true_1 in E.
  exists (take k u), (drop (length t) (drop k u)). rewrite <- E at 1. by rewrite take_drop, take_drop.
Qed.

Section trust.
Context `{Libc, Printf}.

Lemma listed_entry R T l t i : listed R T l t -> i ∈ l ->
  exists o u, T !! i = Some o /\ R (decl_of o) u /\ appears u t.
Proof.
  intros (ts & -> & HF). induction HF as [|j u l ts (o & Ho & HR) HF IH]; intros Hi; [by apply elem_of_nil in Hi|].
  cbn [concat]. apply elem_of_cons in Hi as [->|Hi].
  - exists o, u. split; [done|]. split; [done|]. apply appears_r, appears_refl.
  - destruct (IH Hi) as (o' & u' & ? & ? & ?). exists o', u'. split; [done|]. split; [done|]. by apply appears_l.
Qed.
Lemma section_entry title R T l t i : section title R T l t -> i ∈ l ->
  exists o u, T !! i = Some o /\ R (decl_of o) u /\ appears u t.
Proof.
  intros [[-> _]|(_ & u & -> & Hl)] Hi; [by apply elem_of_nil in Hi|].
  destruct (listed_entry _ _ _ _ _ Hl Hi) as (o & w & ? & ? & ?). exists o, w. split; [done|]. split; [done|].
  by do 4 apply appears_l.
Qed.
Lemma entry_head c head desc t : entry_text c head desc t -> appears head t.
Proof. intros (lines & -> & _). apply appears_r, appears_refl. Qed.

Lemma option_shown p prefix names T u i o : help_screen p prefix names T u -> T !! i = Some o -> visible o = true ->
  appears (option_head (p_config p) (decl_of o)) u.
Proof.
  intros (D & t1 & ts & t3 & t4 & HO & -> & _ & Hg & H3 & _) Ho Hv.
  assert (Hs : exists o' w, T !! i = Some o' /\ option_entry (p_config p) prefix (decl_of o') w /\
    appears w (t1 ++ concat ts ++ t3 ++ t4 ++ [newline])).
  { destruct (group_at T i) as [n|] eqn:En.
    - pose proof (org_all _ _ HO i o n Ho Hv En) as Hn. apply elem_of_list_fmap in Hn as (g & Hgn & Hg').
      assert (Hi : i ∈ map snd (g_options g)).
      { destruct (org_group _ _ HO g Hg') as [E _]. rewrite E. apply positions_In. exists o. split; [done|].
        unfold in_group. rewrite Hv. by apply bool_decide_eq_true_2; rewrite En, Hgn. }
      apply elem_of_list_lookup_1 in Hg' as [k Hk].
      destruct (Forall2_lookup_l _ _ _ _ _ Hg Hk) as (w & Hw & Hsec).
      destruct (section_entry _ _ _ _ _ _ Hsec Hi) as (o' & w' & ? & ? & ?). exists o', w'.
      split; [done|]. split; [done|]. apply appears_l, appears_r. eapply appears_concat; [done|].
      by eapply elem_of_list_lookup_2.
    - assert (Hi : i ∈ map snd (hd_ungrouped D)).
      { rewrite (org_ungrouped _ _ HO). apply positions_In. exists o. split; [done|].
        unfold in_group. rewrite Hv. by apply bool_decide_eq_true_2. }
      destruct (section_entry _ _ _ _ _ _ H3 Hi) as (o' & w' & ? & ? & ?). exists o', w'.
      split; [done|]. split; [done|]. by apply appears_l, appears_l, appears_r. }
  destruct Hs as (o' & w & Ho' & He & Ha). rewrite Ho in Ho'. injection Ho' as <-.
  eapply appears_trans; [|exact Ha]. eapply entry_head. exact He.
Qed.
Lemma command_shown p prefix names T u i o : help_screen p prefix names T u -> T !! i = Some o ->
  entry_is TSubcommand o = true -> appears (command_head (p_config p) (decl_of o)) u.
Proof.
  intros (D & t1 & ts & t3 & t4 & HO & -> & _ & _ & _ & w & Hs & ->) Ho Hv.
  assert (Hi : i ∈ map snd (hd_subcommands D)) by (rewrite (org_subcommands _ _ HO); apply positions_In; by exists o).
  destruct (section_entry _ _ _ _ _ _ Hs Hi) as (o' & w' & Ho' & He & Ha). rewrite Ho in Ho'. injection Ho' as <-.
  do 3 apply appears_l. do 2 apply appears_r. eapply appears_trans; [|exact Ha]. eapply entry_head. exact He.
Qed.
Lemma head_long c d n : d_lname d = Some n -> appears ($"--" ++ n) (option_head c d).
Proof.
  intros Hn. unfold option_head, option_names. rewrite Hn. apply appears_l, appears_r.
  destruct (Ascii.eqb (d_sname d) terminator); [apply appears_refl|].
  exists ["-"%char; d_sname d; ","%char; " "%char], []. by rewrite app_nil_r.
Qed.
Lemma head_letter c d : d_sname d <> terminator -> appears ["-"%char; d_sname d] (option_head c d).
Proof.
  intros Hn. unfold option_head, option_names. apply appears_l, appears_r.
  destruct (Ascii.eqb_spec (d_sname d) terminator) as [|_]; [done|].
  destruct (d_lname d) as [l|]; [|apply appears_refl]. exists [], ($", --" ++ l). done.
Qed.

(** ** Typing *)
Lemma typed_reads D t T k i d v ws rest its : well_named T -> D !! t = Some T -> T !! i = Some d -> d_type d = TOption ->
  typed d v ws -> (v = None <-> flag_option d) -> reads D t k false rest its ->
  reads D t k false (ws ++ rest) (Call t i v :: its).
Proof.
  intros W HT Hd Ht Hy Hv Hr.
  assert (Hlong : forall n, d_lname d = Some n -> typeable n -> n <> [] /\ first (long_named (key63 n)) T i).
  { intros n Hn [He Hl]. split.
    - destruct (wn_long_chars _ W d n ltac:(by eapply elem_of_list_lookup_2) Hn); done.
    - rewrite take63 by done. by eapply long_denotes. }
  assert (Hshort : plain_letter (d_sname d) -> first (short_named (d_sname d)) T i /\ d_sname d <> "-"%char).
  { intros [Hz _]. split; [by eapply short_denotes|].
    destruct (wn_short_chars _ W d ltac:(by eapply elem_of_list_lookup_2)) as [_ Hdash]. done. }
  destruct Hy as [n Hn Hy|n v Hn Hy|n v Hn Hy|Hy|v Hy].
  - destruct (Hlong n Hn Hy) as [Hne Hf]. destruct Hy as [He _]. cbn [app]. rewrite <- (app_nil_r n).
    eapply r_long_flag; try done; [by rewrite app_nil_r|by left|by apply Hv].
  - destruct (Hlong n Hn Hy) as [Hne Hf]. destruct Hy as [He _].
    eapply r_long_equal; try done. intros F. by apply Hv in F.
  - destruct (Hlong n Hn Hy) as [Hne Hf]. destruct Hy as [He _].
    eapply r_long_separate; try done. intros F. by apply Hv in F.
  - destruct (Hshort Hy) as [Hf Hdash]. destruct Hy as [Hz Hg].
    change (Call t i None :: its) with ([Call t i None] ++ its).
    eapply (r_short D t T k [d_sname d] rest); try done.
    + intros s' [= E _]. done.
    + by apply letter_not_negative.
    + eapply cl_flag; try done; [by apply Hv|apply cl_end].
  - destruct (Hshort Hy) as [Hf Hdash]. destruct Hy as [Hz Hg].
    change (Call t i (Some v) :: its) with ([Call t i (Some v)] ++ its).
    eapply (r_short D t T k [d_sname d] (v :: rest)); try done.
    + intros s' [= E _]. done.
    + by apply letter_not_negative.
    + eapply cl_separate; try done. intros F. by apply Hv in F.
Qed.

(** ** Defaults *)
Lemma description_default c prefix d : has_default d = true ->
  appears ($" (default: " ++ default_value d) (description c prefix d).
Proof.
  intros Hd. unfold description. apply appears_r.
  set (A := default [] (d_help d)). set (B := match hint_of_validator c d with Some _ => _ | None => _ end).
  assert (E : A ++ B ++ default_note d = ((A ++ B) ++ $" (default: " ++ default_value d) ++ $")").
  { unfold default_note. rewrite Hd. by rewrite <- !app_assoc. }
  rewrite E. set (u := (A ++ B) ++ _). assert (Hu : appears ($" (default: " ++ default_value d) u) by apply appears_l, appears_refl.
  unfold add_variable. destruct (env_variable prefix d) as [v|]; [|by apply appears_r].
  rewrite bool_decide_eq_true_2 by (by rewrite last_app).
  apply appears_r. rewrite app_length. cbn [length]. rewrite Nat.add_sub. by rewrite take_app.
Qed.
Lemma to_int32_range z : in_32_bits (to_int32 z).
Proof.
  unfold in_32_bits, to_int32. pose proof (Z.mod_pos_bound z two32 ltac:(reflexivity)) as B.
  assert (two32 = 4294967296) as E by reflexivity. rewrite E in *.
  destruct (_ <? _) eqn:C; [apply Z.ltb_lt in C|apply Z.ltb_ge in C]; lia.
Qed.
Lemma int_written n : in_32_bits n -> as_int (of_int64 (fst (strtoll (dec n)))) = Ok n.
Proof.
  intros Hn. change (dec n) with (decimal_text n). rewrite <- (app_nil_r (decimal_text n)), strtoll_decimal by done.
  cbn [fst]. rewrite saturated_32 by done. cbn [of_int64 as_int].
  f_equal. unfold to_int32. rewrite <- Zmod_div_mod; [|done|done|by exists two32].
  change (to_int32 n = n). by apply to_int32_id'.
Qed.
Lemma bool_shown b w : w = (if b : bool then $"true" else $"false") -> bool_word w b.
Proof.
  intros ->. destruct b; [exists ($"true")|exists ($"false")]; (split; [|]).
  1, 3: apply (bool_decide_eq_true_1 _); reflexivity.
  all: repeat constructor; by left.
Qed.
Lemma default_typed d w f x : simple_type d -> d_handler d = Some f ->
  (d_vtype d = VT_INT \/ d_vtype d = VT_BOOL -> exists z, d_default d = Raw W8 z) ->
  default_shown d w -> denoted f (Some w) x -> same_to_program d x (d_default d).
Proof.
  intros Hs Hf Hraw Hw Hx.
  destruct Hs as [[Ht Hh]|[[Ht Hh]|[Ht Hh]]]; rewrite Hf in Hh; injection Hh as ->;
    unfold default_shown, default_value in Hw; rewrite Ht in Hw; cbn in Hw;
    unfold same_to_program; rewrite Ht; inversion Hx; subst; clear Hx.
  - destruct (Hraw (or_introl Ht)) as [z Hz]. rewrite Hz in *.
    split; [|done]. intros _. cbn [as_int]. apply int_written, to_int32_range.
  - destruct (Hraw (or_intror Ht)) as [z Hz]. rewrite Hz in *.
    split; [done|]. split; [|done]. intros _. cbn [as_bool].
    match goal with B : bool_word _ _ |- _ => rename B into Hb end.
    assert (Hb' : bool_word (if z mod 256 =? 0 then $"false" else $"true") (negb (z mod 256 =? 0))).
    { apply bool_shown. by destruct (z mod 256 =? 0). }
    rewrite (bool_word_fun _ _ _ Hb Hb'). by destruct (z mod 256 =? 0).
  - split; [done|]. split; [done|]. intros _.
    destruct (d_default d); try done. inversion Hw as [Hw']. apply app_inj_tail in Hw' as [-> _]. done.
Qed.

(** ** Choices and ranges *)
Lemma offered_accepted f g w x o h : offered f g w -> denoted g (Some w) x -> value o = x ->
  exists ev, run_validator f (ArgOption o) h = Ok (0, ev).
Proof.
  intros Ho Hx Hv.
  assert (Hint : forall n, in_32_bits n -> denoted HInt (Some (dec n)) x -> x = of_int64 n).
  { intros n Hn Hd. inversion Hd; subst. f_equal. change (dec n) with (decimal_text n).
    rewrite <- (app_nil_r (decimal_text n)), strtoll_decimal by done. cbn [fst]. by apply saturated_32. }
  destruct Ho as [l z Hz Hn|l s Hs|lo hi n Hr Hn].
  - rewrite (Hint z Hn Hx) in Hv. destruct (choice_int_decides l o h z Hv Hn) as (st & ev & E & D).
    apply D in Hz as ->. by exists ev.
  - inversion Hx; subst. destruct (choice_str_decides l o h s ltac:(done)) as (st & ev & E & D).
    apply D in Hs as ->. by exists ev.
  - rewrite (Hint n Hn Hx) in Hv. destruct (range_decides lo hi o h n Hv Hn) as (st & ev & E & D).
    apply D in Hr as ->. by exists ev.
Qed.
Lemma bars_shown l t : t ∈ l -> appears t (bars l).
Proof.
  induction l as [|u l IH]; intros Ht; [by apply elem_of_nil in Ht|]. destruct l as [|u' l].
  - apply elem_of_list_singleton in Ht as ->. apply appears_refl.
  - cbn [bars]. apply elem_of_cons in Ht as [->|Ht]; [apply appears_r, appears_refl|].
    apply appears_l. change (appears t (["|"%char] ++ bars (u' :: l))). apply appears_l. auto.
Qed.
Lemma appears_cut t c u : appears (t ++ [c]) u -> appears t (take (length u - 1) u).
Proof.
  intros (x & y & ->). exists x. destruct y as [|e y' _] using rev_ind.
  - exists []. rewrite !app_nil_r, app_assoc, app_length. cbn [length]. rewrite Nat.add_sub. by rewrite take_app.
  - exists (c :: y'). rewrite !app_assoc, app_length. cbn [length]. rewrite Nat.add_sub, take_app.
    by rewrite <- !app_assoc.
Qed.
Lemma note_words v t : validator_words v = Some t -> exists c, appears (t ++ [c]) (validator_note v).
Proof.
  intros E. unfold validator_note. rewrite E. destruct (v_fun v); try (exists ")"%char; apply appears_l, appears_refl);
    exists "]"%char; apply appears_l, appears_refl.
Qed.
Lemma words_shown c prefix d v t : v ∈ default [] (d_validators d) -> validator_words v = Some t ->
  d_vtype d <> VT_FLAG -> appears t (option_head c d) \/ appears t (description c prefix d).
Proof.
  intros Hv Ht Hf. destruct (hint_of_validator c d) as [h|] eqn:Eh.
  - left. unfold option_head, hint_words. rewrite Eh. pose proof Eh as Eh'. unfold hint_of_validator in Eh'.
    destruct (d_hint d) as [?|]; [done|]. destruct (d_validators d) as [[|v' [|? ?]]|]; try done.
    apply elem_of_list_singleton in Hv as ->. rewrite Ht in Eh'. destruct (brief c t); [|done]. injection Eh' as ->.
    apply N.eqb_neq in Hf. rewrite Hf. apply appears_l, appears_l, appears_l, appears_r.
    cbn [default]. unfold repeated. destruct (has (d_vtype d) VT_VARIADIC); [apply appears_r, appears_refl|].
    destruct (has (d_vtype d) VT_ARRAY); [apply appears_r, appears_refl|].
    destruct (has (d_vtype d) VT_MAP); [apply appears_l, appears_r, appears_refl|apply appears_refl].
  - right. unfold description. rewrite Eh. apply appears_r.
    set (u := _ ++ _ ++ default_note d).
    assert (Hu : exists x, appears (t ++ [x]) u).
    { destruct (note_words v t Ht) as [x Hx]. exists x. unfold u. apply appears_l, appears_r.
      eapply appears_concat; [exact Hx|]. apply elem_of_list_fmap. by exists v. }
    destruct Hu as [x Hu]. assert (Hu' : appears t u).
    { eapply appears_trans; [|exact Hu]. apply appears_r, appears_refl. }
    unfold add_variable. destruct (env_variable prefix d) as [e|]; [|done].
    destruct (bool_decide _); [|by apply appears_r]. apply appears_r. by eapply appears_cut.
Qed.

(** ** The statements *)
Lemma names_shown p a0 a command t T names s :
  accepted a0 -> decls a = decls a0 -> reachable (decls a0) (a_root a0) t ->
  printf_ok -> good_config (p_config p) -> showable_table (a_prefix a) T ->
  fitting_table (p_config p) (a_prefix a) T -> selected a names ->
  match command with Some c => c = t | None => get_active_options a = Ok (Some t) end ->
  table_ptr (Some t) a = Ok T -> oom (s_heap s) = [] ->
  exists u h', display_help p a command s = Shown (tt, Dst (s_out s ++ u) h') /\
    forall i o, T !! i = Some o -> visible o = true ->
      (forall n, d_lname (decl_of o) = Some n -> appears ($"--" ++ n) u) /\
      (d_sname (decl_of o) <> Ascii.zero -> appears ["-"%char; d_sname (decl_of o)] u) /\
      forall k v ws rest its, typed (decl_of o) v ws -> (v = None <-> flag_option (decl_of o)) ->
        reads (decls a0) t k false rest its ->
        reads (decls a0) t k false (ws ++ rest) (Call t i v :: its).
Proof.
  intros Ha Hd Hre Hp Hc Hs Hf Hn Hcmd HT Ho.
  destruct (help_exact p a command (Some t) T names s) as (u & h' & E & _ & Hscr); try done.
  { by destruct command as [c|]; [rewrite Hcmd|]. }
  exists u, h'. split; [done|]. intros i o Hi Hv.
  pose proof (option_shown _ _ _ _ _ _ _ Hscr Hi Hv) as Hh.
  split; [intros n Hn'; eapply appears_trans; [by apply head_long|done]|].
  split; [intros Hz; eapply appears_trans; [by apply head_letter|done]|].
  assert (HT' : decls a0 !! t = Some (map decl_of T)).
  { rewrite <- Hd. unfold decls. rewrite list_lookup_fmap. cbn [table_ptr] in HT. unfold table in HT.
    destruct (a_tabs a !! t); [|done]. by injection HT as ->. }
  intros k v ws rest its Hy Hv' Hr. eapply typed_reads; try done; [by eapply accepted_names| |].
  - rewrite list_lookup_fmap, Hi. done.
  - unfold visible, entry_is in Hv. by destruct (d_type (decl_of o)).
Qed.
Lemma commands_shown p a0 a command t T names s :
  decls a = decls a0 ->
  printf_ok -> good_config (p_config p) -> showable_table (a_prefix a) T ->
  fitting_table (p_config p) (a_prefix a) T -> selected a names ->
  match command with Some c => c = t | None => get_active_options a = Ok (Some t) end ->
  table_ptr (Some t) a = Ok T -> oom (s_heap s) = [] ->
  exists u h', display_help p a command s = Shown (tt, Dst (s_out s ++ u) h') /\
    forall i o n t', T !! i = Some o -> d_type (decl_of o) = TSubcommand -> d_name (decl_of o) = Some n ->
      d_sub (decl_of o) = Some t' ->
      appears n u /\
      (no_dash n -> not_hidden (map decl_of T) i n -> forall k rest its, reads (decls a0) t' 0 false rest its ->
        reads (decls a0) t k false (n :: rest) (Enter t i :: its)).
Proof.
  intros Hd Hp Hc Hs Hf Hn Hcmd HT Ho.
  destruct (help_exact p a command (Some t) T names s) as (u & h' & E & _ & Hscr); try done.
  { by destruct command as [c|]; [rewrite Hcmd|]. }
  exists u, h'. split; [done|]. intros i o n t' Hi Ht Hn' Ht'.
  assert (Hty : entry_is TSubcommand o = true) by (unfold entry_is; by rewrite Ht).
  split.
  { eapply appears_trans; [|exact (command_shown _ _ _ _ _ _ _ Hscr Hi Hty)]. unfold command_head. rewrite Hn'.
    apply appears_l, appears_refl. }
  assert (HT' : decls a0 !! t = Some (map decl_of T)).
  { rewrite <- Hd. unfold decls. rewrite list_lookup_fmap. cbn [table_ptr] in HT. unfold table in HT.
    destruct (a_tabs a !! t); [|done]. by injection HT as ->. }
  intros Hw Hh k rest its Hr. assert (Hi' : map decl_of T !! i = Some (decl_of o)) by (by rewrite list_lookup_fmap, Hi).
  eapply r_sub; try done. by eapply full_name_selects.
Qed.
Lemma default_end_to_end c a argv a' its1 its2 t i o w p :
  fresh a -> argus_parse a argv = Ok (Returned 0, a') ->
  assigned a argv (its1 ++ Call t i (Some w) :: its2) -> (forall x, x ∈ its2 -> ~ touches t i x) ->
  entry a t i o -> has_default (decl_of o) = true -> showable (a_prefix a) (decl_of o) ->
  simple_type (decl_of o) -> default_shown (decl_of o) w ->
  find_option_by_active_path a' p = Ok (Some (t, i)) ->
  appears ($" (default: " ++ default_value (decl_of o)) (description c (a_prefix a) (decl_of o)) /\
  exists x, argus_get a' p = Ok (x, set_err a' 0) /\ same_to_program (decl_of o) x (d_default (decl_of o)).
Proof.
  intros Hfr E Has Hno He Hd Hsh Hst Hw Hp. split; [by apply description_default|].
  assert (Hf : exists f, d_handler (decl_of o) = Some f /\ scalar f).
  { destruct Hst as [[_ ?]|[[_ ?]|[_ ?]]]; eexists; (split; [done|]); unfold scalar; auto. }
  destruct Hf as (f & Hf & Hsc). destruct He as (T & HT & Hi).
  destruct (last_wins a argv a' its1 its2 t i (Some w) (map decl_of T) (decl_of o) f) as (x & o' & Hx & Ho' & Hv); try done.
  { unfold decls. by rewrite list_lookup_fmap, HT. }
  { by rewrite list_lookup_fmap, Hi. }
  destruct (found_access _ _ _ _ _ Hp Ho') as (Hg & _). exists x. rewrite Hg, Hv. split; [done|].
  eapply default_typed; try done. intros Hty. apply (sh_default _ _ Hsh Hd). destruct Hty as [?|?]; auto.
Qed.
Lemma offered_ok c prefix d v g w :
  v ∈ default [] (d_validators d) -> d_vtype d <> VT_FLAG -> offered (v_fun v) g w ->
  (exists words, validator_words v = Some words /\
     (appears words (option_head c d) \/ appears words (description c prefix d)) /\
     match v_fun v with
     | VRange lo hi => words = decimal_text lo ++ $"-" ++ decimal_text hi
     | _ => appears w words
     end) /\
  (forall x o h, denoted g (Some w) x -> value o = x ->
     exists ev, run_validator (v_fun v) (ArgOption o) h = Ok (0, ev)).
Proof.
  intros Hv Hf Ho. split; [|intros x o h; by apply offered_accepted].
  assert (Hw : exists words, validator_words v = Some words /\ match v_fun v with
     | VRange lo hi => words = decimal_text lo ++ $"-" ++ decimal_text hi
     | _ => appears w words
     end).
  { destruct v as [f r]. cbn [v_fun] in *. destruct Ho as [l z Hz Hn|l s Hs|lo hi n Hr Hn]; cbn [v_fun validator_words];
      eexists; (split; [done|]).
    - apply bars_shown. apply elem_of_list_fmap. by exists z.
    - by apply bars_shown.
    - done. }
  destruct Hw as (words & E & Hw). exists words. split; [done|]. split; [by eapply words_shown|done].
Qed.
End trust.
