(** * The message about a refused value: proofs *)
From Coq Require Import Lia.
From stdpp Require Import sets.
From Verif Require Import Api LibProofs FrameProofs Display SpecDisplay ChoiceProofs SpecValues ValueProofs.
From Verif Require Import SpecGrammar GrammarProofs GrammarLemmas SpecAfter AfterProofs EnvProofs WholeProofs AfterFacts SpecStructure StructProofs CallProofs SpecTold ToldProofs Messages SpecMessages MessageProofs.
From Verif Require Import SpecMemory SpecContents SpecSafe HeapProofs SplitProofs ListProofs OrderProofs ArrayProofs FlagProofs ArrayHandlers MapProofs
  MapHandlers MapFlags MapWhole SafeProofs SafeContext SafePerform SpecRefused.

Section libc.
Context `{Libc} (pcre : cstr -> cstr).
Notation render := (render pcre).
Notation value_said := (value_said pcre).
Notation text_refusal := (text_refusal pcre).

Hint Resolve calm_array_flags calm_map_flags calm_adjust_arr calm_adjust_map calm_find_key calm_push calm_push_pair
  calm_set_map_value calm_range calm_set_value_string calm_set_int_value calm_set_float_value calm_free_split
  calm_set_value_float : calm.
(** ** Validators *)
Ltac rd := cbn [Messages.render render_piece rbind]; f_equal; unfold in_quotes; rewrite <- ?app_assoc; rewrite ?app_nil_r; reflexivity.
Lemma refused_text f v h st ev : match f with VCustomPre _ | VCustomPost _ => False | _ => True end ->
  run_validator f (ArgText v) h = Ok (st, ev) ->
  (st = 0 /\ ev = [] /\ accepts_text f v) \/
  (st <> 0 /\ exists m t, ev = [EDiag st m] /\ render m = Ok t /\ text_refusal f v st t).
Proof.
  intros HB. destruct f as [| | |p hint| | | | |]; cbn [run_validator]; try done. unfold regex_validator.
  destruct regex_enabled eqn:Ee; cbn [negb].
  2:{ intros [= <- <-]. right. split; [done|]. eexists _, _. split; [done|]. split; [reflexivity|]. by apply tr_off. }
  destruct p as [p|].
  2:{ intros [= <- <-]. right. split; [done|]. eexists _, _. split; [done|]. split; [reflexivity|]. by apply tr_null. }
  destruct v as [s|].
  2:{ intros [= <- <-]. right. split; [done|]. destruct (regex_match p []) eqn:Em; eexists _, _; (split; [done|]);
        (split; cycle 1; [first [by apply tr_no_pattern|apply tr_no_value; [done|by rewrite Em]]|rd]). }
  destruct (regex_match p s) eqn:Em; intros [= <- <-].
  - left. split; [done|]. split; [done|]. split; [done|]. by exists p, s.
  - right. split; [done|]. destruct hint as [[|ch hint]|]; eexists _, _; (split; [done|]).
    + split; cycle 1; [eapply tr_plain; [done|done|by right]|]. rd.
    + split; cycle 1; [by apply tr_hint|]. rd.
    + split; cycle 1; [eapply tr_plain; [done|done|by left]|]. rd.
  - right. split; [done|]. eexists _, _. split; [done|]. split; cycle 1; [first [by apply tr_pattern|by apply tr_error]|]. rd.
  - right. split; [done|]. eexists _, _. split; [done|]. split; cycle 1; [first [by apply tr_pattern|by apply tr_error]|]. rd.
Qed.
Lemma refused_texts l v h : (forall e, e ∈ l -> match v_fun e with VCustomPre _ | VCustomPost _ => False | _ => True end) ->
  forall st ev, run_validators ORDER_PRE l (ArgText v) h = Ok (st, ev) ->
  (st = 0 /\ ev = [] /\ forall e, e ∈ l -> v_order e = ORDER_PRE -> accepts_text (v_fun e) v) \/
  (st <> 0 /\ exists m t l1 e l2, ev = [EDiag st m] /\ render m = Ok t /\ l = l1 ++ e :: l2 /\ v_order e = ORDER_PRE /\
    text_refusal (v_fun e) v st t /\ forall e', e' ∈ l1 -> v_order e' = ORDER_PRE -> accepts_text (v_fun e') v).
Proof.
  induction l as [|e l IH]; intros HB st ev; cbn [run_validators].
  { intros [= <- <-]. left. split; [done|]. split; [done|]. intros e []%elem_of_nil. }
  assert (HB' : forall e, e ∈ l -> match v_fun e with VCustomPre _ | VCustomPost _ => False | _ => True end) by (intros; apply HB; by right).
  specialize (IH HB').
  assert (Go : forall st ev, run_validators ORDER_PRE l (ArgText v) h = Ok (st, ev) ->
    (v_order e = ORDER_PRE -> accepts_text (v_fun e) v) ->
    (st = 0 /\ ev = [] /\ forall e', e' ∈ e :: l -> v_order e' = ORDER_PRE -> accepts_text (v_fun e') v) \/
    (st <> 0 /\ exists m t l1 e' l2, ev = [EDiag st m] /\ render m = Ok t /\ e :: l = l1 ++ e' :: l2 /\ v_order e' = ORDER_PRE /\
      text_refusal (v_fun e') v st t /\ forall e', e' ∈ l1 -> v_order e' = ORDER_PRE -> accepts_text (v_fun e') v)).
  { intros st1 ev1 E He. apply IH in E as [(-> & -> & Ha)|(N & m & t & l1 & e' & l2 & -> & R & -> & O & F & Ha)]; [left|right].
    - split; [done|]. split; [done|]. intros e' He'. apply elem_of_cons in He' as [->|He']; auto.
    - split; [done|]. exists m, t, (e :: l1), e', l2. split_and!; try done.
      intros x Hx. apply elem_of_cons in Hx as [->|Hx]; auto. }
  destruct (is_order ORDER_PRE e) eqn:Eo.
  - assert (Ho : v_order e = ORDER_PRE) by (unfold is_order in Eo; by destruct (v_order e)).
    intros E. apply rbind_Ok in E as ([st2 ev2] & E2 & E). cbv beta iota in E.
    apply refused_text in E2 as [(-> & -> & Ha)|(N & m & t & -> & Rm & Rf)]; [..|apply HB; by left].
    + cbn in E. apply rbind_Ok in E as ([st3 ev3] & E3 & E). injection E as <- <-. by apply Go.
    + change SUCCESS with 0 in E. destruct (Z.eqb_spec st2 0); [done|]. injection E as <- <-. right. split; [done|].
      exists m, t, [], e, l. split_and!; try done. intros x []%elem_of_nil.
  - intros E. apply Go; [done|]. intros Ho. unfold is_order in Eo. by rewrite Ho in Eo.
Qed.

(** ** Words *)
Lemma isdigit_char c : isdigit c = true <-> c ∈ digit_chars.
Proof.
  split.
  - intros E. destruct c as [[] [] [] [] [] [] [] []]; try discriminate E; vm_compute; repeat constructor.
  - intros (d & Hd)%elem_of_list_lookup. by eapply digit_char.
Qed.
(** Before a text of which [prev] is the character before. *)
Lemma search_spec s : forall prev k,
  (search_range_separator prev s k <> None <->
   has_range (match prev with Some p => p :: s | None => s end)).
Proof.
  induction s as [|c s IH]; intros prev k; cbn [search_range_separator].
  { split; [done|]. intros (l & p & c & n & r & E & _). destruct prev.
    - destruct l as [|? [|]]; discriminate E.
    - destruct l; discriminate E. }
  destruct ((_ || _) && _ && _) eqn:Eb.
  - split; [|done]. intros _. apply andb_true_iff in Eb as [Eb Hn]. apply andb_true_iff in Eb as [Hc Hp].
    destruct prev as [p|]; [|done]. destruct s as [|n s]; [done|].
    exists [], p, c, n, s. split; [done|]. split; [by apply isdigit_char|]. split.
    + apply orb_true_iff in Hc as [?%Ascii.eqb_eq|?%Ascii.eqb_eq]; auto.
    + apply orb_true_iff in Hn as [?%isdigit_char|?%Ascii.eqb_eq]; auto.
  - rewrite IH. split.
    + intros (l & p & c' & n & r & E & R). destruct prev as [q|]; [|by exists l, p, c', n, r].
      exists (q :: l), p, c', n, r. cbn [app]. by rewrite <- E.
    + intros (l & p & c' & n & r & E & Hp & Hc & Hn). destruct prev as [q|]; [|by exists l, p, c', n, r].
      destruct l as [|q' l]; [injection E as -> -> ->|injection E as _ E; by exists l, p, c', n, r]. exfalso.
      rewrite (proj2 (isdigit_char p) Hp), andb_true_r in Eb.
      assert ((Ascii.eqb c' "-" || Ascii.eqb c' ":")%char = true) as Ec by (by destruct Hc as [->| ->]).
      rewrite Ec in Eb. cbn [andb] in Eb.
      destruct Hn as [Hn| ->]; [by rewrite (proj2 (isdigit_char n) Hn) in Eb|]. by rewrite orb_true_r in Eb.
Qed.
Lemma int_word_spec w : parse_int_range w <> None <-> int_word w.
Proof.
  pose proof (search_spec w None O) as HS. cbv iota in HS. unfold parse_int_range, int_word.
  destruct (search_range_separator None w 0) as [i|].
  - split; [|done]. intros _. left. by apply HS.
  - destruct (strtoll w) as [x [|c r]]; cbn [snd]; split; auto; [done|]. intros [X|X]; [by apply HS in X|done].
Qed.

(** ** One word *)
(** What a word adds to the log. *)
Definition said_word (good : cstr -> Prop) (refused : cstr -> Z -> cstr -> Prop) (w : cstr) (st : Z) (l l' : list event) : Prop :=
  (st = 0 /\ l' = l /\ good w) \/
  (st <> 0 /\ exists m t, l' = l ++ [EDiag st m] /\ render m = Ok t /\ refused w st t).
Lemma said_words good refused ws st l l' : logged (said_word good refused) ws st l l' ->
  (st = 0 /\ l' = l /\ Forall good ws) \/
  (st <> 0 /\ exists ws1 w ws2 m t, ws = ws1 ++ w :: ws2 /\ Forall good ws1 /\ l' = l ++ [EDiag st m] /\ render m = Ok t /\ refused w st t).
Proof.
  induction 1 as [l|w ws st l l' [(-> & _)|(_ & m & t & -> & R & F)] N|w ws st l l1 l2 [(_ & -> & G)|(N & _)] HL IH]; try done.
  - left. done.
  - right. split; [done|]. by exists [], w, ws, m, t.
  - destruct IH as [(-> & -> & GG)|(N & ws1 & w' & ws2 & m & t & -> & G1 & -> & R & F)].
    + left. split; [done|]. split; [done|]. by constructor.
    + right. split; [done|]. exists (w :: ws1), w', ws2, m, t. split; [done|]. split; [by constructor|done].
Qed.
Lemma elements_total v : exists ws, elements v ws.
Proof.
  unfold elements. case_bool_decide; [|by eexists]. destruct (cut_total [","%char] v) as [ws Hc]. exists ws.
  eapply cut_ext; [|exact Hc]. intros ch. unfold sepr. rewrite elem_of_list_singleton. naive_solver.
Qed.
Lemma elements_fun v ws ws' : elements v ws -> elements v ws' -> ws = ws'.
Proof. unfold elements. destruct (bool_decide _); [|congruence]. intros A B. eapply cut_fun; [exact A|exact B]. Qed.

Section lists.
Context {A E : Type} (blk : list A -> block) (ow : A -> list nat) (hd : heap -> A -> E -> Prop).
Hypothesis hd_ext : forall h h' x e, (forall l, l ∈ ow x -> bl h' !! l = bl h !! l) -> hd h x e -> hd h' x e.
Hypothesis hd_live : forall h x e l, hd h x e -> l ∈ ow x -> exists s, bl h !! l = Some (Some (BStr s)).
Lemma list_said D one flags post okw good refused v ws c fp s st s' :
  handles blk ow hd D one post okw ->
  (forall w s c fp st s', at_state blk ow hd D c fp s -> one w s = Ok (st, s') ->
    said_word good refused w st (h_log s) (h_log s')) ->
  calm flags ->
  at_state blk ow hd D c fp s -> elements v ws -> Forall okw ws -> list_handler one flags v s = Ok (st, s') ->
  (st = 0 /\ h_log s' = h_log s /\ Forall good ws) \/
  (st <> 0 /\ exists ws1 w ws2 m t, ws = ws1 ++ w :: ws2 /\ Forall good ws1 /\ h_log s' = h_log s ++ [EDiag st m] /\
    render m = Ok t /\ refused w st t).
Proof.
  intros Hone Hlog Hfl HA Hws HW Er. unfold list_handler in Er.
  pose proof (list_words_spec blk ow hd hd_ext hd_live D one post okw (said_word good refused) Hlog Hone v ws c fp s HA Hws HW) as (st1 & s1 & E1 & c1 & fp1 & lk & _ & _ & HL).
  unfold hbind at 1 in Er. rewrite E1 in Er. apply said_words in HL. change SUCCESS with 0 in Er.
  destruct HL as [(-> & L1 & G)|(N & HR)].
  - change (0 =? 0) with true in Er. cbv iota in Er. left.
    assert (Hc : calm (flags ;;; mod_opt (fun o => with_allocated o true) ;;; hret 0)) by (apply calm_bind; [done|]; intros; calm).
    pose proof (Hc _ _ _ Er) as L2. split; [|split; [congruence|done]].
    unfold hbind in Er. destruct (flags s1) as [[? ?]|]; [|done]. by injection Er as <- _.
  - destruct (Z.eqb_spec st1 0); [done|]. injection Er as <- <-. by right.
Qed.
End lists.

Lemma calm_said m s st s' (good : cstr -> Prop) refused w : calm m -> m s = Ok (st, s') -> st = 0 -> good w ->
  said_word good refused w st (h_log s) (h_log s').
Proof. intros Hc E -> G. left. split; [done|]. split; [by eapply Hc|done]. Qed.

Lemma int_said w s st s' : set_value_int w s = Ok (st, s') ->
  said_word int_word (fun w c t => ~ int_word w /\ c = 16 /\ t = in_quotes $"Invalid integer or range format: " w) w st (h_log s) (h_log s').
Proof.
  unfold set_value_int. pose proof (int_word_spec w) as HS. destruct (parse_int_range w) as [[x y]|].
  - intros E. eapply calm_said; [|exact E| |by apply HS].
    + calm.
    + unfold hbind in E. destruct (add_range_values _ _ _) as [[? ?]|]; [|done]. by injection E as <- _.
  - intros [= <- <-]. right. split; [done|]. eexists _, _. split; [done|]. split; [reflexivity|].
    split; [|done]. intros X. by apply HS in X.
Qed.
(** Pairs. *)
Definition pair_refused (valid : cstr -> Prop) (n e : cstr) (w : cstr) (c : Z) (t : cstr) : Prop :=
  ("="%char ∉ w /\ c = 16 /\ t = in_quotes $"Invalid key-value format, expected 'key=value': " w) \/
  (exists k x, key_value w k x /\ ~ valid x /\ c = 29 /\ t = in_quotes ($"Invalid " ++ n ++ $" value for key ") k ++ in_quotes $": " x ++ e).
Lemma malloc_ok b s : oom (h_heap s) = [] ->
  exists l h, hmalloc b s = Ok (Some l, Hst (h_opt s) h (h_log s)) /\ oom h = [].
Proof.
  intros Ho. destruct s as [o h lg]. unfold hmalloc, malloc. cbn [h_heap] in *. rewrite Ho. by eexists _, _.
Qed.
Lemma scalar_said valid n e conv w s st s' : (forall x, conv x <> None <-> valid x) -> oom (h_heap s) = [] ->
  set_kv_scalar n e conv w s = Ok (st, s') ->
  said_word (pair_of valid) (pair_refused valid n e) w st (h_log s) (h_log s').
Proof.
  intros Hv Ho. unfold set_kv_scalar. destruct (strchr w equal_sign) as [i|] eqn:Es.
  2:{ intros [= <- <-]. right. split; [done|]. eexists _, _. split; [done|]. split; [reflexivity|]. left.
      split; [by apply LibProofs.strchr_None|]. done. }
  apply strchr_pair in Es as [Ew Hk]. destruct (malloc_ok (BStr (take i w)) s Ho) as (l & h & Em & Ho').
  unfold hbind at 1. rewrite Em. pose proof (Hv (drop (S i) w)) as Hv'.
  destruct (conv (drop (S i) w)) as [x|].
  - intros E. change (h_log s) with (h_log (Hst (h_opt s) h (h_log s))). eapply calm_said; [|exact E| |].
    + calm.
    + unfold hbind in E. destruct (map_find_key _ _) as [[[j|] s2]|]; [| |done].
      * destruct (set_map_value _ _ _) as [[? ?]|]; [|done]. by injection E as <- _.
      * destruct (adjust_map_size _) as [[? ?]|]; [|done]. destruct (push_pair _ _ _) as [[? ?]|]; [|done]. by injection E as <- _.
    + exists (take i w), (drop (S i) w). split; [done|by apply Hv'].
  - intros [= <- <-]. right. split; [done|]. eexists _, _. split; [done|]. split; cycle 1.
    + right. exists (take i w), (drop (S i) w). split; [done|]. split; [intros X; by apply Hv' in X|]. split; [done|reflexivity].
    + generalize (take i w), (drop (S i) w). intros. cbn [Messages.render render_piece rbind]. f_equal.
      unfold in_quotes. simpl. rewrite <- ?app_assoc. simpl. by rewrite <- ?app_assoc, ?app_nil_r.
Qed.
Lemma pair_string_said n e D c fp w s st s' : at_state BMap own_pair (kpair EText) D c fp s ->
  set_kv_string w s = Ok (st, s') ->
  said_word (pair_of (fun _ => True)) (pair_refused (fun _ => True) n e) w st (h_log s) (h_log s').
Proof.
  intros HA Er. pose proof (text_handles D s c fp w HA I) as (st1 & s1 & E1 & c1 & fp1 & lk & _ & P).
  rewrite Er in E1. injection E1 as <- <-. revert Er. unfold set_kv_string.
  destruct (strchr w equal_sign) as [i|] eqn:Es.
  2:{ intros [= <- <-]. right. split; [done|]. eexists _, _. split; [done|]. split; [reflexivity|]. left.
      split; [by apply LibProofs.strchr_None|]. done. }
  intros Er. destruct P as [(k & v & x & -> & Hk & _ & -> & _)|(N & _ & [Hn|(k & v & _ & _ & ?)])]; [|exfalso|done].
  2:{ apply LibProofs.strchr_None in Hn. unfold equal_sign in Es. congruence. }
  pose proof HA as (_ & Ho & _).
  destruct (malloc_ok (BStr (take i (k ++ "="%char :: v))) s Ho) as (l & h & Em & Ho').
  unfold hbind at 1 in Er. rewrite Em in Er.
  destruct (malloc_ok (BStr (drop (S i) (k ++ "="%char :: v))) (Hst (h_opt s) h (h_log s)) Ho') as (l2 & h2 & Em2 & _).
  unfold hbind at 1 in Er. rewrite Em2 in Er. cbn [h_opt h_log] in Er.
  change (h_log s) with (h_log (Hst (h_opt s) h2 (h_log s))). eapply calm_said; [|exact Er|done|by exists k, v].
  calm.
Qed.

(** ** The handlers *)
Definition outcome_said (d : decl) (v : option cstr) (st : Z) (l : list event) : Prop :=
  (st = 0 /\ value_taken d v) \/ (st <> 0 /\ exists m t, l = [EDiag st m] /\ render m = Ok t /\ value_said d v st t).

Lemma variadic_said (m : HM Z) (e : opt -> event) v s st s' (good : cstr -> Prop) :
  (forall st1 s1, m s = Ok (st1, s1) -> h_log s1 = h_log s /\ decl_of (h_opt s1) = decl_of (h_opt s) /\ ((st1 = 0 /\ good v) \/ (st1 = 29 /\ ~ good v))) ->
  (let! st := m in
   if st =? SUCCESS then apply_array_flags ;;; mod_opt (fun o => with_allocated o true) ;;; hret SUCCESS
   else let! o := get_opt in emit (e o) ;;; hret st) s = Ok (st, s') ->
  (st = 0 /\ good v) \/ (st = 29 /\ ~ good v /\ exists o, decl_of o = decl_of (h_opt s) /\ h_log s' = h_log s ++ [e o]).
Proof.
  intros Hm E. unfold hbind at 1 in E. destruct (m s) as [[st1 s1]|] eqn:Em; [|done].
  destruct (Hm _ _ eq_refl) as (L1 & D1 & [[-> G]|[-> G]]).
  - left. split; [|done]. change (0 =? SUCCESS) with true in E. cbv iota in E. unfold hbind in E.
    destruct (apply_array_flags s1) as [[? ?]|]; [|done]. by injection E as <- _.
  - right. injection E as <- <-. split; [done|]. split; [done|]. exists (h_opt s1). split; [done|]. cbn. by rewrite L1.
Qed.
Lemma number_said D (k : HM Z) c fp s v (good : cstr -> Prop) : arr_at D c fp s ->
  (k = hret E_INVALID_VALUE /\ ~ good v) \/ (exists x, k = (push_value x ;;; hret SUCCESS) /\ good v) ->
  forall st1 s1, (adjust_array_size ;;; let! o := get_opt in if (value_capacity o =? 0)%nat then hret E_MEMORY else k) s = Ok (st1, s1) ->
  h_log s1 = h_log s /\ decl_of (h_opt s1) = decl_of (h_opt s) /\ ((st1 = 0 /\ good v) \/ (st1 = 29 /\ ~ good v)).
Proof.
  intros HA Hk st1 s1 E. pose proof (adjust_goes D c fp s HA) as (u & s2 & E2 & fp2 & ((_ & _ & Hd) & _) & Hroom & _).
  pose proof HA as (_ & _ & Hd0).
  assert (L2 : h_log s2 = h_log s) by (by eapply calm_adjust_arr).
  unfold hbind at 1 in E. rewrite E2 in E. unfold hbind at 1, get_opt in E.
  destruct (Nat.eqb_spec (value_capacity (h_opt s2)) 0) as [|_]; [lia|].
  destruct Hk as [[-> Hn]|(x & -> & Hg)].
  - injection E as <- <-. split; [done|]. split; [congruence|]. by right.
  - assert (Hc : calm (push_value x ;;; hret SUCCESS)) by calm. assert (Hkp : keeps (push_value x)) by apply keeps_push.
    pose proof (Hc _ _ _ E) as L. unfold hbind in E. destruct (push_value x s2) as [[? s3]|] eqn:Ep; [|done]. injection E as <- <-.
    apply Hkp in Ep. split; [congruence|]. split; [congruence|]. by left.
Qed.
Lemma handler_said act f v clean h o vs fp lk st s' : fits (decl_of o) -> d_handler (decl_of o) = Some f ->
  (forall g, f <> HCustom g) -> is_Some (d_name (decl_of o)) ->
  entry_inv clean h o vs fp lk -> oom h = [] -> (v = None -> d_vtype (decl_of o) = VT_FLAG) ->
  (forall s, v = Some s -> harmless_text (decl_of o) s) -> passes (decl_of o) v ->
  run_handler act f v (Hst o h []) = Ok (st, s') -> outcome_said (decl_of o) v st (h_log s').
Proof.
  intros HFit Hf Hlib [n Hn] HI Ho Hnone Hharm Hpass Er.
  assert (Taken : forall P : Prop, P -> (P -> match d_handler (decl_of o), v with
    | Some HBool, Some s => boolean s | Some HBool, None => False | Some HVariadicInt, Some s => whole_int s
    | Some HVariadicFloat, Some s => whole_float s | Some HArrayInt, Some s => forall ws, elements s ws -> Forall int_word ws
    | Some f, Some s => forall valid n e ws, values_of f valid n e -> elements s ws -> Forall (pair_of valid) ws | _, _ => True end) ->
    value_taken (decl_of o) v).
  { intros P HP HX. split; [done|]. exact (HX HP). }
  assert (Listed_at : forall k, shape_of (decl_of o) = Listed k -> exists c, arr_at (decl_of o) c fp (Hst o h [])).
  { intros k Es. unfold entry_inv in HI. rewrite Es in HI. destruct HI as (c & HC & _). by exists c. }
  assert (Mapped_at : forall k, shape_of (decl_of o) = Mapped k -> exists c, at_state BMap own_pair (kpair k) (decl_of o) c fp (Hst o h [])).
  { intros k Es. unfold entry_inv in HI. rewrite Es in HI. destruct HI as (c & HC & [HG _] & _). exists c. apply kmap_at_iff. by split. }
  assert (Sh : shape_of (decl_of o) = match array_handler f, map_handler f with
      | Some (_, k), _ => Listed k | None, Some k => Mapped k | None, None => Plain end) by (unfold shape_of; by rewrite Hf).
  assert (Some_v : shape_of (decl_of o) <> Plain -> exists s, v = Some s).
  { intros Np. destruct v as [s|]; [by exists s|]. exfalso. pose proof (ft_shape _ HFit) as FS. rewrite (Hnone eq_refl) in FS.
    destruct (shape_of (decl_of o)); [done|..]; by destruct FS. }
  assert (Pairs : forall valid nm e one k, values_of f valid nm e -> map_handler f = Some k ->
    run_handler act f v = need v (list_handler one apply_map_flags) ->
    handles BMap own_pair (kpair k) (decl_of o) one (map_post (map_value f)) (fun _ => True) ->
    (forall w s c fp st s', at_state BMap own_pair (kpair k) (decl_of o) c fp s -> one w s = Ok (st, s') ->
      said_word (pair_of valid) (pair_refused valid nm e) w st (h_log s) (h_log s')) ->
    outcome_said (decl_of o) v st (h_log s')).
  { intros valid nm e one k Hv Hk Hrun Hone Hlog.
    assert (Ha : array_handler f = None) by (by destruct Hv). rewrite Ha, Hk in Sh. destruct Some_v as [s ->]; [by rewrite Sh|].
    destruct (Mapped_at _ Sh) as [c HA]. destruct (elements_total s) as [ws Hws].
    rewrite Hrun in Er. cbn [need] in Er.
    destruct (list_said BMap own_pair (kpair k) (kpair_ext k) (kpair_live k) _ _ _ _ _ _ _ s ws c fp _ st s' Hone Hlog calm_map_flags HA Hws ltac:(by apply Forall_true) Er)
      as [(-> & _ & HG)|(N & ws1 & w & ws2 & m & t & -> & G1 & L & R & HR)].
    - left. split; [done|]. apply (Taken True I). intros _. rewrite Hf.
      assert (X : forall valid' n' e' ws', values_of f valid' n' e' -> elements s ws' -> Forall (pair_of valid') ws').
      { intros valid' n' e' ws' Hv' Hw'. rewrite (elements_fun _ _ _ Hw' Hws). destruct Hv; inversion Hv'; subst; done. }
      destruct Hv; exact X.
    - right. split; [done|]. exists m, t. split; [done|]. split; [done|].
      destruct HR as [(Hno & -> & ->)|(ky & x & Hkv & Hnv & -> & ->)]; [by eapply vs_no_pair|by eapply vs_pair]. }
  destruct f; cbn [run_handler] in Er; try (by edestruct Hlib).
  - injection Er as <- _. left. split; [done|]. apply (Taken True I). rewrite Hf. intros _. destruct v; [|done]. intros ? ? ? ? X. inversion X.
  - unfold bool_handler in Er. destruct v as [s|].
    + destruct (string_to_bool s) as [b|] eqn:Eb; injection Er as <- <-.
      * left. split; [done|]. apply (Taken True I). rewrite Hf. intros _. exists b. by apply string_to_bool_word.
      * right. split; [done|]. eexists _, _. split; [reflexivity|]. split; cycle 1.
        -- apply vs_bool; [done|done|]. intros [b Hb]. apply string_to_bool_word in Hb. congruence.
        -- rd.
    + injection Er as <- <-. right. split; [done|]. eexists _, _. split; [reflexivity|]. split; cycle 1.
      * by apply vs_no_bool.
      * cbn [h_opt]. rewrite Hn. rd.
  - injection Er as <- _. left. split; [done|]. apply (Taken True I). rewrite Hf. intros _. destruct v; [|done]. intros ? ? ? ? X. inversion X.
  - destruct v; [|done]. injection Er as <- _. left. split; [done|]. apply (Taken True I). rewrite Hf. intros _ ? ? ? ? X. inversion X.
  - destruct v; [|done]. injection Er as <- _. left. split; [done|]. apply (Taken True I). rewrite Hf. intros _ ? ? ? ? X. inversion X.
  - (* array of strings *)
    cbn in Sh. destruct Some_v as [s ->]; [by rewrite Sh|]. destruct (Listed_at _ Sh) as [c HA]. cbn [need] in Er.
    destruct (elements_total s) as [ws Hws].
    assert (Hl : forall w s c fp st s', arr_at (decl_of o) c fp s -> set_value_string w s = Ok (st, s') ->
      said_word (fun _ => True) (fun _ _ _ => False) w st (h_log s) (h_log s')).
    { intros w s0 c0 fp0 st0 s0' HA0 E0. destruct (string_handles (decl_of o) s0 c0 fp0 w HA0 I) as (st1 & s1 & E1 & c1 & fp1 & lk1 & _ & P1).
      rewrite E0 in E1. injection E1 as <- <-. destruct P1 as (_ & [(-> & _)|(_ & ? & _)]); [|done].
      eapply calm_said; [|exact E0|done|done]. calm. }
    destruct (list_said BArr own holds holds_ext holds_live _ _ _ _ _ _ _ s ws c fp _ st s' (string_handles (decl_of o)) Hl calm_array_flags HA Hws ltac:(by apply Forall_true) Er)
      as [(-> & _)|(N & ws1 & w & ws2 & m & t & _ & _ & _ & _ & [])].
    left. split; [done|]. apply (Taken True I). rewrite Hf. intros _ ? ? ? ? X. inversion X.
  - (* array of integers *)
    cbn in Sh. destruct Some_v as [s ->]; [by rewrite Sh|]. destruct (Listed_at _ Sh) as [c HA]. cbn [need] in Er.
    destruct (elements_total s) as [ws Hws].
    destruct (Hharm s eq_refl _ Hf) as [Hh _]. specialize (Hh ltac:(done)). destruct (Hh ws) as [_ HW]; [exact Hws|].
    assert (HW' : Forall int_ok ws) by (eapply Forall_impl; [exact HW|]; intros w [Hw _]; exact (Hw eq_refl)).
    destruct (list_said BArr own holds holds_ext holds_live _ _ _ _ _ _ _ s ws c fp _ st s' (int_handles (decl_of o)) (fun w s c fp st s' _ E => int_said w s st s' E)
      calm_array_flags HA Hws HW' Er) as [(-> & _ & HG)|(N & ws1 & w & ws2 & m & t & -> & G1 & L & R & Hni & -> & ->)].
    + left. split; [done|]. apply (Taken True I). rewrite Hf. intros _ ws' Hws'. by rewrite (elements_fun _ _ _ Hws' Hws).
    + right. split; [done|]. exists m. eexists. split; [exact L|]. split; [exact R|]. by eapply vs_ints.
  - (* array of floats *)
    cbn in Sh. destruct Some_v as [s ->]; [by rewrite Sh|]. destruct (Listed_at _ Sh) as [c HA]. cbn [need] in Er.
    destruct (elements_total s) as [ws Hws].
    assert (Hl : forall w s c fp st s', arr_at (decl_of o) c fp s -> set_value_float w s = Ok (st, s') ->
      said_word (fun _ => True) (fun _ _ _ => False) w st (h_log s) (h_log s')).
    { intros w s0 c0 fp0 st0 s0' HA0 E0. destruct (float_handles (decl_of o) s0 c0 fp0 w HA0 I) as (st1 & s1 & E1 & c1 & fp1 & lk1 & _ & P1).
      rewrite E0 in E1. injection E1 as <- <-. destruct P1 as (_ & [(-> & _)|(_ & ? & _)]); [|done].
      eapply calm_said; [|exact E0|done|done]. calm. }
    destruct (list_said BArr own holds holds_ext holds_live _ _ _ _ _ _ _ s ws c fp _ st s' (float_handles (decl_of o)) Hl calm_array_flags HA Hws ltac:(by apply Forall_true) Er)
      as [(-> & _)|(N & ws1 & w & ws2 & m & t & _ & _ & _ & _ & [])].
    left. split; [done|]. apply (Taken True I). rewrite Hf. intros _ ? ? ? ? X. inversion X.
  - eapply (Pairs _ [] [] _ _ (vo_string [] [])); [done|done|apply text_handles|]. intros. by eapply pair_string_said.
  - eapply (Pairs _ _ _ _ _ vo_int); [done|done|apply map_int_handles|].
    intros w s c fp0 st0 s0 (_ & Ho' & _) E0. eapply scalar_said; [|done|exact E0].
    intros x. unfold conv_int, whole_int. destruct (strtoll x) as [y r]. cbn [snd]. destruct x, r; cbn; split; naive_solver.
  - eapply (Pairs _ _ _ _ _ vo_float); [done|done|apply map_float_handles|].
    intros w s c fp0 st0 s0 (_ & Ho' & _) E0. eapply scalar_said; [|done|exact E0].
    intros x. unfold conv_float, map_float. destruct (strtod x) as [y k]. cbn [snd].
    destruct (Nat.eqb_spec (length x) 0) as [Hx|Hx].
    { destruct x; [|done]. cbn. split; naive_solver. }
    destruct (Nat.ltb_spec k (length x)); cbn; split; try done; [lia|]. intros _. split; [by intros ->|lia].
  - eapply (Pairs _ _ _ _ _ vo_bool); [done|done|apply map_bool_handles|].
    intros w s c fp0 st0 s0 (_ & Ho' & _) E0. eapply scalar_said; [|done|exact E0].
    intros x. unfold conv_bool, boolean. destruct (string_to_bool x) as [b|] eqn:Eb; split; try done.
    + intros _. exists b. by apply string_to_bool_word.
    + intros [b Hb]. apply string_to_bool_word in Hb. congruence.
  - (* variadic strings *)
    cbn in Sh. destruct Some_v as [s ->]; [by rewrite Sh|]. destruct (Listed_at _ Sh) as [c HA]. cbn [need] in Er.
    unfold variadic_string_handler in Er. destruct (string_handles (decl_of o) _ c fp s HA I) as (st1 & s1 & E1 & c1 & fp1 & lk1 & _ & P1).
    unfold hbind at 1 in Er. rewrite E1 in Er. destruct P1 as (_ & [(-> & _)|(_ & ? & _)]); [|done].
    left. split.
    + change (0 =? SUCCESS) with true in Er. cbv iota in Er. unfold hbind in Er. destruct (apply_array_flags s1) as [[? ?]|]; [|done]. by injection Er as <- _.
    + apply (Taken True I). rewrite Hf. intros _ ? ? ? ? X. inversion X.
  - (* variadic integers *)
    cbn in Sh. destruct Some_v as [s ->]; [by rewrite Sh|]. destruct (Listed_at _ Sh) as [c HA]. cbn [need] in Er.
    unfold variadic_int_handler in Er.
    apply (variadic_said (set_int_value s) _ s _ _ _ whole_int) in Er as [(-> & G)|(-> & G & o' & Ho' & L)].
    + left. split; [done|]. apply (Taken True I). by rewrite Hf.
    + right. split; [done|]. eexists _, _. split; [exact L|]. split; cycle 1; [by eapply vs_variadic_int|].
      rewrite Ho'. cbn [h_opt]. rewrite Hn. rd.
    + unfold set_int_value. eapply number_said; [exact HA|]. unfold whole_int. destruct (strtoll s) as [x [|ch r]]; cbn [snd].
      * destruct s as [|ch s]; [left|right]; cbn [length Nat.eqb].
        -- split; [done|]. by intros [? _].
        -- by eexists.
      * left. split; [done|]. by intros [_ ?].
  - (* variadic floats *)
    cbn in Sh. destruct Some_v as [s ->]; [by rewrite Sh|]. destruct (Listed_at _ Sh) as [c HA]. cbn [need] in Er.
    unfold variadic_float_handler in Er.
    apply (variadic_said (set_float_value s) _ s _ _ _ whole_float) in Er as [(-> & G)|(-> & G & o' & Ho' & L)].
    + left. split; [done|]. apply (Taken True I). by rewrite Hf.
    + right. split; [done|]. eexists _, _. split; [exact L|]. split; cycle 1; [by eapply vs_variadic_float|].
      rewrite Ho'. cbn [h_opt]. rewrite Hn. rd.
    + unfold set_float_value. eapply number_said; [exact HA|]. unfold whole_float. destruct (strtod s) as [x k]; cbn [snd].
      destruct (Nat.ltb_spec k (length s)), (Nat.eqb_spec k 0); cbn [orb].
      1-3: left; split; [done|]; lia.
      right. eexists. split; [done|]. lia.
  - injection Er as <- _. left. split; [done|]. apply (Taken True I). rewrite Hf. intros _. destruct v; [|done]. intros ? ? ? ? X. inversion X.
  - injection Er as <- _. left. split; [done|]. apply (Taken True I). rewrite Hf. intros _. destruct v; [|done]. intros ? ? ? ? X. inversion X.
Qed.

(** ** The refusal of a value is determined *)
Lemma first_same {A} (P : A -> Prop) l1 x l2 m1 y m2 : l1 ++ x :: l2 = m1 ++ y :: m2 ->
  (forall z, z ∈ l1 -> P z) -> (forall z, z ∈ m1 -> P z) -> ~ P x -> ~ P y -> l1 = m1 /\ x = y.
Proof.
  revert m1. induction l1 as [|z l1 IH]; intros [|z' m1] E H1 H2 Nx Ny; cbn in E.
  - by injection E.
  - injection E as -> _. destruct Nx. apply H2. left.
  - injection E as <- _. destruct Ny. apply H1. left.
  - injection E as -> E. destruct (IH m1 E) as [-> ->]; try done; intros; [apply H1|apply H2]; by right.
Qed.
Lemma refusal_not f v c t : text_refusal f v c t -> ~ accepts_text f v.
Proof.
  destruct 1; intros [? (q & s' & Eq & Es & Em)]; simplify_eq; congruence.
Qed.
Lemma refusal_fun f v c t c' t' : text_refusal f v c t -> text_refusal f v c' t' -> c = c' /\ t = t'.
Proof.
  destruct 1; inversion 1; subst; try congruence; try done.
  all: try (match goal with X : Some _ = None \/ _ |- _ => destruct X; congruence end).
  all: try (match goal with X : None = None \/ _ |- _ => done end).
Qed.
Lemma values_fun f V n e V' n' e' : values_of f V n e -> values_of f V' n' e' ->
  V = V' /\ (f <> HMapString -> n = n' /\ e = e').
Proof. destruct 1; inversion 1; subst; split; done. Qed.
Lemma key_value_fun w k t k' t' : key_value w k t -> key_value w k' t' -> k = k' /\ t = t'.
Proof. intros A B. by apply (MapWhole.kv_fun w). Qed.
Lemma bad_pair valid w : "="%char ∉ w \/ (exists k t, key_value w k t /\ ~ valid t) -> ~ pair_of valid w.
Proof.
  intros [Hn|(k & t & Hk & Hv)] (k' & t' & Hk' & Hv').
  - destruct Hk' as [-> _]. apply Hn. apply elem_of_app. right. left.
  - destruct (key_value_fun _ _ _ _ _ Hk Hk') as [-> ->]. done.
Qed.
Lemma said_not_taken d v c t : value_said d v c t -> ~ value_taken d v.
Proof.
  intros Hs [Hp Ht]. destruct Hs as [v l1 e l2 c t El Eo Hr Ha|s _ Hh Hn|n _ Hh Hn|s n _ Hh Hn _|s n _ Hh Hn _
    |s ws1 w ws2 _ Hh He Hg Hn|f valid n e s ws1 w ws2 _ Hh Hv He Hg Hn|f valid n e s ws1 w ws2 k t _ Hh Hv He Hg Hk Hn].
  1:{ apply (refusal_not _ _ _ _ Hr). apply Hp; [|done]. rewrite El. apply elem_of_app. right. left. }
  all: rewrite Hh in Ht; try done.
  - specialize (Ht _ He). apply Forall_app in Ht as [_ Ht]. by apply Forall_cons in Ht as [? _].
  - assert (X : Forall (pair_of valid) (ws1 ++ w :: ws2)) by (pose proof Hv as Hv0; destruct Hv; (eapply Ht; [exact Hv0|exact He])).
    apply Forall_app in X as [_ X]. apply Forall_cons in X as [X _]. revert X. apply bad_pair. by left.
  - assert (X : Forall (pair_of valid) (ws1 ++ w :: ws2)) by (pose proof Hv as Hv0; destruct Hv; (eapply Ht; [exact Hv0|exact He])).
    apply Forall_app in X as [_ X]. apply Forall_cons in X as [X _]. revert X. apply bad_pair. right. by exists k, t.
Qed.
Lemma said_fun d v c t c' t' : value_said d v c t -> value_said d v c' t' -> c = c' /\ t = t'.
Proof.
  assert (Hval : forall l1 e l2 c t, validators d = l1 ++ e :: l2 -> v_order e = ORDER_PRE -> text_refusal (v_fun e) v c t -> ~ passes d v).
  { intros l1 e l2 c0 t0 El Eo Hr Hp. apply (refusal_not _ _ _ _ Hr). apply Hp; [|done]. rewrite El. apply elem_of_app. right. left. }
  intros Hs Hs'.
  destruct Hs as [v l1 e l2 c t El Eo Hr Ha|s Hp Hh Hn|n Hp Hh Hn|s n Hp Hh Hn Hnm|s n Hp Hh Hn Hnm
    |s ws1 w ws2 Hp Hh He Hg Hn|f valid n e s ws1 w ws2 Hp Hh Hv He Hg Hn|f valid n e s ws1 w ws2 k t Hp Hh Hv He Hg Hk Hn].
  1:{ destruct Hs' as [v l1' e' l2' c' t' El' Eo' Hr' Ha'|s Hp' Hh' Hn'|n Hp' Hh' Hn'|s n Hp' Hh' Hn' Hnm'|s n Hp' Hh' Hn' Hnm'
    |s ws1' w' ws2' Hp' Hh' He' Hg' Hn'|f' valid' n' e' s ws1' w' ws2' Hp' Hh' Hv' He' Hg' Hn'|f' valid' n' e' s ws1' w' ws2' k' t' Hp' Hh' Hv' He' Hg' Hk' Hn'].
    2-8: by edestruct Hval.
    rewrite El in El'. destruct (first_same (fun e => v_order e = ORDER_PRE -> accepts_text (v_fun e) v) _ _ _ _ _ _ El') as [_ <-]; try done.
    - intros X. by apply (refusal_not _ _ _ _ Hr), X.
    - intros X. by apply (refusal_not _ _ _ _ Hr'), X.
    - by eapply refusal_fun. }
  all: inversion Hs' as [v' l1' e' l2' c0' t0' El' Eo' Hr' Ha'|s' Hp' Hh' Hn'|n' Hp' Hh' Hn'|s' n' Hp' Hh' Hn' Hnm'|s' n' Hp' Hh' Hn' Hnm'
    |s' ws1' w' ws2' Hp' Hh' He' Hg' Hn'|f' valid' n' e' s' ws1' w' ws2' Hp' Hh' Hv' He' Hg' Hn'|f' valid' n' e' s' ws1' w' ws2' k' x' Hp' Hh' Hv' He' Hg' Hk' Hn'];
    subst; try (by edestruct Hval); try congruence; rewrite Hh in Hh'; try discriminate Hh';
    try (split; [done|congruence]);
    try (injection Hh' as Hh'; subst; first [by inversion Hv'|by inversion Hv]).
  - pose proof (elements_fun _ _ _ He He') as Ee. rewrite Forall_forall in Hg, Hg'.
    by destruct (first_same int_word _ _ _ _ _ _ Ee) as [_ <-].
  - injection Hh' as <-. destruct (values_fun _ _ _ _ _ _ _ Hv Hv') as [<- _].
    pose proof (elements_fun _ _ _ He He') as Ee. rewrite Forall_forall in Hg, Hg'.
    destruct (first_same (pair_of valid) _ _ _ _ _ _ Ee) as [_ <-]; try done; apply bad_pair; auto.
  - injection Hh' as <-. destruct (values_fun _ _ _ _ _ _ _ Hv Hv') as [<- _]. exfalso.
    pose proof (elements_fun _ _ _ He He') as Ee. rewrite Forall_forall in Hg, Hg'.
    destruct (first_same (pair_of valid) _ _ _ _ _ _ Ee) as [_ <-]; try done; [apply bad_pair; auto|apply bad_pair; eauto|].
    destruct Hk' as [-> _]. apply Hn. apply elem_of_app. right. left.
  - injection Hh' as <-. destruct (values_fun _ _ _ _ _ _ _ Hv Hv') as [<- _]. exfalso.
    pose proof (elements_fun _ _ _ He He') as Ee. rewrite Forall_forall in Hg, Hg'.
    destruct (first_same (pair_of valid) _ _ _ _ _ _ Ee) as [_ <-]; try done; [apply bad_pair; eauto|apply bad_pair; auto|].
    destruct Hk as [-> _]. apply Hn'. apply elem_of_app. right. left.
  - injection Hh' as <-. destruct (values_fun _ _ _ _ _ _ _ Hv Hv') as [<- Hne].
    pose proof (elements_fun _ _ _ He He') as Ee. rewrite Forall_forall in Hg, Hg'.
    destruct (first_same (pair_of valid) _ _ _ _ _ _ Ee) as [_ <-]; try done; [apply bad_pair; eauto|apply bad_pair; eauto|].
    destruct (key_value_fun _ _ _ _ _ Hk Hk') as [<- <-]. destruct Hne as [<- <-]; [|done]. intros ->. by inversion Hv; subst.
Qed.

(** ** One call *)
Lemma said_codes d v c t : value_said d v c t -> c = 12 \/ c = 16 \/ c = 29.
Proof.
  destruct 1 as [v l1 e l2 c t _ _ Hr _| | | | | | |]; auto. destruct Hr; auto.
Qed.
(** The outcome of a call: the value is taken, or refused with the text of the specification. *)
Lemma execute_outcome clean a V F K t i o f v st a' : invar clean a V F K -> get_option a t i = Ok o ->
  (v = None -> d_vtype (decl_of o) = VT_FLAG) -> (forall s, v = Some s -> harmless_text (decl_of o) s) ->
  d_handler (decl_of o) = Some f -> library_entry (decl_of o) -> is_Some (d_name (decl_of o)) ->
  execute_callbacks a t i v = Ok (st, a') ->
  ((st = 0 \/ st = 1) /\ value_taken (decl_of o) v) \/
  (st <> 0 /\ exists m tx, a_log a' = a_log a ++ [EDiag st m] /\ render m = Ok tx /\ value_said (decl_of o) v st tx).
Proof.
  intros I Ho Hnone Hharm Hf [Hl1 Hl2] Hn E.
  unfold execute_callbacks in E. rewrite Ho in E. cbn [rbind] in E. rewrite Hf in E.
  apply rbind_Ok in E as ([st1 ev] & Hv & E). cbv beta iota in E.
  assert (Hv' : (st1 = 0 /\ ev = [] /\ passes (decl_of o) v) \/
    (st1 <> 0 /\ exists m t, ev = [EDiag st1 m] /\ render m = Ok t /\ value_said (decl_of o) v st1 t)).
  { unfold passes. unfold validators in *. destruct (d_validators (decl_of o)) as [l|] eqn:El; cbn [default from_option] in *.
    - unfold id in *. apply refused_texts in Hv as [X|(N & m & t0 & l1 & e & l2 & X1 & X2 & X3 & X4 & X5 & X6)]; [by left| |done].
      right. split; [done|]. exists m, t0. split; [done|]. split; [done|]. eapply vs_validator; try done. unfold validators. by rewrite El.
    - injection Hv as <- <-. left. split; [done|]. split; [done|]. intros e []%elem_of_nil. }
  change SUCCESS with 0 in E. destruct Hv' as [(-> & -> & Hp)|(N & m & t0 & -> & R & Hs')].
  2:{ destruct (Z.eqb_spec st1 0); [done|]. injection E as <- <-. right. split; [done|]. by exists m, t0. }
  change (negb (0 =? 0)) with false in E. cbv iota in E.
  apply rbind_Ok in E as (act & _ & E). apply rbind_Ok in E as ([st2 s] & Er & E). cbv beta iota in E. cbn [apply_events fold_left] in *.
  pose proof (iv_entry _ _ _ _ _ I _ _ _ Ho) as HE.
  pose proof (handler_said (default (a_root a) act) f v clean (a_heap a) o (V t i) (F t i) (K t i) st2 s (iv_fits _ _ _ _ _ I _ _ _ Ho) Hf) as HS.
  specialize (HS ltac:(intros g ->; by eapply Hl1) Hn HE (iv_oom _ _ _ _ _ I) Hnone Hharm Hp Er).
  destruct HS as [(-> & Ht)|(N & m & t0 & L & R & Hs')].
  - left. split; [|done]. change (negb (0 =? 0)) with false in E. cbv iota in E. apply rbind_Ok in E as (o2 & _ & E).
    change SHOULD_EXIT with 1 in E. destruct (has _ _); injection E as <- <-; auto.
  - right. destruct (Z.eqb_spec st2 0); [done|]. injection E as <- <-. split; [done|].
    exists m, t0. split; [|done]. rewrite log_events. cbn. by rewrite L.
Qed.
Lemma execute_said clean a V F K t i o f v c tx : qsort_sorts -> invar clean a V F K -> get_option a t i = Ok o ->
  stack_ok a -> (v = None -> d_vtype (decl_of o) = VT_FLAG) -> (forall s, v = Some s -> harmless_text (decl_of o) s) ->
  d_handler (decl_of o) = Some f -> library_entry (decl_of o) -> is_Some (d_name (decl_of o)) -> value_said (decl_of o) v c tx ->
  exists m a', execute_callbacks a t i v = Ok (c, a') /\ a_log a' = a_log a ++ [EDiag c m] /\ render m = Ok tx.
Proof.
  intros HQ I Ho Hst Hnone Hharm Hf Hl Hn Hs.
  destruct (exec_inv clean a V F K t i o v HQ I Ho (stack_active _ Hst) Hnone Hharm) as (st & a' & F' & K' & E & _).
  destruct (execute_outcome _ _ _ _ _ _ _ _ _ _ _ _ I Ho Hnone Hharm Hf Hl Hn E) as [[_ Ht]|(N & m & t0 & L & R & Hs')].
  { by apply said_not_taken in Hs. }
  destruct (said_fun _ _ _ _ _ _ Hs' Hs) as [-> ->]. by exists m, a'.
Qed.
(** A call of the parse: everything known when it is reached. *)
Lemma call_reached a argv its t i v its2 T d a1 : accepted a -> no_strays (decls a) (a_root a) -> ready a -> library_only (decls a) ->
  qsort_sorts -> harmless_input a argv -> a_stack a = [] ->
  (reads (decls a) (a_root a) 0 false argv (its ++ Call t i v :: its2) \/
   exists itsc ac e1, its = itsc ++ e1 /\ reads (decls a) (a_root a) 0 false argv itsc /\ perform a itsc = Ok (0, ac) /\
     env_items ac = e1 ++ Call t i v :: its2) ->
  perform a its = Ok (0, a1) ->
  decls a !! t = Some T -> T !! i = Some d ->
  exists o f V F K, invar true a1 V F K /\ get_option a1 t i = Ok o /\ decl_of o = d /\ stack_ok a1 /\
    (v = None -> d_vtype d = VT_FLAG) /\ (forall s, v = Some s -> harmless_text d s) /\
    d_handler d = Some f /\ library_entry d /\ is_Some (d_name d) /\ decls a1 = decls a /\ a_root a1 = a_root a /\
    a_stack a1 = entered its /\ (forall c m, Reject c m ∉ its) /\ Forall (ok_item pcre false (decls a)) its.
Proof.
  intros Ha Hns Hrdy Hlib HQ Hh Hst Hw Hp HT Hd.
  pose proof (accepted_ready _ Ha Hns) as [_ Herr HR HS Hac Hnm].
  assert (Hit : forall x, x ∈ its ++ Call t i v :: its2 -> item_ok (decls a) x).
  { destruct Hw as [Hr|(itsc & ac & e1 & -> & Hr & Hpc & He)]; [by eapply items_ok|].
    intros x. rewrite <- app_assoc, <- He, elem_of_app. intros [Hx|Hx]; [by eapply items_ok|].
    rewrite <- (perform_decls _ _ _ _ Hpc). by eapply env_items_ok. }
  assert (Hx : Call t i v ∈ its ++ Call t i v :: its2) by (apply elem_of_app; right; left).
  assert (Hn : forall c m, Reject c m ∉ its).
  { eapply perform_no_reject; [|exact Hp]. intros c' m' Hy. destruct Hw as [Hr|(itsc & ac & e1 & -> & Hr & Hpc & He)].
    - assert (Hy' : Reject c' m' ∈ its ++ Call t i v :: its2) by (apply elem_of_app; by left).
      destruct (reads_codes _ _ _ _ _ _ _ _ Hr Hy') as [->|[->| ->]]; done.
    - apply elem_of_app in Hy as [Hy|Hy]; [destruct (reads_codes _ _ _ _ _ _ _ _ Hr Hy) as [->|[->| ->]]; done|].
      assert (Hy' : Reject c' m' ∈ env_items ac) by (rewrite He; apply elem_of_app; by left).
      apply env_of_calls in Hy' as (? & ? & ? & [=]). }
  assert (Hent : (length (entered its) <= 8)%nat).
  { destruct Hw as [Hr|(itsc & ac & e1 & -> & Hr & Hpc & He)].
    - pose proof (accepted_entered _ _ _ Ha Hns Hr) as Hle. rewrite entered_app, app_length in Hle. lia.
    - pose proof (accepted_entered _ _ _ Ha Hns Hr) as Hle. pose proof (accepted_env_none ac) as Hz.
      rewrite He, entered_app, app_length in Hz. rewrite entered_app, app_length. lia. }
  assert (Hcall : forall t' i' v', Call t' i' v' ∈ its ++ Call t i v :: its2 -> callable (decls a) t' i').
  { intros t' i' v' Hy. destruct Hw as [Hr|(itsc & ac & e1 & -> & Hr & Hpc & He)]; [by eapply (reads_calls _ _ _ _ _ _ Hr t' i' v')|].
    rewrite <- app_assoc, <- He in Hy. eapply assigned_calls; [by apply accepted_ready| |exact Hy]. by exists itsc, ac. }
  assert (Hhd : exists f, d_handler d = Some f).
  { assert (Hor : reads (decls a) (a_root a) 0 false argv (its ++ Call t i v :: its2) \/ assigned a argv (its ++ Call t i v :: its2)).
    { destruct Hw as [Hr|(itsc & ac & e1 & -> & Hr & Hpc & He)]; [by left|]. right. rewrite <- app_assoc, <- He. by exists itsc, ac. }
    destruct (accepted_handlers a argv _ t i v Ha Hns Hor Hx) as (T' & d' & f & HT' & Hd' & Hf). exists f. congruence. }
  assert (Hok : Forall (ok_item pcre false (decls a)) its).
  { destruct Hw as [Hr|(itsc & ac & e1 & -> & Hr & Hpc & He)].
    - apply (reads_items pcre false) in Hr as Hi; [|done]. by apply Forall_app in Hi as [Hi _].
    - apply (reads_items pcre false) in Hr as Hi; [|done]. apply Forall_app. split; [done|].
      apply Forall_forall. intros x Hy. assert (Hy' : x ∈ env_items ac) by (rewrite He; apply elem_of_app; by left).
      apply env_of_calls in Hy' as (t' & i' & v' & ->). intros T' d' HT' Hd' Hg.
      destruct (Hcall t' i' v') as (T2 & d2 & X1 & X2 & X3); [apply elem_of_app; left; apply elem_of_app; by right|].
      assert (T2 = T') as -> by congruence. assert (d2 = d') as -> by congruence. destruct X3; congruence. }
  destruct (perform_inv its HQ true a _ _ _ (invar_ready _ Hrdy)) as (st & a1' & F1 & K1 & Hp' & D1 & R1 & S1 & T1 & I1).
  { unfold stack_ok. rewrite Hst. intros r []%elem_of_nil. }
  { intros x Hy. apply Hit. apply elem_of_app. by left. }
  { rewrite Hst. exact Hent. }
  rewrite Hp in Hp'. injection Hp' as <- <-. change (true && (0 =? 0)) with true in I1.
  destruct Hhd as [f Hf].
  destruct (Hit _ Hx) as (T' & d' & HT'' & Hd'' & Hnone & Hharm).
  assert (T' = T) as -> by congruence. assert (d' = d) as -> by congruence.
  destruct (decls_entry a1 t T i d) as (o & Ho & Eo); [by rewrite D1|done|]. apply entry_get in Ho. subst d.
  exists o, f, (fun t i => [] ++ texts t i its), F1, K1. split; [exact I1|]. split_and!; try done.
  - eapply Hlib; [exact HT|by eapply elem_of_list_lookup_2].
  - destruct (Hcall _ _ _ Hx) as (T' & d' & HT3 & Hd3 & Hty).
    assert (T' = T) as -> by congruence. assert (d' = decl_of o) as -> by congruence.
    destruct (decls_entry a t T i (decl_of o) HT Hd) as (o' & (Ta & HTa & Hoa) & Eo). rewrite <- Eo in Hty |- *.
    apply (Hnm t Ta); [done|by eapply elem_of_list_lookup_2|]. intros X. unfold group_entry in X. destruct Hty; congruence.
  - rewrite (T1 eq_refl), Hst. done.
Qed.

(** ** The whole parse *)
Lemma refused_parse a argv its t i v its2 T d a1 c tx cs p : starts a -> accepted a -> no_strays (decls a) (a_root a) -> ready a ->
  qsort_sorts -> harmless_input a argv ->
  reads (decls a) (a_root a) 0 false argv (its ++ Call t i v :: its2) -> perform a its = Ok (0, a1) ->
  decls a !! t = Some T -> T !! i = Some d -> value_said d v c tx -> called (decls a) its cs ->
  exists a', argus_parse a argv = Ok (Returned c, a') /\
    stderr_of pcre p a' = Ok (told_line (p_name p) tx ++ pointer (p_name p) cs).
Proof.
  intros (Hst & Hlog & Hlib) Ha Hns Hrdy HQ Hh Hr Hp HT Hd Hs Hc.
  pose proof (accepted_ready _ Ha Hns) as [_ _ HR HS _ Hnm].
  destruct (call_reached a argv its t i v its2 T d a1 Ha Hns Hrdy Hlib HQ Hh Hst (or_introl Hr) Hp HT Hd)
    as (o & f & V & F & K & I1 & Ho & <- & S1 & Hnone & Hharm & Hf & Hlb & Hname & D1 & R1 & T1 & Hn & Hi).
  destruct (execute_said true a1 _ F K t i o f v c tx HQ I1 Ho S1 Hnone Hharm Hf Hlb Hname Hs) as (m & a2 & E & L & R).
  assert (Hcode : c <> 0 /\ c <> 1) by (destruct (said_codes _ _ _ _ Hs) as [->|[->| ->]]; done). destruct Hcode as [C0 C1].
  assert (Hpp : perform a (its ++ Call t i v :: its2) = Ok (c, a2)).
  { rewrite perform_app, Hp by done. cbn [rbind perform]. change (0 =? 0) with true. cbv iota. rewrite E. cbn [rbind].
    destruct (Z.eqb_spec c 0); done. }
  destruct (parse_safe a argv Ha Hns Hrdy HQ Hh) as (out & a' & Er & _ & _). exists a'.
  assert (Er' := Er). rewrite (parse_error a argv _ c a2 HS HR Hr Hpp C0 C1) in Er'.
  apply rbind_Ok in Er' as (a3 & E2 & Er'). injection Er' as <- <-. split; [done|].
  pose proof (free_decls _ _ E2) as D2. apply argus_free_err in E2 as (_ & L2 & S2 & _).
  pose proof (execute_callbacks_frame _ _ _ _ _ _ E) as [Fr Fs Fp Fd _].
  destruct (perform_quiet pcre p a3 its a a1 Hlib Hn Hi Hp) as (l & L1 & Q). rewrite Hlog in L1.
  unfold stderr_of. rewrite L2.
  change (a_log (add_log (set_err a2 c) [EUsage])) with (a_log a2 ++ [EUsage]).
  rewrite L, L1. cbn [app]. rewrite <- app_assoc.
  apply (printed_app pcre p a3 l ([EDiag c m] ++ [EUsage]) []); [done|]. cbn [app Messages.printed]. unfold error_line. rewrite R. cbn [rbind].
  unfold help_hint. rewrite S2. change (a_stack (add_log (set_err a2 c) [EUsage])) with (a_stack a2).
  rewrite Fs, T1. rewrite (stack_called a its cs a3); [|rewrite D2; change (decls a2 = decls a); congruence|done].
  cbn [rbind]. unfold told_line, pointer, line_end. f_equal. rewrite app_nil_r. done.
Qed.
(** From the environment: the message alone. *)
Lemma refused_env a argv its t i v e1 e2 T d a1 a2 c tx p : starts a -> accepted a -> no_strays (decls a) (a_root a) -> ready a ->
  qsort_sorts -> harmless_input a argv ->
  reads (decls a) (a_root a) 0 false argv its -> perform a its = Ok (0, a1) ->
  env_items a1 = e1 ++ Call t i v :: e2 -> perform a1 e1 = Ok (0, a2) ->
  decls a !! t = Some T -> T !! i = Some d -> value_said d v c tx ->
  exists a', argus_parse a argv = Ok (Returned c, a') /\ stderr_of pcre p a' = Ok (told_line (p_name p) tx).
Proof.
  intros (Hst & Hlog & Hlib) Ha Hns Hrdy HQ Hh Hr Hp He Hp1 HT Hd Hs.
  pose proof (accepted_ready _ Ha Hns) as [_ Herr HR HS Hac Hnm].
  assert (Hpp : perform a (its ++ e1) = Ok (0, a2)).
  { rewrite perform_app, Hp; [exact Hp1|]. eapply perform_no_reject; [|exact Hp]. intros c' m' Hy.
    destruct (reads_codes _ _ _ _ _ _ _ _ Hr Hy) as [->|[->| ->]]; done. }
  assert (Hw : exists itsc ac e0, its ++ e1 = itsc ++ e0 /\ reads (decls a) (a_root a) 0 false argv itsc /\ perform a itsc = Ok (0, ac) /\
    env_items ac = e0 ++ Call t i v :: e2) by (by exists its, a1, e1).
  destruct (call_reached a argv (its ++ e1) t i v e2 T d a2 Ha Hns Hrdy Hlib HQ Hh Hst (or_intror Hw) Hpp HT Hd) as
    (o & f & V & F & K & I1 & Ho & <- & S1 & Hnone & Hharm & Hf & Hlb & Hname & D1 & R1 & T1 & Hn & Hi).
  destruct (execute_said true a2 _ F K t i o f v c tx HQ I1 Ho S1 Hnone Hharm Hf Hlb Hname Hs) as (m & a3 & E & L & R).
  assert (Hcode : c <> 0 /\ c <> 1) by (destruct (said_codes _ _ _ _ Hs) as [->|[->| ->]]; done). destruct Hcode as [C0 C1].
  assert (Hp3 : perform a1 (env_items a1) = Ok (c, a3)).
  { rewrite He, perform_app, Hp1 by (intros c' m' Hy; apply (Hn c' m'); apply elem_of_app; by right). cbn [rbind perform]. change (0 =? 0) with true. cbv iota. rewrite E. cbn [rbind].
    destruct (Z.eqb_spec c 0); done. }
  destruct (parse_safe a argv Ha Hns Hrdy HQ Hh) as (out & a' & Er & _ & _). exists a'.
  assert (Er' := Er). unfold argus_parse in Er'. rewrite (parse_reads _ _ _ _ _ _ HS HR Hr), Hp in Er'. cbn [rbind] in Er'.
  change (0 =? SHOULD_EXIT) with false in Er'. change (negb (0 =? SUCCESS)) with false in Er'. cbv iota in Er'.
  destruct (parsed_stack a argv its 0 a1 HS HR Hac Hst Hr Hp) as (Q1 & Q2 & Q3 & Q4 & Q5 & Q6 & Q7).
  assert (Herr1 : a_err a1 = 0) by (rewrite (perform_err _ _ _ Hp Q7); done).
  rewrite (set_err_same _ Herr1) in Er'.
  assert (HR1 : is_Some (decls a1 !! a_root a1)) by (rewrite (perform_decls _ _ _ _ Hp), Q3; done).
  pose proof (load_env_vars_spec a1 HR1 Q1 Q2) as Henv. rewrite Hp3 in Henv.
  destruct (load_env_vars a1) as [[st' a4]|] eqn:El; [|done]. cbn [rbind] in Er'. destruct Henv as [-> Henv].
  change SUCCESS with 0 in Er'. destruct (Z.eqb_spec c 0) as [|_]; [done|]. cbn [negb] in Er'.
  destruct Henv as (_ & _ & _ & _ & _ & L4 & _ & _).
  apply rbind_Ok in Er' as (a5 & E5 & Er'). injection Er' as <- <-. split; [done|].
  apply argus_free_err in E5 as (_ & L5 & _ & _).
  destruct (perform_quiet pcre p a5 (its ++ e1) a a2 Hlib Hn Hi Hpp) as (l & L1 & Q). rewrite Hlog in L1.
  unfold stderr_of. rewrite L5, L4, L, L1. cbn [app].
  apply (printed_app pcre p a5 l [EDiag c m] []); [done|]. cbn [app Messages.printed]. unfold error_line. rewrite R. cbn [rbind].
  unfold told_line. by rewrite app_nil_r.
Qed.
(** Every call that is reached takes its value, or refuses it with a text of the specification. *)
Lemma call_decided a argv its t i v its2 T d a1 : starts a -> accepted a -> no_strays (decls a) (a_root a) -> ready a ->
  qsort_sorts -> harmless_input a argv -> reads (decls a) (a_root a) 0 false argv (its ++ Call t i v :: its2) ->
  perform a its = Ok (0, a1) -> decls a !! t = Some T -> T !! i = Some d ->
  exists st a2, perform a (its ++ [Call t i v]) = Ok (st, a2) /\
    (((st = 0 \/ st = 1) /\ value_taken d v) \/ exists tx, value_said d v st tx).
Proof.
  intros (Hst & Hlog & Hlib) Ha Hns Hrdy HQ Hh Hr Hp HT Hd.
  destruct (call_reached a argv its t i v its2 T d a1 Ha Hns Hrdy Hlib HQ Hh Hst (or_introl Hr) Hp HT Hd)
    as (o & f & V & F & K & I1 & Ho & <- & S1 & Hnone & Hharm & Hf & Hlb & Hname & D1 & R1 & T1 & Hn & Hi).
  destruct (exec_inv true a1 V F K t i o v HQ I1 Ho (stack_active _ S1) Hnone Hharm) as (st & a2 & F' & K' & E & _).
  exists st, a2. split.
  { rewrite perform_app, Hp by done. cbn [rbind perform]. change (0 =? 0) with true. cbv iota. rewrite E. cbn [rbind].
    destruct (Z.eqb_spec st 0) as [->|]; done. }
  destruct (execute_outcome _ _ _ _ _ _ _ _ _ _ _ _ I1 Ho Hnone Hharm Hf Hlb Hname E) as [X|(_ & m & t0 & _ & _ & X)]; [by left|].
  right. by exists t0.
Qed.
End libc.
