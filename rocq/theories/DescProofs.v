(** * Proofs about hints and descriptions *)
From Coq Require Import Lia.
From Verif Require Export ChoiceProofs ShowLogic WrapProofs SpecHelp.
From Verif Require Import EnvProofs LibProofs GrammarProofs.

Lemma c_app s t : c_text s -> c_text t -> c_text (s ++ t).
Proof. intros H1 H2 H. apply elem_of_app in H as [H|H]; [by apply H1|by apply H2]. Qed.
Lemma c_take n s : c_text s -> c_text (take n s).
Proof. intros H1 H. apply H1. rewrite <- (take_drop n s). apply elem_of_app. by left. Qed.
Lemma c_dec z : c_text (dec z).
Proof. apply dec_text. Qed.
Ltac lit := let H := fresh in
  intros H; cbn in H; repeat (apply elem_of_cons in H as [H|H]; [discriminate H|]); by apply elem_of_nil in H.
Ltac texts := repeat first [apply c_app | apply c_take | apply c_dec | assumption | lit].
Lemma c_bars l : Forall c_text l -> c_text (bars l).
Proof.
  induction 1 as [|t l Ht Hl IH]; [lit|]. destruct l as [|u l]; [done|].
  rewrite bars_cons. apply c_app; [done|]. intros H. apply elem_of_cons in H as [H|H]; [done|]. by apply IH.
Qed.

Section desc.
Context `{Libc, Printf}.
Context {b : bool}.
Notation tr := (triple b).

(** ** Formatters *)
Definition made (whole : Prop) (w : option cstr) (p : option nat) (u : cstr) (E : cells) : Prop :=
  u = [] /\
  ((b = false /\ p = None /\ E = []) \/
   exists l t, p = Some l /\ E = [(l, BStr t)] /\ c_text t /\ (whole -> w = Some t)).

Lemma t_strdup E t :
  tr E (strdup t) (fun p u E' => u = [] /\
    ((b = false /\ p = None /\ E' = E) \/ exists l, p = Some l /\ E' = (l, BStr t) :: E)).
Proof. apply t_malloc. Qed.
Lemma t_fill E t :
  tr E (let^ p := dmalloc BTmp in
        match p with None => dret None | Some l => dstore l (BStr t) ;;^ dret (Some l) end)
    (fun p u E' => u = [] /\
      ((b = false /\ p = None /\ E' = E) \/ exists l, p = Some l /\ E' = (l, BStr t) :: E)).
Proof.
  eapply t_bind; [apply t_malloc|]. intros p u E' [-> [(Eb & -> & ->)|(l & -> & ->)]].
  - apply t_ret. split; [done|]. by left.
  - eapply t_bind; [apply t_store|]. intros _ u E' [-> ->]. apply t_ret. split; [done|]. right. by exists l.
Qed.
Lemma t_format32 t :
  c_text t -> tr [] (format32 t) (made (length t <= 31)%nat (Some t)).
Proof.
  intros Ht. eapply t_conseq; [apply t_fill|]. intros p u E' [-> [K|(l & -> & ->)]];
    (split; [done|]); [by left|right].
  exists l, (snprintf 32 t). split_and!; try done; [by apply c_take|].
  intros W. f_equal. unfold snprintf. rewrite take_ge; [done|cbn; lia].
Qed.
Lemma copied t :
  c_text t ->
  exists r, safe_strcpy (Some (replicate (length t + 1) None)) (Z.of_nat (length t + 1)) (Some t) = Ok r /\
    match snd r with Some x => read_string x | None => UB NullDeref end = Ok t.
Proof.
  intros Ht. rewrite safe_strcpy_spec by (rewrite replicate_length; lia).
  rewrite (proj2 (Z.ltb_lt _ _)) by lia. eexists. split; [done|]. cbn [snd].
  eapply read_holds. split; [done|exact Ht].
Qed.
Lemma t_copy t : c_text t ->
  tr [] (copy_block t) (fun p u E' => u = [] /\
      ((b = false /\ p = None /\ E' = []) \/ exists l, p = Some l /\ E' = [(l, BStr t)])).
Proof.
  intros Ht. destruct (copied t Ht) as (r & E1 & E2). unfold copy_block.
  eapply t_bind; [apply t_malloc|]. intros p u E' [-> [(Eb & -> & ->)|(l & -> & ->)]].
  - apply t_ret. split; [done|]. by left.
  - eapply t_bind; [by apply t_lift|]. intros ? u E' (-> & -> & ->).
    eapply t_bind; [by apply t_lift|]. intros ? u E' (-> & -> & ->).
    eapply t_bind; [apply t_store|]. intros _ u E' [-> ->]. apply t_ret. split; [done|]. right. by exists l.
Qed.
Lemma t_choices c w :
  choices_text c = Ok w -> c_text w -> tr [] (format_choices c) (made True (Some w)).
Proof.
  intros E Hw. unfold format_choices.
  eapply t_bind; [apply t_malloc|]. intros p u E' [-> [(Eb & -> & ->)|(l & -> & ->)]].
  - apply t_ret. split; [done|]. by left.
  - eapply t_bind; [by apply t_lift|]. intros ? u E' (-> & -> & ->).
    eapply t_bind; [apply t_store|]. intros _ u E' [-> ->]. apply t_ret. split; [done|]. right. by exists l, w.
Qed.
Lemma made_simple (W : Prop) w t p (u : cstr) (E' : cells) :
  c_text t -> (W -> w = Some t) ->
  u = [] /\ ((b = false /\ p = None /\ E' = []) \/ exists l, p = Some l /\ E' = [(l, BStr t)]) ->
  made W w p u E'.
Proof.
  intros Ht Hw [-> [K|(l & -> & ->)]]; (split; [done|]); [by left|right]. by exists l, t.
Qed.
Lemma t_regex p h :
  opt_text p -> opt_text h ->
  tr [] (format_regex p h) (made True (validator_words (VEntry (VRegex p h) ORDER_PRE))).
Proof.
  intros Hp Hh. unfold format_regex, validator_words. cbn [v_fun].
  assert (PAT : c_text ($"pattern")) by lit.
  assert (X : forall q, default [] h = [] -> opt_text q -> p = q ->
    tr [] (match q with
           | Some (c :: t) => if (length (c :: t) <=? 15)%nat then copy_block (c :: t) else strdup ($"pattern")
           | _ => strdup ($"pattern")
           end)
      (made True (Some (if bool_decide (default [] h <> []) then default [] h
            else if bool_decide (default [] p <> [] /\ (length (default [] p) <= 15)%nat)
                 then default [] p else $"pattern")))).
  { intros q Eh Hq ->. rewrite Eh. rewrite bool_decide_false by (intros Y; by apply Y).
    destruct q as [[|x t]|]; cbn [default].
    - rewrite bool_decide_false by (intros [Y _]; by apply Y).
      eapply t_conseq; [apply t_strdup|]. intros a u E' K. eapply made_simple; [| |exact K]; done.
    - destruct (Nat.leb_spec (length (x :: t)) 15) as [L|L].
      + rewrite bool_decide_true by done.
        eapply t_conseq; [by apply t_copy|]. intros a u E' K. eapply made_simple; [| |exact K]; done.
      + rewrite bool_decide_false by (intros [_ ?]; cbn in *; lia).
        eapply t_conseq; [apply t_strdup|]. intros a u E' K. eapply made_simple; [| |exact K]; done.
    - rewrite bool_decide_false by (intros [Y _]; by apply Y).
      eapply t_conseq; [apply t_strdup|]. intros a u E' K. eapply made_simple; [| |exact K]; done. }
  destruct h as [[|x t]|]; [by apply X| |by apply X].
  cbn [default]. rewrite bool_decide_true by done.
  eapply t_conseq; [by apply t_copy|]. intros a u E' K. eapply made_simple; [| |exact K]; done.
Qed.
Lemma total_total l : (total_room l <= total l + length l)%nat.
Proof.
  induction l as [|n [|m l] IH]; [done|cbn; lia|].
  change (total_room (n :: m :: l)) with (n + 1 + total_room (m :: l))%nat.
  change (total (n :: m :: l)) with (n + total (m :: l))%nat. cbn [length] in *. lia.
Qed.
Definition whole (v : ventry) : Prop :=
  match v_fun v with
  | VRange _ _ | VCount _ _ | VLength _ _ => (length (default [] (validator_words v)) <= 31)%nat
  | _ => True
  end.
Lemma t_formatter v f :
  printf_ok -> showable_validator v -> formatter v = Some f ->
  tr [] f (made (whole v) (validator_words v)).
Proof.
  intros PO Sv. unfold formatter, showable_validator, whole, validator_words in *.
  destruct (v_fun v) as [x y|x y|x y|p h|l|l|l|k|k] eqn:Ev; intros [= <-].
  - apply t_format32. texts.
  - apply t_format32. texts.
  - apply t_format32. texts.
  - destruct Sv as [Hp Hh]. exact (t_regex p h Hp Hh).
  - destruct Sv as [Sv W]. apply t_choices; [|by apply c_bars]. apply choices_str; [done|].
    pose proof (total_total (map length l)) as T. rewrite map_length in T. lia.
  - destruct Sv as [Sv W]. apply t_choices; [by apply choices_int|]. apply c_bars, Forall_map, Forall_forall.
    intros z _. apply c_dec.
  - apply t_choices.
    + apply choices_float; [|done]. apply Forall_forall. intros z _. split; apply PO.
    + apply c_bars, Forall_map, Forall_forall. intros z _. apply PO.
Qed.
Lemma formatter_none v : formatter v = None <-> validator_words v = None.
Proof. unfold formatter, validator_words. destruct (v_fun v); done. Qed.

(** ** Hints *)
Lemma short_brief c t : is_short_hint c t = brief c t.
Proof.
  unfold is_short_hint, brief. f_equal. f_equal.
  destruct (strchr t " ") eqn:E.
  - symmetry. apply bool_decide_eq_false. intros N. apply LibProofs.strchr_None in N. congruence.
  - symmetry. apply bool_decide_eq_true. by apply LibProofs.strchr_None.
Qed.
Lemma type_name t : base_type_name t = type_word t.
Proof.
  unfold base_type_name, type_word.
  destruct (N.eqb_spec t VT_INT) as [->|N1]; [done|].
  destruct (N.eqb_spec t VT_STRING) as [->|N2]; [done|].
  destruct (N.eqb_spec t VT_FLOAT) as [->|N3]; [done|].
  destruct (N.eqb_spec t VT_BOOL) as [->|N4]; [done|].
  destruct (N.eqb_spec t VT_FLAG) as [->|N5]; [done|].
  unfold VT_INT, VT_STRING, VT_FLOAT, VT_BOOL, VT_FLAG in *.
  destruct t as [|[[[[[]|[]|]|[[]|[]|]|]|[[[]|[]|]|[[]|[]|]|]|]|[[[[]|[]|]|[[]|[]|]|]|[[[]|[]|]|[[]|[]|]|]|]|]]; done.
Qed.
Lemma c_type t : c_text (type_word t).
Proof.
  rewrite <- type_name. unfold base_type_name.
  repeat match goal with |- c_text (if ?x then _ else _) => destruct x; [lit|] end. lit.
Qed.

Definition validators (d : decl) : list ventry := default [] (d_validators d).
Lemma t_smart_hint c d :
  printf_ok -> opt_text (d_hint d) -> Forall showable_validator (validators d) ->
  tr [] (get_smart_hint c d)
    (made (b = true /\ Forall whole (validators d)) (Some (hint_words c d))).
Proof.
  intros PO Hh Hv. unfold get_smart_hint, hint_words, hint_of_validator.
  destruct (d_hint d) as [h|].
  { eapply t_conseq; [apply t_strdup|]. intros a u E' K. eapply made_simple; [| |exact K]; done. }
  assert (TYPE : forall w, (b = true /\ Forall whole (validators d) -> w = type_word (d_vtype d)) ->
    tr [] (strdup (base_type_name (d_vtype d)))
      (made (b = true /\ Forall whole (validators d)) (Some w))).
  { intros w Hw. eapply t_conseq; [apply t_strdup|]. intros a u E' K.
    eapply made_simple; [| |exact K]; rewrite type_name; [apply c_type|].
    intros W. by rewrite (Hw W). }
  unfold single_validator, validators in *.
  destruct (d_validators d) as [[|v [|? ?]]|]; cbn [default] in *; try (by apply TYPE).
  apply Forall_cons in Hv as [Hv _].
  destruct (formatter v) as [f|] eqn:Ef.
  2: { apply formatter_none in Ef. rewrite Ef. by apply TYPE. }
  eapply t_bind; [by apply (t_formatter v f)|].
  intros p u E' [-> [(Eb & -> & ->)|(l & t & -> & -> & Ct & Wt)]].
  - eapply t_bind; [by apply (t_ret _ _ (fun a u E => a = false /\ u = [] /\ E = []))|].
    intros a u E' (-> & -> & ->). cbn [dfree_ptr].
    eapply t_bind; [by apply (t_ret _ _ (fun a u E => u = [] /\ E = []))|].
    intros a u E' (-> & ->). cbn [app]. apply TYPE. intros [W _]. congruence.
  - eapply t_bind with (Q := fun a u E => a = is_short_hint c t /\ u = [] /\ E = [(l, BStr t)]).
    { eapply t_bind; [apply t_read|]. intros s u E' (-> & -> & ->). by apply t_ret. }
    intros a u E' (-> & -> & ->). cbn [app]. rewrite short_brief.
    assert (K : b = true /\ Forall whole [v] -> validator_words v = Some t).
    { intros [_ W]. apply Wt. by apply Forall_cons in W as [W _]. }
    destruct (brief c t) eqn:Eb.
    + apply t_ret. split; [done|]. right. exists l, t. split_and!; try done.
      intros W. rewrite (K W), Eb. done.
    + cbn [dfree_ptr]. eapply t_bind; [apply t_free|]. intros [] u E' (-> & ->). apply TYPE.
      intros W. rewrite (K W), Eb. done.
Qed.

(** ** Descriptions *)

(** A step that may lengthen the description at [l] by at most [k] characters. *)
Definition extended (s : cstr) (k : nat) (exact : Prop) (s1 : cstr) (l : nat) (u : cstr) (E : cells)
  : Prop :=
  u = [] /\ exists s', E = [(l, BStr s')] /\ c_text s' /\ (length s' <= length s + k)%nat /\
    (exact -> s' = s1).
Lemma t_append l s suffix :
  c_text s -> c_text suffix ->
  Z.of_nat (length s) + Z.of_nat (length suffix) + 1 < two64 ->
  tr [(l, BStr s)] (append_to_description l suffix)
    (extended s (length suffix) (b = true) (s ++ suffix)).
Proof.
  intros Cs Ct W. unfold append_to_description. destruct suffix as [|x suffix].
  { apply t_ret. split; [done|]. exists s. rewrite app_nil_r. split_and!; try done; lia. }
  set (t := x :: suffix) in *. clearbody t.
  eapply t_bind; [apply t_read|]. intros a u E' (-> & -> & ->).
  eapply t_bind; [apply t_malloc|]. intros p u E' [-> [(Eb & -> & ->)|(l' & -> & ->)]].
  { apply t_ret. split; [done|]. exists s. split_and!; try done; [lia|]. intros ?. congruence. }
  assert (R : exists b0 b1,
    safe_strcpy (Some (replicate (length s + length t + 1) None)) (Z.of_nat (length s + length t + 1)) (Some s)
      = Ok (true, Some b0) /\ append_to b0 (length s + length t + 1) t = Ok b1 /\
    read_string b1 = Ok (s ++ t)).
  { rewrite safe_strcpy_spec by (rewrite replicate_length; lia).
    rewrite (proj2 (Z.ltb_lt _ _)) by lia.
    set (rest := drop (S (length s)) (replicate (length s + length t + 1) (@None ascii))).
    assert (Hb : holds (map Some s ++ Some terminator :: rest) s rest) by (split; done).
    assert (Lb : (length s + length t + 1 <= length (map Some s ++ Some terminator :: rest))%nat).
    { rewrite app_length, map_len. cbn [length]. unfold rest. rewrite drop_length, replicate_length. lia. }
    destruct (append_to_ok _ (length s + length t + 1) s _ t Lb ltac:(lia) Hb Ct ltac:(lia) ltac:(lia))
      as (b1 & E1 & L1 & H1).
    eexists _, b1. split; [done|].
    rewrite (proj2 (Nat.ltb_lt _ _)) in H1 by lia.
    split; [done|]. by apply read_holds in H1. }
  destruct R as (b0 & b1 & E1 & E2 & E3).
  eapply t_bind; [by apply t_lift|]. intros ? u E' (-> & -> & ->). cbn [snd].
  eapply t_bind; [by apply t_lift|]. intros ? u E' (-> & -> & ->).
  eapply t_bind; [by apply t_lift|]. intros ? u E' (-> & -> & ->).
  eapply t_bind; [apply t_store|]. intros ? u E' (-> & ->).
  eapply t_bind; [apply (t_perm _ [(l, BStr s); (l', BStr (s ++ t))]); [constructor|apply t_free]|].
  intros ? u E' (-> & ->). apply t_ret. split; [done|]. exists (s ++ t).
  split_and!; try done; [by apply c_app|]. rewrite app_length. lia.
Qed.

(** Default value *)
Lemma c_default d :
  printf_ok -> (has_default d = true -> d_vtype d = VT_STRING ->
                d_default d = VNull \/ exists s, d_default d = PLit s /\ c_text s) ->
  has_default d = true -> c_text (default_value d).
Proof.
  intros PO Hs Hd. unfold default_value.
  destruct (N.eqb_spec (d_vtype d) VT_INT); [destruct (d_default d); texts|].
  destruct (N.eqb_spec (d_vtype d) VT_STRING).
  { destruct (Hs Hd ltac:(done)) as [->|(s & -> & Hc)]; cbv iota beta; [lit|texts]. }
  destruct (N.eqb_spec (d_vtype d) VT_FLOAT); [destruct (d_default d); try lit; apply PO|].
  destruct (N.eqb_spec (d_vtype d) VT_BOOL); [|lit].
  destruct (d_default d); try lit. destruct (_ =? 0); lit.
Qed.
Lemma t_default d :
  (has_default d = true ->
    (d_vtype d = VT_STRING -> d_default d = VNull \/ exists s, d_default d = PLit s /\ c_text s) /\
    (d_vtype d = VT_INT \/ d_vtype d = VT_FLOAT \/ d_vtype d = VT_BOOL ->
     exists z, d_default d = Raw W8 z)) ->
  has_default d = true -> forall E,
  tr E (default_text d) (fun t u E' => u = [] /\ E' = E /\
    t = $" (default: " ++ take 116 (default_value d ++ $")")).
Proof.
  intros Hd D E. specialize (Hd D) as [Hs Hz]. unfold default_text, default_value.
  destruct (N.eqb_spec (d_vtype d) VT_INT) as [E1|N1].
  { destruct (Hz ltac:(by left)) as [z ->]. eapply t_bind; [by apply t_lift|].
    intros a u E' (-> & -> & ->). by apply t_ret. }
  destruct (N.eqb_spec (d_vtype d) VT_STRING) as [E2|N2].
  { destruct (Hs E2) as [->|(s & -> & Hc)].
    - eapply t_bind; [by apply t_lift|]. intros a u E' (-> & -> & ->). by apply t_ret.
    - eapply t_bind; [by apply t_lift|]. intros a u E' (-> & -> & ->).
      eapply t_bind with (Q := fun a u E' => a = s /\ u = [] /\ E' = E).
      + intros B F [out h] O W. exists s, [], E, h. cbn in *. rewrite app_nil_r. done.
      + intros a u E' (-> & -> & ->). apply t_ret. split; [done|]. split; [done|].
        rewrite <- !app_assoc. done. }
  destruct (N.eqb_spec (d_vtype d) VT_FLOAT) as [E3|N3].
  { destruct (Hz ltac:(auto)) as [z ->]. eapply t_bind; [by apply t_lift|].
    intros a u E' (-> & -> & ->). by apply t_ret. }
  destruct (N.eqb_spec (d_vtype d) VT_BOOL) as [E4|N4].
  { destruct (Hz ltac:(auto)) as [z ->]. eapply t_bind; [by apply t_lift|].
    intros a u E' (-> & -> & ->). apply t_ret. split; [done|]. split; [done|].
    cbn. by destruct (z mod 256 =? 0). }
  by apply t_ret.
Qed.
Lemma t_default_info prefix l s d :
  printf_ok -> showable prefix d -> c_text s -> Z.of_nat (length s) + 128 < two64 ->
  tr [(l, BStr s)] (append_default_info l d)
    (extended s 127 (b = true /\ (length (default_value d) <= 115)%nat) (s ++ default_note d)).
Proof.
  intros PO [_ _ Hd _] Cs W. unfold append_default_info, default_note.
  destruct (negb (d_have_default d) || N.eqb (d_vtype d) VT_FLAG) eqn:D.
  - assert (has_default d = false) as ->.
    { unfold has_default. destruct (d_have_default d), (N.eqb (d_vtype d) VT_FLAG); done. }
    apply t_ret. split; [done|]. exists s. rewrite app_nil_r. split_and!; try done; lia.
  - assert (D' : has_default d = true).
    { unfold has_default. destruct (d_have_default d), (N.eqb (d_vtype d) VT_FLAG); done. }
    rewrite D'. eapply t_bind; [by apply t_default|]. intros a u E' (-> & -> & ->).
    set (t := $" (default: " ++ take 116 (default_value d ++ $")")).
    assert (L : (length t <= 127)%nat).
    { unfold t. rewrite app_length, take_length. change (length ($" (default: ")) with 11%nat. lia. }
    eapply t_conseq.
    + apply t_append; [done| |lia]. unfold t. texts. apply c_default; [done| |done].
      intros D2. apply (proj1 (Hd D2)).
    + intros l' u E' [-> (s' & -> & C' & L' & X)]. split; [done|]. exists s'. split_and!; try done; [lia|].
      intros [Eb F]. rewrite (X Eb). f_equal. unfold t. f_equal. apply take_ge.
      rewrite app_length. cbn. lia.
Qed.

(** Validators *)
Lemma c_note v t : c_text t -> c_text (validator_info v t).
Proof. intros Ht. unfold validator_info. destruct (v_fun v); texts. Qed.
Lemma info_length v t : (length (validator_info v t) <= 255)%nat.
Proof. unfold validator_info, snprintf. destruct (v_fun v); rewrite ?take_length; cbn [length]; lia. Qed.
Lemma info_short v t :
  validator_words v = Some t -> (length (validator_note v) <= 255)%nat ->
  validator_info v t = validator_note v.
Proof.
  intros Hw. unfold validator_info, validator_note, snprintf. rewrite Hw.
  unfold validator_words in Hw.
  destruct (v_fun v) eqn:E; intros L; try (apply take_ge; cbn [Nat.sub]; exact L); done.
Qed.
Lemma t_validators vs : forall l s,
  printf_ok -> Forall showable_validator vs -> c_text s ->
  Z.of_nat (length s) + 255 * Z.of_nat (length vs) + 1 < two64 ->
  tr [(l, BStr s)] (append_validators l vs)
    (extended s (255 * length vs) (b = true /\ Forall short_validator vs)
       (s ++ concat (map validator_note vs))).
Proof.
  induction vs as [|v vs IH]; intros l s PO Sv Cs W.
  { apply t_ret. split; [done|]. exists s. cbn. rewrite app_nil_r. split_and!; try done; lia. }
  apply Forall_cons in Sv as [S1 Sv]. cbn [append_validators].
  destruct (formatter v) as [f|] eqn:Ef.
  2: { apply formatter_none in Ef. eapply t_conseq; [apply IH; try done; cbn in W; lia|].
       intros l' u E' [-> (s' & -> & C & L & X)]. split; [done|]. exists s'. split_and!; try done.
       - cbn [length]. lia.
       - intros [Eb Fv]. apply Forall_cons in Fv as [_ Fv]. rewrite (X (conj Eb Fv)).
         cbn [map concat]. unfold validator_note at 2. rewrite Ef. done. }
  eapply t_bind; [apply t_frame0, (t_formatter v f PO S1 Ef)|].
  intros p u E' (E1 & -> & -> & [(Eb & -> & ->)|(a & t & -> & -> & Ct & Wt)]).
  - eapply t_conseq; [apply IH; try done; cbn in W; lia|].
    intros l' u E' [-> (s' & -> & C & L & X)]. split; [done|]. exists s'. split_and!; try done.
    + cbn [length]. lia.
    + intros [E _]. congruence.
  - cbn [app]. eapply t_bind; [apply t_read|]. intros ? u E' (-> & -> & ->).
    pose proof (info_length v t) as IL. cbn [length] in W.
    eapply t_bind.
    { apply (t_perm _ ([(l, BStr s)] ++ [(a, BStr t)])); [constructor|]. apply t_frame.
      apply t_append; [done|by apply c_note|lia]. }
    intros l' u E' (E2 & -> & -> & s' & -> & C' & L' & X'). cbn [app].
    eapply t_bind; [apply (t_perm _ [(a, BStr t); (l', BStr s')]); [constructor|apply t_free]|].
    intros [] u E' [-> ->]. eapply t_conseq; [apply (IH l' s'); try done; lia|].
    intros l2 u E' [-> (s2 & -> & C2 & L2 & X2)]. split; [done|]. exists s2. split_and!; try done.
    + cbn [length]. lia.
    + intros [Eb Fv]. apply Forall_cons in Fv as [F1 Fv]. rewrite (X2 (conj Eb Fv)), (X' Eb).
      rewrite <- app_assoc. f_equal. cbn [map concat]. f_equal.
      destruct F1 as [F1 F2]. apply info_short; [|done]. by apply Wt.
Qed.
Lemma short_whole vs : Forall short_validator vs -> Forall whole vs.
Proof. intros F. eapply Forall_impl; [exact F|]. by intros v [_ K]. Qed.
Lemma t_validator_info c prefix l s d :
  printf_ok -> showable prefix d -> c_text s ->
  Z.of_nat (length s) + 255 * Z.of_nat (length (validators d)) + 1 < two64 ->
  tr [(l, BStr s)] (append_validator_info c l d)
    (extended s (255 * length (validators d)) (b = true /\ Forall short_validator (validators d))
       (s ++ match hint_of_validator c d with
             | Some _ => []
             | None => concat (map validator_note (validators d))
             end)).
Proof.
  intros PO [_ Sv _ _] Cs W. unfold append_validator_info, validators, single_validator in *.
  destruct (d_validators d) as [vs|] eqn:Evs; cbn [default] in *.
  2: { apply t_ret. split; [done|]. exists s. cbn.
       replace (hint_of_validator c d) with (@None cstr)
         by (unfold hint_of_validator; rewrite Evs; by destruct (d_hint d)).
       rewrite app_nil_r. split_and!; try done; lia. }
  cbv [id] in *.
  assert (USED : tr [(l, BStr s)]
    (match match vs with [v] => Some v | _ => None end, d_hint d with
     | Some v, None =>
         match formatter v with
         | Some f => let^ p := f in
             match p with
             | Some a => let^ t := dread a in dfree a ;;^ dret (is_short_hint c t)
             | None => dret false
             end
         | None => dret false
         end
     | _, _ => dret false
     end)
    (fun r u E => u = [] /\ E = [(l, BStr s)] /\
       (b = true /\ Forall short_validator vs ->
        r = match hint_of_validator c d with Some _ => true | None => false end))).
  { unfold hint_of_validator. rewrite Evs. destruct vs as [|v [|? ?]]; [by apply t_ret; destruct (d_hint d)| |by apply t_ret; destruct (d_hint d)].
    destruct (d_hint d); [by apply t_ret|].
    destruct (formatter v) as [f|] eqn:Ef.
    2: { apply formatter_none in Ef. apply t_ret. by rewrite Ef. }
    apply Forall_cons in Sv as [S1 _].
    eapply t_bind; [apply t_frame0, (t_formatter v f PO S1 Ef)|].
    intros p u E' (E1 & -> & -> & [(Eb & -> & ->)|(a & t & -> & -> & Ct & Wt)]).
    - apply t_ret. split_and!; try done. intros [E _]. congruence.
    - cbn [app]. eapply t_bind; [apply t_read|]. intros ? u E' (-> & -> & ->).
      eapply t_bind; [apply t_free|]. intros [] u E' [-> ->]. apply t_ret. split_and!; try done.
      intros [_ F]. apply Forall_cons in F as [[_ F] _]. rewrite (Wt F), short_brief.
      by destruct (brief c t). }
  eapply t_bind; [exact USED|]. intros r u E' (-> & -> & R). cbn [app].
  destruct (hint_of_validator c d) as [h|].
  all: destruct r; [apply t_ret; split; [done|]; exists s; split_and!; try done; [lia|];
         intros K; specialize (R K); try done; by rewrite app_nil_r|].
  all: eapply t_conseq; [by apply t_validators|]; intros l' u E' [-> (s' & -> & C & L & X)];
    (split; [done|]); exists s'; split_and!; try done;
    intros K; rewrite (X K); specialize (R K); done.
Qed.

(** Environment variable *)
Lemma display_env prefix d : env_name_for_display prefix d = env_variable prefix d.
Proof. rewrite env_variable_eq. reflexivity. Qed.
Lemma c_upper s : c_text s -> c_text (map upper_case s).
Proof.
  intros Hs H1. apply elem_of_list_fmap in H1 as (x & E & Hx). apply Hs.
  assert (x = terminator) as <-; [|done].
  clear - E. destruct x as [b0 b1 b2 b3 b4 b5 b6 b7].
  destruct b0, b1, b2, b3, b4, b5, b6, b7; vm_compute in E; try discriminate E; done.
Qed.
Lemma c_prefixed prefix n : opt_text prefix -> c_text n -> c_text (prefixed prefix n).
Proof.
  intros Hp Hn. unfold prefixed. destruct prefix as [[|x p]|]; [done| |done].
  destruct (bool_decide _); [by apply c_app|]. apply c_app; [done|].
  intros K. apply elem_of_cons in K as [K|K]; [discriminate K|by apply Hn].
Qed.
Lemma c_env prefix d n : showable prefix d -> env_variable prefix d = Some n -> c_text n.
Proof.
  intros [Ht _ _ _]. rewrite !Forall_cons in Ht. destruct Ht as (Hp & Hn & Hl & _ & _ & He & _).
  unfold env_variable. destruct (d_env_name d) as [e|].
  - destruct (_ || _); intros [= <-]; [exact He|]. apply c_take. by apply c_prefixed.
  - destruct (N.testbit _ _); [|done]. intros [= <-]. apply c_upper, c_take.
    assert (c_text (match d_name d with Some n0 => n0 | None => default [] (d_lname d) end)).
    { destruct (d_name d); [exact Hn|]. destruct (d_lname d); [exact Hl|]. cbn. lit. }
    destruct (N.testbit _ _); [done|]. by apply c_prefixed.
Qed.
Lemma t_env_info prefix l s d :
  showable prefix d -> c_text s -> Z.of_nat (length s) + 256 < two64 ->
  tr [(l, BStr s)] (append_env_info prefix l d)
    (extended s 255 (b = true /\ (length (default [] (env_variable prefix d)) <= 247)%nat)
       (add_variable (env_variable prefix d) s)).
Proof.
  intros Sh Cs W. unfold append_env_info. rewrite display_env.
  destruct (env_variable prefix d) as [n|] eqn:En.
  2: { apply t_ret. split; [done|]. exists s. split_and!; try done; lia. }
  pose proof (c_env _ _ _ Sh En) as Cn. cbn [default add_variable].
  eapply t_bind; [apply t_read|]. intros ? u E' (-> & -> & ->).
  assert (L : forall t, (length (snprintf 256 t) <= 255)%nat).
  { intros t. unfold snprintf. rewrite take_length. lia. }
  destruct (bool_decide_reflect (last s = Some ")"%char)) as [El|El].
  - rewrite El. cbn [Ascii.eqb]. change (Ascii.eqb ")" closing) with true. cbv iota.
    eapply t_bind; [apply t_store|]. intros [] u E' [-> ->].
    assert (Ls : (length (take (length s - 1) s) <= length s - 1)%nat) by (rewrite take_length; lia).
    specialize (L ($", env: " ++ n ++ $")")).
    eapply t_conseq; [apply t_append; [by apply c_take|texts|lia]|].
    intros l' u E' [-> (s' & -> & C & L' & X)]. split; [done|]. exists s'. split_and!; try done; [lia|].
    intros [Eb F]. rewrite (X Eb). f_equal. apply take_ge. rewrite !app_length. cbn in *. lia.
  - assert ((match last s with Some x => Ascii.eqb x closing | None => false end) = false) as ->.
    { destruct (last s) as [x|]; [|done]. apply Ascii.eqb_neq. intros ->. done. }
    specialize (L ($" (env: " ++ n ++ $")")).
    eapply t_conseq; [apply t_append; [done|texts|lia]|].
    intros l' u E' [-> (s' & -> & C & L' & X)]. split; [done|]. exists s'. split_and!; try done; [lia|].
    intros [Eb F]. rewrite (X Eb). f_equal. apply take_ge. rewrite !app_length. cbn in *. lia.
Qed.

(** Attributes *)
Lemma has_lor f x y : has f (N.lor x y) = has f x || has f y.
Proof.
  unfold has. rewrite N.land_lor_distr_r.
  destruct (N.eqb_spec (N.land f x) 0) as [E1|E1], (N.eqb_spec (N.land f y) 0) as [E2|E2]; cbn.
  - by rewrite E1, E2.
  - rewrite E1. cbn. by rewrite (proj2 (N.eqb_neq _ _) E2).
  - rewrite E2, N.lor_0_r. by rewrite (proj2 (N.eqb_neq _ _) E1).
  - destruct (N.eqb_spec (N.lor (N.land f x) (N.land f y)) 0) as [E|E]; [|done].
    apply N.lor_eq_0_iff in E as [E _]. done.
Qed.
Lemma bit_has f k : has f (2 ^ k) = N.testbit f k.
Proof. apply eq_true_iff_eq, has_bit. Qed.
Lemma flag_add (x : bool) t buf d rest :
  length buf = 32%nat -> holds buf d rest -> (length d <= 31)%nat -> c_text t -> (length t <= 31)%nat ->
  exists buf' d' rest', (if x then append_to buf 32 t else Ok buf) = Ok buf' /\ length buf' = 32%nat /\
    holds buf' d' rest' /\ (length d' <= 31)%nat /\ (length d <= length d')%nat /\
    (forall e, (length (d ++ (if x then t else []) ++ e) <= 31)%nat -> d' = d ++ (if x then t else [])).
Proof.
  intros Lb Hb Ld Ct Lt. destruct x.
  - destruct (append_to_ok buf 32 d rest t) as (b' & E & L & K); try done; try lia.
    { change two64 with 18446744073709551616. lia. }
    destruct (Nat.ltb_spec (length d + length t) 32) as [F|F].
    + exists b', (d ++ t), (drop (length t) rest). rewrite app_length. split_and!; try done; try lia.
    + subst b'. exists buf, d, rest. split_and!; try done.
      intros e. rewrite !app_length. lia.
  - exists buf, d, rest. split_and!; try done. intros. by rewrite app_nil_r.
Qed.
Lemma flag_text_ok d :
  exists t, flag_text (d_flags d) = Ok t /\ c_text t /\ (length t <= 31)%nat /\
    ((length (attribute_notes d) <= 31)%nat -> t = attribute_notes d).
Proof.
  unfold flag_text, attribute_notes. rewrite <- !bit_has. cbv zeta.
  change (2 ^ 5)%N with FLAG_EXIT. change (2 ^ 0)%N with FLAG_REQUIRED.
  change (2 ^ 3)%N with FLAG_DEPRECATED. change (2 ^ 4)%N with FLAG_EXPERIMENTAL.
  assert (S0 : holds (replicate 32 (Some terminator)) [] (replicate 31 (Some terminator))).
  { split; [done|]. apply not_elem_of_nil. }
  destruct (flag_add (has (d_flags d) FLAG_EXIT) ($" (exit)") (replicate 32 (Some terminator)) _ _ eq_refl S0)
    as (b1 & d1 & r1 & E1 & L1 & H1 & D1 & M1 & X1); [cbn; lia|lit|cbn; lia|].
  rewrite E1. cbn [rbind].
  destruct (flag_add (has (d_flags d) FLAG_REQUIRED) ($" (required)") _ _ _ L1 H1 D1)
    as (b2 & d2 & r2 & E2 & L2 & H2 & D2 & M2 & X2); [lit|cbn; lia|].
  rewrite E2. cbn [rbind].
  destruct (flag_add (has (d_flags d) FLAG_DEPRECATED) ($" (deprecated)") _ _ _ L2 H2 D2)
    as (b3 & d3 & r3 & E3 & L3 & H3 & D3 & M3 & X3); [lit|cbn; lia|].
  rewrite E3. cbn [rbind].
  destruct (flag_add (has (d_flags d) FLAG_EXPERIMENTAL) ($" (experimental)") _ _ _ L3 H3 D3)
    as (b4 & d4 & r4 & E4 & L4 & H4 & D4 & M4 & X4); [lit|cbn; lia|].
  rewrite E4. cbn [rbind]. rewrite (read_holds _ _ _ H4). exists d4. split; [done|].
  split; [apply H4|]. split; [done|]. intros F.
  pose proof (X1 _ F) as ->. cbn [app] in *.
  pose proof (X2 _ F) as ->. rewrite app_assoc in F.
  pose proof (X3 _ F) as ->. rewrite app_assoc in F.
  rewrite <- (app_nil_r (if has (d_flags d) FLAG_EXPERIMENTAL then _ else _)) in F.
  rewrite (X4 _ F). by rewrite !app_assoc.
Qed.
Lemma t_flag_info l s d :
  c_text s -> Z.of_nat (length s) + 32 < two64 ->
  tr [(l, BStr s)] (append_flag_info l d)
    (extended s 31 (b = true /\ (length (attribute_notes d) <= 31)%nat) (s ++ attribute_notes d)).
Proof.
  intros Cs W. unfold append_flag_info.
  destruct (negb _) eqn:N.
  - assert (attribute_notes d = []) as ->.
    { apply negb_true_iff in N. rewrite !has_lor in N.
      apply orb_false_iff in N as [N1 N2]. apply orb_false_iff in N1 as [N0 N1].
      apply orb_false_iff in N2 as [N2 N3].
      unfold attribute_notes. rewrite <- !bit_has.
      change (2 ^ 5)%N with FLAG_EXIT. change (2 ^ 0)%N with FLAG_REQUIRED.
      change (2 ^ 3)%N with FLAG_DEPRECATED. change (2 ^ 4)%N with FLAG_EXPERIMENTAL.
      by rewrite N0, N1, N2, N3. }
    apply t_ret. split; [done|]. exists s. rewrite app_nil_r. split_and!; try done; lia.
  - destruct (flag_text_ok d) as (t & Et & Ct & Lt & X).
    eapply t_bind; [by apply t_lift|]. intros ? u E' (-> & -> & ->).
    eapply t_conseq; [apply t_append; [done|done|lia]|].
    intros l' u E' [-> (s' & -> & C & L & Y)]. split; [done|]. exists s'. split_and!; try done; [lia|].
    intros [Eb F]. by rewrite (Y Eb), (X F).
Qed.

(** The whole description *)
Lemma t_build c prefix d :
  printf_ok -> showable prefix d ->
  tr [] (build_option_description c prefix d)
    (made (b = true /\ fits prefix d) (Some (description c prefix d))).
Proof.
  intros PO Sh. unfold build_option_description.
  assert (Eh : match d_help d with Some h => h | None => [] end = default [] (d_help d)) by done.
  rewrite Eh. clear Eh. set (help := default [] (d_help d)).
  assert (Ch : c_text help).
  { destruct Sh as [Ht _ _ _]. rewrite !Forall_cons in Ht. destruct Ht as (_ & _ & _ & K & _).
    unfold help. destruct (d_help d); [exact K|lit]. }
  assert (W : Z.of_nat (length help) + 256 * Z.of_nat (length (validators d)) + 1000 < two64) by apply Sh.
  eapply t_bind; [apply t_strdup|]. intros p u E' [-> [(Eb & -> & ->)|(l0 & -> & ->)]].
  { apply t_ret. split; [done|]. by left. }
  eapply t_bind; [apply (t_validator_info c prefix); try done; lia|].
  intros l1 u E' [-> (s1 & -> & C1 & L1 & X1)].
  eapply t_bind; [apply (t_default_info prefix); try done; lia|].
  intros l2 u E' [-> (s2 & -> & C2 & L2 & X2)].
  eapply t_bind; [apply (t_env_info prefix); try done; lia|].
  intros l3 u E' [-> (s3 & -> & C3 & L3 & X3)].
  eapply t_bind; [apply t_flag_info; try done; lia|].
  intros l4 u E' [-> (s4 & -> & C4 & L4 & X4)].
  apply t_ret. split; [done|]. right. exists l4, s4. split_and!; try done.
  intros [Eb [F1 F2 F3 F4]]. f_equal.
  rewrite (X4 (conj Eb F4)), (X3 (conj Eb F3)), (X2 (conj Eb F2)), (X1 (conj Eb F1)).
  unfold description. fold help. fold (validators d). by rewrite <- app_assoc.
Qed.

(** ** Printing *)
Definition prints (exact : Prop) (P : cstr -> Prop) (_ : unit) (u : cstr) (E : cells) : Prop :=
  E = [] /\ (exact -> P u).
Lemma good_endable c : good_config c -> endable c.
Proof. intros [H1 H2]. unfold endable. fold (wrap_room (description_column c) (max_line_width c)). rewrite room_plus by done. lia. Qed.
Lemma t_wrap c text E :
  endable c -> text <> [] ->
  tr E (print_wrapped_text text (description_column c) (max_line_width c)) (fun _ u E' => E' = E /\
    (good_config c -> exists ls, u = layout (spaces (description_column c + 2)) ls /\
       cut_into (max_line_width c - description_column c - 2) text ls)).
Proof.
  intros Hn Ht. destruct (wrapped_ends text (description_column c) (max_line_width c) Hn) as [t Et].
  intros B F [out h] O W. exists tt, t, E, h. rewrite Et. split; [done|]. split; [done|].
  split; [done|]. split; [done|].
  intros [G1 G2]. destruct (wrapped text (description_column c) (max_line_width c) [] h Ht G1 G2) as (ls & K & C).
  rewrite Et in K. injection K as K. by exists ls.
Qed.
Lemma t_description c prefix d head :
  printf_ok -> showable prefix d -> endable c ->
  tr [] (print_option_description c prefix d
           (if (length head <? description_column c)%nat then (description_column c - length head)%nat else 2%nat))
    (prints (b = true /\ fits prefix d /\ good_config c)
       (fun u => entry_text c head (description c prefix d) (head ++ u))).
Proof.
  intros PO Sh Hc. unfold print_option_description.
  set (pad := if (length head <? description_column c)%nat then (description_column c - length head)%nat else 2%nat).
  eapply t_bind; [apply t_put|]. intros [] u E' [-> ->].
  eapply t_bind; [apply t_put|]. intros [] u E' [-> ->].
  eapply t_bind; [apply t_put|]. intros [] u E' [-> ->].
  assert (GAP : (if (pad <? 4)%nat then [newline] else []) ++
                spaces (if (pad <? 4)%nat then description_column c else pad) = gap c head).
  { unfold gap. fold pad. by destruct (pad <? 4)%nat. }
  eapply t_bind; [by apply t_build|].
  intros p u E' [-> [(Eb & -> & ->)|(l & t & -> & -> & Ct & Wt)]].
  { eapply t_conseq; [apply t_put|]. intros [] u E' [-> ->]. split; [done|]. intros [? _]. congruence. }
  eapply t_bind; [apply t_read|]. intros ? u E' (-> & -> & ->).
  destruct t as [|x t].
  - eapply t_bind; [by apply (t_ret _ tt (fun _ u E => u = [] /\ E = [(l, BStr [])]))|].
    intros [] u E' [-> ->]. eapply t_bind; [apply t_free|]. intros [] u E' [-> ->].
    eapply t_conseq; [apply t_put|]. intros [] u E' [-> ->]. split; [done|].
    intros (Eb & F & G). specialize (Wt (conj Eb F)). injection Wt as ->.
    exists []. split; [|by left]. cbn [app layout]. rewrite <- GAP, <- !app_assoc. done.
  - eapply t_bind; [by apply t_wrap|]. intros [] u E' [-> K].
    eapply t_bind; [apply t_free|]. intros [] v E' [-> ->].
    eapply t_conseq; [apply t_put|]. intros [] v E' [-> ->]. split; [done|].
    intros (Eb & F & G). specialize (Wt (conj Eb F)). injection Wt as ->.
    destruct (K G) as (ls & -> & C). exists ls. split; [|by right].
    cbn [app]. rewrite <- GAP, <- !app_assoc. done.
Qed.
Lemma t_option_name c prefix d indent :
  printf_ok -> showable prefix d -> indent = option_indent c ->
  tr [] (print_option_name c d indent) (fun w u E => E = [] /\ w = length u /\
    (b = true /\ fits prefix d /\ fits_hint c d -> u = option_head c d)).
Proof.
  intros PO Sh ->. unfold print_option_name, option_head.
  assert (EN : (if Ascii.eqb (d_sname d) terminator then []
     else $"-" ++ [d_sname d] ++ match d_lname d with Some _ => $", " | None => [] end) ++
    match d_lname d with Some l => $"--" ++ l | None => [] end = option_names d).
  { unfold option_names. by destruct (Ascii.eqb (d_sname d) terminator), (d_lname d). }
  rewrite EN. eapply t_bind; [apply t_put|]. intros [] u E' [-> ->].
  assert (LN : (option_indent c + length (option_names d))%nat =
               length (spaces (option_indent c) ++ option_names d)).
  { rewrite app_length. unfold spaces. by rewrite replicate_length. }
  rewrite LN. destruct (N.eqb (d_vtype d) VT_FLAG).
  { apply t_ret. rewrite !app_nil_r. done. }
  assert (Ht : opt_text (d_hint d)).
  { destruct Sh as [Ht _ _ _]. rewrite !Forall_cons in Ht. apply Ht. }
  eapply t_bind; [apply t_smart_hint; try done; apply Sh|].
  intros p u E' [-> [(Eb & -> & ->)|(l & t & -> & -> & Ct & Wt)]].
  { apply t_ret. rewrite !app_nil_r. split_and!; try done. intros (? & _). congruence. }
  eapply t_bind; [apply t_read|]. intros ? u E' (-> & -> & ->).
  set (hint := $" <" ++ _).
  eapply t_bind; [apply t_put|]. intros [] u E' [-> ->].
  eapply t_bind; [apply t_free|]. intros [] u E' [-> ->].
  apply t_ret. cbn [app]. rewrite app_nil_r. split; [done|]. split; [by rewrite (app_length _ hint)|].
  intros (Eb & [F1 _ _ _] & FH). specialize (Wt (conj Eb (short_whole _ F1))). injection Wt as <-.
  rewrite <- app_assoc. f_equal. f_equal. unfold hint. f_equal.
  change ([">"%char]) with ($">"). f_equal. unfold collection_hint, repeated, fits_hint in *.
  rewrite !has_lor in FH. unfold snprintf.
  unfold repeated in FH.
  destruct (has (d_vtype d) VT_VARIADIC).
  { apply take_ge. apply FH. done. }
  destruct (has (d_vtype d) VT_ARRAY).
  { apply take_ge. apply FH. done. }
  destruct (has (d_vtype d) VT_MAP); [|done].
  apply take_ge. by apply FH.
Qed.
Definition exact (c : helper_config) (prefix : option cstr) (d : decl) : Prop :=
  b = true /\ good_config c /\ fits prefix d.
Lemma t_print_option c prefix d :
  printf_ok -> showable prefix d -> endable c ->
  tr [] (print_option c prefix d (option_indent c))
    (prints (exact c prefix d /\ fits_hint c d)
       (entry_text c (option_head c d) (description c prefix d))).
Proof.
  intros PO Sh Hc. unfold print_option.
  eapply t_bind; [by apply (t_option_name c prefix)|]. intros w u E' (-> & -> & X).
  eapply t_conseq; [by apply t_description|]. intros [] v E' [-> K]. split; [done|].
  intros ((Eb & G & F) & FH). rewrite (X ltac:(done)) in K. rewrite (X ltac:(done)). by apply K.
Qed.
Lemma t_print_positional c prefix d :
  printf_ok -> showable prefix d -> endable c -> is_Some (d_name d) ->
  tr [] (print_positional c prefix d (option_indent c))
    (prints (exact c prefix d) (entry_text c (positional_head c d) (description c prefix d))).
Proof.
  intros PO Sh Hc [n En]. unfold print_positional, positional_head. rewrite En. cbn [dname default].
  eapply t_bind; [by apply (t_ret _ n (fun a u E => a = n /\ u = [] /\ E = []))|].
  intros ? u E' (-> & -> & ->). eapply t_bind; [apply t_put|]. intros [] u E' [-> ->].
  assert (EB : bracketed d n = argument_words d n).
  { unfold bracketed, argument_words. rewrite <- bit_has. change (2 ^ 0)%N with FLAG_REQUIRED.
    destruct (has (d_flags d) FLAG_REQUIRED); by rewrite <- !app_assoc. }
  rewrite EB.
  assert (LB : (option_indent c + length n + (if has (d_vtype d) VT_VARIADIC then 5 else 2))%nat =
               length (spaces (option_indent c) ++ argument_words d n)).
  { rewrite <- EB. unfold bracketed, spaces. rewrite app_length, replicate_length.
    destruct (has (d_flags d) FLAG_REQUIRED), (has (d_vtype d) VT_VARIADIC);
      rewrite !app_length; cbn; lia. }
  rewrite LB. eapply t_conseq; [by apply t_description|]. intros [] v E' [-> K]. split; [done|].
  intros (Eb & G & F). by apply K.
Qed.
Lemma t_print_subcommand c prefix d :
  printf_ok -> showable prefix d -> endable c -> is_Some (d_name d) ->
  tr [] (print_subcommand c prefix d (option_indent c))
    (prints (exact c prefix d) (entry_text c (command_head c d) (description c prefix d))).
Proof.
  intros PO Sh Hc [n En]. unfold print_subcommand, command_head. rewrite En. cbn [dname default].
  eapply t_bind; [by apply (t_ret _ n (fun a u E => a = n /\ u = [] /\ E = []))|].
  intros ? u E' (-> & -> & ->). eapply t_bind; [apply t_put|]. intros [] u E' [-> ->].
  assert (LB : (option_indent c + length n)%nat = length (spaces (option_indent c) ++ n)).
  { unfold spaces. by rewrite app_length, replicate_length. }
  rewrite LB. eapply t_conseq; [by apply t_description|]. intros [] v E' [-> K]. split; [done|].
  intros (Eb & G & F). by apply K.
Qed.
End desc.
