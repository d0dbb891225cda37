(** * Proofs about the structure check *)
From Verif Require Import Validate LibProofs FrameProofs SpecGrammar GrammarProofs GrammarLemmas
  SpecAfter AfterProofs EnvProofs WholeProofs AfterFacts SpecStructure.
From Coq Require Import Lia.

(** ** Flags *)
Lemma other_bits f m : has_other f m = false <-> forall b, N.testbit f b = true -> N.testbit m b = true.
Proof.
  unfold has_other. rewrite negb_false_iff, N.eqb_eq. split.
  - intros E b Hb. destruct (N.testbit m b) eqn:Em; [done|].
    assert (E' : N.testbit (N.ldiff f m) b = true) by (rewrite N.ldiff_spec, Hb, Em; done).
    rewrite E, N.bits_0 in E'. done.
  - intros E. apply N.bits_inj_0. intros b. rewrite N.ldiff_spec.
    destruct (N.testbit f b) eqn:Ef; [|done]. rewrite (E b Ef). done.
Qed.
Lemma mask_bits m (bits : list N) :
  forallb (fun b => Bool.eqb (N.testbit m b) (bool_decide (b ∈ bits))) (map N.of_nat (seq 0 20)) = true ->
  (m < 2 ^ 20)%N -> (forall b, b ∈ bits -> (b < 20)%N) ->
  forall b, N.testbit m b = true <-> b ∈ bits.
Proof.
  intros Hf Hm Hb b. destruct (decide (b < 20)%N) as [Hlt|Hge].
  - rewrite forallb_forall in Hf. specialize (Hf b). rewrite Bool.eqb_true_iff in Hf.
    rewrite Hf; [apply bool_decide_eq_true|]. apply in_map_iff. exists (N.to_nat b).
    split; [lia|]. apply in_seq. lia.
  - split; [|intros Hi; apply Hb in Hi; lia]. intros Ht.
    assert (Hz : N.testbit m b = false); [|congruence].
    destruct (decide (m = 0)%N) as [->|]; [apply N.bits_0|].
    apply N.bits_above_log2. apply N.log2_lt_pow2; [lia|].
    eapply N.lt_le_trans; [exact Hm|]. apply N.pow_le_mono_r; lia.
Qed.
Lemma flags_spec d m (bits : list N) :
  forallb (fun b => Bool.eqb (N.testbit m b) (bool_decide (b ∈ bits))) (map N.of_nat (seq 0 20)) = true ->
  (m < 2 ^ 20)%N -> forallb (fun b => (b <? 20)%N) bits = true ->
  has_other (d_flags d) m = false <-> flags_among d bits.
Proof.
  intros H1 H2 H3. rewrite other_bits. unfold flags_among.
  assert (Hm := mask_bits m bits H1 H2). rewrite forallb_forall in H3.
  assert (Hb : forall b, b ∈ bits -> (b < 20)%N).
  { intros b Hb. apply N.ltb_lt, H3. by apply elem_of_list_In. }
  specialize (Hm Hb). split; intros E b Hx; apply Hm, E, Hx.
Qed.
Lemma required_bit d : has (d_flags d) FLAG_REQUIRED = true <-> required d.
Proof. change FLAG_REQUIRED with (2 ^ 0)%N. by rewrite has_bit. Qed.

(** ** Placement *)
Definition placed (T : list decl) : Prop :=
  (forall i j d e, (i < j)%nat -> T !! i = Some d -> T !! j = Some e ->
     positional d -> ~ required d -> positional e -> ~ required e) /\
  (forall i j d e, (i < j)%nat -> T !! i = Some d -> T !! j = Some e ->
     positional d -> required d -> variadic d -> ~ positional e) /\
  (forall d e, d ∈ T -> e ∈ T -> positional d -> required d -> ~ variadic d ->
     d_type e <> TSubcommand) /\
  (forall i j d e, (i < j)%nat -> T !! i = Some d -> T !! j = Some e ->
     d_type d = TSubcommand -> d_type e <> TOption).
Definition optional_pos d := positional d /\ ~ required d.
Definition many_pos d := positional d /\ required d /\ variadic d.
Definition single_pos d := positional d /\ required d /\ ~ variadic d.

Lemma placed_snoc T d : placed (T ++ [d]) <->
  placed T /\
  (forall e, e ∈ T -> optional_pos e -> positional d -> ~ required d) /\
  (forall e, e ∈ T -> many_pos e -> ~ positional d) /\
  (forall e, e ∈ T -> single_pos e -> d_type d <> TSubcommand) /\
  (forall e, e ∈ T -> single_pos d -> d_type e <> TSubcommand) /\
  (forall e, e ∈ T -> d_type e = TSubcommand -> d_type d <> TOption).
Proof.
  assert (Hin : forall i e, T !! i = Some e -> (i < length T)%nat) by (intros; by eapply lookup_lt_Some).
  assert (Hd : (T ++ [d]) !! length T = Some d) by (apply lookup_snoc_Some; auto).
  assert (Hl : forall i e, T !! i = Some e -> (T ++ [d]) !! i = Some e).
  { intros. by apply lookup_app_l_Some. }
  assert (HdT : d ∈ T ++ [d]) by (by eapply elem_of_list_lookup_2).
  assert (HT : forall e, e ∈ T -> e ∈ T ++ [d]) by (intros; apply elem_of_app; by left).
  unfold optional_pos, many_pos, single_pos. split.
  - intros (P1 & P2 & P3 & P4). split; [|split_and!].
    + split_and!.
      * intros i j x y Hij Hi Hj. exact (P1 i j x y Hij (Hl _ _ Hi) (Hl _ _ Hj)).
      * intros i j x y Hij Hi Hj. exact (P2 i j x y Hij (Hl _ _ Hi) (Hl _ _ Hj)).
      * intros x y Hx Hy. exact (P3 x y (HT _ Hx) (HT _ Hy)).
      * intros i j x y Hij Hi Hj. exact (P4 i j x y Hij (Hl _ _ Hi) (Hl _ _ Hj)).
    + intros e He [He1 He2]. apply elem_of_list_lookup in He as [i Hi].
      exact (P1 i (length T) e d (Hin _ _ Hi) (Hl _ _ Hi) Hd He1 He2).
    + intros e He (He1 & He2 & He3). apply elem_of_list_lookup in He as [i Hi].
      exact (P2 i (length T) e d (Hin _ _ Hi) (Hl _ _ Hi) Hd He1 He2 He3).
    + intros e He (He1 & He2 & He3). exact (P3 e d (HT _ He) HdT He1 He2 He3).
    + intros e He (He1 & He2 & He3). exact (P3 d e HdT (HT _ He) He1 He2 He3).
    + intros e He He1. apply elem_of_list_lookup in He as [i Hi].
      exact (P4 i (length T) e d (Hin _ _ Hi) (Hl _ _ Hi) Hd He1).
  - intros ((P1 & P2 & P3 & P4) & Q1 & Q2 & Q3 & Q4 & Q5).
    assert (Hdd : forall e, positional e -> d_type e <> TSubcommand) by (unfold positional; congruence).
    split_and!.
    + intros i j x y Hij Hi Hj. apply lookup_snoc_Some in Hj as [(? & Hj)|(-> & ->)].
      * apply lookup_snoc_Some in Hi as [(? & Hi)|(-> & ->)]; [|lia]. exact (P1 i j x y Hij Hi Hj).
      * apply lookup_snoc_Some in Hi as [(? & Hi)|(-> & ->)]; [|lia]. apply elem_of_list_lookup_2 in Hi. naive_solver.
    + intros i j x y Hij Hi Hj. apply lookup_snoc_Some in Hj as [(? & Hj)|(-> & ->)].
      * apply lookup_snoc_Some in Hi as [(? & Hi)|(-> & ->)]; [|lia]. exact (P2 i j x y Hij Hi Hj).
      * apply lookup_snoc_Some in Hi as [(? & Hi)|(-> & ->)]; [|lia]. apply elem_of_list_lookup_2 in Hi. naive_solver.
    + intros x y Hx Hy. rewrite elem_of_app, elem_of_list_singleton in Hx, Hy.
      destruct Hx as [Hx| ->], Hy as [Hy| ->]; intros.
      * by apply (P3 x y).
      * by apply (Q3 x).
      * by apply (Q4 y).
      * by apply Hdd.
    + intros i j x y Hij Hi Hj. apply lookup_snoc_Some in Hj as [(? & Hj)|(-> & ->)].
      * apply lookup_snoc_Some in Hi as [(? & Hi)|(-> & ->)]; [|lia]. exact (P4 i j x y Hij Hi Hj).
      * apply lookup_snoc_Some in Hi as [(? & Hi)|(-> & ->)]; [|lia]. apply elem_of_list_lookup_2 in Hi. naive_solver.
Qed.

Definition some_in (T : list decl) (P : decl -> Prop) : Prop := exists d, d ∈ T /\ P d.
Lemma some_in_snoc T d P : some_in (T ++ [d]) P <-> some_in T P \/ P d.
Proof.
  unfold some_in. setoid_rewrite elem_of_app. setoid_rewrite elem_of_list_singleton. naive_solver.
Qed.
Record pl_inv (s : placement) (T : list decl) : Prop := PlInv {
  pi_pos : p_pos s = true <-> some_in T single_pos;
  pi_opt : p_opt_pos s = true <-> some_in T optional_pos;
  pi_many : p_many s = true <-> some_in T many_pos;
  pi_sub : p_sub s = true <-> some_in T (fun d => d_type d = TSubcommand);
  pi_help : p_help s = true <-> some_in T (fun d => d_type d = TOption /\ d_name d = Some ($"help"));
  pi_status : p_status s = 0 <-> placed T;
}.
Lemma type_is_spec t d : type_is t d = true <-> d_type d = t.
Proof. apply bool_decide_eq_true. Qed.
Lemma type_is_not t d : type_is t d = false <-> d_type d <> t.
Proof. apply bool_decide_eq_false. Qed.


Lemma placed_snoc' T d : placed (T ++ [d]) <->
  placed T /\
  ~ (some_in T optional_pos /\ positional d /\ required d) /\
  ~ (some_in T many_pos /\ positional d) /\
  ~ (some_in T single_pos /\ d_type d = TSubcommand) /\
  ~ (some_in T (fun e => d_type e = TSubcommand) /\ single_pos d) /\
  ~ (some_in T (fun e => d_type e = TSubcommand) /\ d_type d = TOption).
Proof. rewrite placed_snoc. unfold some_in. naive_solver. Qed.
Lemma placed_apart T : placed T ->
  ~ (some_in T optional_pos /\ some_in T many_pos) /\
  ~ (some_in T single_pos /\ some_in T (fun e => d_type e = TSubcommand)).
Proof.
  intros (P1 & P2 & P3 & P4). split.
  - intros [(d & Hd & Hp & Hr) (e & He & Hp' & Hr' & Hv)].
    apply elem_of_list_lookup in Hd as [i Hi]. apply elem_of_list_lookup in He as [j Hj].
    destruct (lt_eq_lt_dec i j) as [[Hl| ->]|Hl].
    + by apply (P1 i j d e).
    + congruence.
    + by apply (P2 j i e d).
  - intros [(d & Hd & Hp & Hr & Hv) (e & He & Hs)]. by apply (P3 d e).
Qed.

Lemma pl_step s T o : pl_inv s T -> pl_inv (placement_step s o) (T ++ [decl_of o]).
Proof.
  intros [H1 H2 H3 H4 H5 H6]. set (d := decl_of o).
  assert (Hh : (type_is TOption d &&
     match d_name d with Some n => strcmp n ($"help") =? 0 | None => false end) = true <->
     d_type d = TOption /\ d_name d = Some ($"help")).
  { rewrite andb_true_iff, type_is_spec. destruct (d_name d) as [n|]; [|naive_solver].
    rewrite strcmp_eqb, bool_decide_eq_true. naive_solver. }
  pose proof (required_bit d) as Hr. pose proof (variadic_dec d) as Hv.
  pose proof (type_is_spec TPositional d) as Hp. pose proof (type_is_spec TSubcommand d) as Hs.
  pose proof (type_is_spec TOption d) as Ho.
  assert (Hex : (d_type d = TPositional -> d_type d <> TSubcommand /\ d_type d <> TOption) /\
    (d_type d = TSubcommand -> d_type d <> TOption)) by (split; [split|]; congruence).
  assert (Hap := placed_apart T). assert (Hsn := placed_snoc' T d).
  unfold placement_step. fold d.
  set (hb := (type_is TOption d && _)) in *.
  assert (Ep : single_pos d <-> d_type d = TPositional /\ required d /\ ~ variadic d) by done.
  assert (Ep' : many_pos d <-> d_type d = TPositional /\ required d /\ variadic d) by done.
  assert (Ep'' : optional_pos d <-> d_type d = TPositional /\ ~ required d) by done.
  change (positional d) with (d_type d = TPositional) in Hsn.
  assert (Hpv : single_pos d <-> type_is TPositional d && has (d_flags d) FLAG_REQUIRED &&
    negb (has (d_vtype d) VT_VARIADIC) = true).
  { rewrite Ep, !andb_true_iff, negb_true_iff, Hp, Hr, <- Hv, not_true_iff_false. tauto. }
  assert (Hmv : many_pos d <-> type_is TPositional d && has (d_flags d) FLAG_REQUIRED &&
    has (d_vtype d) VT_VARIADIC = true).
  { rewrite Ep', !andb_true_iff, Hp, Hr, Hv. tauto. }
  assert (Hov : optional_pos d <-> type_is TPositional d && negb (has (d_flags d) FLAG_REQUIRED) = true).
  { rewrite Ep'', !andb_true_iff, negb_true_iff, Hp, <- Hr, not_true_iff_false. tauto. }
  split; rewrite ?some_in_snoc.
  - rewrite Hpv, <- H1. clear. destruct (type_is TPositional d), (has (d_flags d) FLAG_REQUIRED),
      (has (d_vtype d) VT_VARIADIC), (p_pos s); simpl; tauto.
  - rewrite Hov, <- H2. clear. destruct (type_is TPositional d), (has (d_flags d) FLAG_REQUIRED),
      (has (d_vtype d) VT_VARIADIC), (p_opt_pos s); simpl; tauto.
  - rewrite Hmv, <- H3. clear. destruct (type_is TPositional d), (has (d_flags d) FLAG_REQUIRED),
      (has (d_vtype d) VT_VARIADIC), (p_many s); simpl; tauto.
  - rewrite <- Hs, <- H4. clear. destruct (type_is TPositional d), (has (d_flags d) FLAG_REQUIRED),
      (has (d_vtype d) VT_VARIADIC), (type_is TSubcommand d), (p_sub s); simpl; tauto.
  - rewrite <- Hh, <- H5. clear. destruct (type_is TPositional d), (has (d_flags d) FLAG_REQUIRED),
      (has (d_vtype d) VT_VARIADIC), hb, (p_help s); simpl; tauto.
  - rewrite Hsn, Hpv, <- H1, <- H2, <- H3, <- H4, <- H6, <- Hr, <- Hp, <- Hs, <- Ho.
    rewrite <- H1, <- H2, <- H3, <- H4, <- H6, <- !andb_true_iff in Hap.
    rewrite <- Hp, <- Hs, <- Ho in Hex. rewrite <- !Z.eqb_eq in *.
    rewrite <- !andb_true_iff, !not_true_iff_false, <- !negb_true_iff in *.
    rewrite <- !andb_true_iff. apply Bool.eq_iff_eq_true.
    clear -Hap Hex. unfold STRUCT_ERROR, E_MALFORMED_OPTION.
    assert (Hif : forall (c : bool) k st, (k =? 0) = false -> ((if c then k else st) =? 0) = negb c && (st =? 0)).
    { intros [] ? ? Hk; simpl; done. }
    destruct (type_is TPositional d), (has (d_flags d) FLAG_REQUIRED), (has (d_vtype d) VT_VARIADIC);
      cbn [negb andb orb p_status]; rewrite !Hif by done;
      destruct (type_is TSubcommand d), (type_is TOption d),
        (p_sub s), (p_many s), (p_pos s), (p_opt_pos s), (p_status s =? 0);
      cbn [negb andb orb] in *; try reflexivity; exfalso; clear Hif;
      destruct Hex as [Hex1 Hex2];
      try (destruct (Hap eq_refl); discriminate); try (specialize (Hex2 eq_refl); discriminate);
      destruct (Hex1 eq_refl); discriminate.
Qed.
Lemma pl_fold T : pl_inv (fold_left placement_step T (Placement false false false false false SUCCESS)) (map decl_of T).
Proof.
  induction T as [|o T IH] using rev_ind.
  - split; simpl; try (split; [done|]; intros (? & Hx & _); by apply elem_of_nil in Hx).
    split; [|done]. intros _. split_and!; intros *; try done; intros Hx; by apply elem_of_nil in Hx.
  - rewrite fold_left_app, map_app. simpl. by apply pl_step.
Qed.
Lemma placement_spec T : validate_placement T = 0 <-> well_placed (map decl_of T).
Proof.
  unfold validate_placement. destruct (pl_fold T) as [_ _ _ _ H5 H6].
  destruct (p_help _).
  - rewrite H6. split.
    + intros (? & ? & ? & ?). split; try done. by apply H5.
    + intros []. done.
  - split; [done|]. intros [Hh _ _ _ _]. apply H5 in Hh. done.
Qed.

(** ** Names *)
Lemma str_is_spec a b : str_is a b = true <-> a = Some b.
Proof.
  destruct a as [s|]; simpl; [|done]. rewrite strcmp_eqb, bool_decide_eq_true. naive_solver.
Qed.
Lemma unique_spec l T : lname_is_unique l T = 0 <->
  forall n d, l = Some n -> d ∈ map decl_of T -> d_name d <> Some n /\ d_lname d <> Some n.
Proof.
  unfold lname_is_unique. destruct l as [n|]; [|split; [|done]; by intros _ ? ? [=]].
  destruct (existsb _ T) eqn:E.
  - split; [done|]. intros Hn. apply existsb_elem in E as (o & Ho & E).
    destruct (Hn n (decl_of o)) as [N1 N2]; [done|by apply elem_of_list_fmap_1|].
    apply orb_true_iff in E as [E|E]; apply str_is_spec in E; done.
  - split; [|done]. intros _ m d [= <-] Hd. apply elem_of_list_fmap in Hd as (o & -> & Ho).
    rewrite existsb_elem_false in E. specialize (E o Ho). apply orb_false_iff in E as [E1 E2].
    split; intros Hx; apply str_is_spec in Hx; congruence.
Qed.

(** What validate_naming asks of one entry *)
Definition name_ok (d : decl) : Prop :=
  (d_type d <> TGroup -> exists n, d_name d = Some n /\ n <> []) /\
  (d_sname d <> " "%char /\ d_sname d <> "-"%char) /\
  (forall l, d_lname d = Some l ->
    l <> [] /\ (forall s, l <> "-"%char :: s) /\ " "%char ∉ l /\ "."%char ∉ l).
Lemma contains_spec l c : contains l c = false <-> c ∉ l.
Proof.
  unfold contains. destruct (strchr l c) eqn:E.
  - split; [done|]. intros Hn. apply strchr_None in Hn. congruence.
  - apply strchr_None in E. done.
Qed.
Lemma name_ok_spec d used :
  (match d_name d with Some n => is_empty n | None => true end && negb (type_is TGroup d) ||
   (Ascii.eqb (d_sname d) space_char || Ascii.eqb (d_sname d) hyphen ||
    (negb (Ascii.eqb (d_sname d) NUL) && existsb (Ascii.eqb (d_sname d)) used)) ||
   match d_lname d with
   | None => false
   | Some l => first_is l hyphen || contains l space_char || contains l dot || is_empty l
   end) = false <->
  name_ok d /\ (d_sname d ∈ used -> d_sname d = Ascii.zero).
Proof.
  rewrite !orb_false_iff, !andb_false_iff, !negb_false_iff. unfold name_ok.
  assert (H1 : (match d_name d with Some n => is_empty n | None => true end = false \/
      type_is TGroup d = true) <-> (d_type d <> TGroup -> exists n, d_name d = Some n /\ n <> [])).
  { rewrite type_is_spec. destruct (decide (d_type d = TGroup)) as [Hg|Hg].
    { split; [done|]. by right. }
    destruct (d_name d) as [[|c n]|]; simpl; split; try naive_solver. }
  assert (H2 : (Ascii.eqb (d_sname d) NUL = true \/ existsb (Ascii.eqb (d_sname d)) used = false) <->
     (d_sname d ∈ used -> d_sname d = Ascii.zero)).
  { rewrite Ascii.eqb_eq. split.
    - intros [E|E] Hu; [done|]. rewrite existsb_elem_false in E. specialize (E _ Hu).
      rewrite Ascii.eqb_refl in E. done.
    - intros E. destruct (decide (d_sname d ∈ used)) as [Hi|Hi]; [left; by apply E|right].
      apply existsb_elem_false. intros x Hx. apply Ascii.eqb_neq. congruence. }
  assert (H3 : match d_lname d with
   | None => false
   | Some l => first_is l hyphen || contains l space_char || contains l dot || is_empty l
   end = false <-> (forall l, d_lname d = Some l ->
    l <> [] /\ (forall s, l <> "-"%char :: s) /\ " "%char ∉ l /\ "."%char ∉ l)).
  { destruct (d_lname d) as [l|]; [|split; [by intros _ ? [=]|done]].
    rewrite !orb_false_iff, !contains_spec.
    assert (Hf : first_is l hyphen = false <-> (forall s, l <> "-"%char :: s)).
    { destruct l as [|c l]; simpl; [split; [by intros _ ? [=]|done]|]. rewrite Ascii.eqb_neq.
      split; [intros Hn s [= -> _]; done|intros Hn ->; by eapply Hn]. }
    assert (He : is_empty l = false <-> l <> []) by (by destruct l).
    rewrite Hf, He. unfold space_char, dot. split.
    - intros [[[? ?] ?] ?] ? [= <-]. done.
    - intros Hx. destruct (Hx l eq_refl) as (? & ? & ? & ?). done. }
  rewrite H1, H2, H3, !Ascii.eqb_neq. unfold space_char, hyphen. tauto.
Qed.

Lemma naming_from T : forall used st, validate_naming_from T used st = 0 <->
  st = 0 /\ well_named (map decl_of T) /\
  forall d, d ∈ map decl_of T -> d_sname d ∈ used -> d_sname d = Ascii.zero.
Proof.
  induction T as [|o T IH]; intros used st; cbn [validate_naming_from map].
  { split; [|by intros [? _]]. intros ->. split; [done|]. split; [|intros d Hx; by apply elem_of_nil in Hx].
    split; intros *; try (intros Hx; by apply elem_of_nil in Hx); try done. }
  rewrite IH. set (d := decl_of o). set (Ts := map decl_of T).
  set (used' := if Ascii.eqb (d_sname d) NUL then used else d_sname d :: used).
  assert (Hu : forall c, c ∈ used' -> c <> Ascii.zero -> c = d_sname d \/ c ∈ used).
  { intros c. unfold used'. destruct (Ascii.eqb_spec (d_sname d) NUL); [naive_solver|].
    rewrite elem_of_cons. naive_solver. }
  assert (Hu' : forall c, c ∈ used -> c ∈ used').
  { intros c ?. unfold used'. destruct (Ascii.eqb _ _); [done|]. by apply elem_of_cons; right. }
  assert (Hd' : d_sname d <> Ascii.zero -> d_sname d ∈ used').
  { intros Hn. unfold used'. destruct (Ascii.eqb_spec (d_sname d) NUL) as [E|E]; [done|].
    apply elem_of_cons. by left. }
  pose proof (name_ok_spec d used) as Hok. pose proof (unique_spec (d_lname d) T) as Hun. fold Ts in Hun.
  match goal with |- context [if ?b || negb ?c then _ else _] => set (bad := b) in *; set (un := c) end.
  assert (Hun' : un = true <-> lname_is_unique (d_lname d) T = 0) by apply Z.eqb_eq.
  assert (Hst : (if bad || negb un then E_MALFORMED_OPTION else st) = 0 <-> bad = false /\ un = true /\ st = 0).
  { destruct bad, un; simpl; split; try done; try (by intros (? & ? & ?)). }
  rewrite Hst, Hun', Hun, Hok. clear Hst Hun' Hun Hok bad un. split.
  - intros ((Hn & Hun & ->) & HW & Hused). destruct Hn as ((N1 & N2 & N3) & Nu). split; [done|].
    destruct HW as [W1 W2 W3 W4 W5 W6]. split; [split|].
    + intros x Hx. apply elem_of_cons in Hx as [->|Hx]; [done|by apply W1].
    + intros i j x y Hij Hi Hj He. destruct i as [|i], j as [|j]; simpl in Hi, Hj; [done| | |].
      * injection Hi as <-. destruct (decide (d_sname d = Ascii.zero)); [done|].
        rewrite He. apply (Hused y); [by eapply elem_of_list_lookup_2|]. rewrite <- He. auto.
      * injection Hj as <-. destruct (decide (d_sname d = Ascii.zero)); [congruence|].
        apply (Hused x); [by eapply elem_of_list_lookup_2|]. rewrite He. auto.
      * apply (W2 i j x y); [congruence|done..].
    + intros i j x y l Hij Hi Hj Hl. destruct i as [|i], j as [|j]; simpl in Hi, Hj; [done| | |].
      * injection Hi as <-. apply (Hun l y Hl). by eapply elem_of_list_lookup_2.
      * injection Hj as <-. intros Hl'. destruct (Hun l x Hl'); [by eapply elem_of_list_lookup_2|done].
      * apply (W3 i j x y); [congruence|done..].
    + intros i j x y l Hij Hi Hj Hl. destruct j as [|j]; [lia|]. destruct i as [|i]; simpl in Hi, Hj.
      * injection Hi as <-. apply (Hun l y Hl). by eapply elem_of_list_lookup_2.
      * apply (W4 i j x y); [lia|done..].
    + intros x l Hx Hl. apply elem_of_cons in Hx as [->|Hx]; [by apply N3|by eapply W5].
    + intros x Hx. apply elem_of_cons in Hx as [->|Hx]; [done|by apply W6].
    + intros x Hx Hu2. apply elem_of_cons in Hx as [->|Hx]; [by apply Nu|]. eauto.
  - intros (-> & [W1 W2 W3 W4 W5 W6] & Hused).
    assert (Hd : d ∈ d :: Ts) by (apply elem_of_cons; by left).
    assert (HT : forall x, x ∈ Ts -> x ∈ d :: Ts) by (intros; apply elem_of_cons; by right).
    split; [split_and!|split; [split|]]; try done.
    + split; [|split]; [by apply W1|by apply W6|by intros; eapply W5].
    + by apply Hused.
    + intros l x Hl Hx. apply elem_of_list_lookup in Hx as [j Hj]. split.
      * apply (W4 0%nat (S j) d x l); [lia|done..].
      * apply (W3 0%nat (S j) d x l); [lia|done..].
    + intros x Hx. apply W1; auto.
    + intros i j x y Hij Hi Hj. apply (W2 (S i) (S j) x y); [congruence|done..].
    + intros i j x y l Hij Hi Hj. apply (W3 (S i) (S j) x y); [congruence|done..].
    + intros i j x y l Hij Hi Hj. apply (W4 (S i) (S j) x y); [lia|done..].
    + intros x l Hx. apply W5; auto.
    + intros x Hx. apply W6; auto.
    + intros x Hx Hux. destruct (decide (d_sname x = Ascii.zero)) as [|Hz]; [done|].
      destruct (Hu _ Hux Hz) as [He|Hu2]; [|by apply Hused; auto].
      apply elem_of_list_lookup in Hx as [j Hj]. apply (W2 (S j) 0%nat x d); done.
Qed.
Lemma naming_spec T : validate_naming T = 0 <-> well_named (map decl_of T).
Proof.
  unfold validate_naming. rewrite naming_from. split; [naive_solver|].
  intros Hw. split; [done|]. split; [done|]. intros ? _ Hx. by apply elem_of_nil in Hx.
Qed.

Section libc.
Context `{Libc}.

(** ** Defaults *)
Lemma accepts_runs f o h : accepts_option f o h -> exists ev, run_validator f (ArgOption o) h = Ok (0, ev).
Proof.
  intros Ha. assert (Hr : exists r, run_validator f (ArgOption o) h = Ok r).
  { destruct f as [mn mx|mn mx|mn mx|p hint|l|l|l|g|g]; simpl in *; try done.
    - unfold range_validator. destruct (mx <? mn); [by eexists|]. destruct Ha as (x & -> & _).
      cbn [rbind]. destruct (_ || _); by eexists.
    - destruct Ha as (s & Hn & Hs & _). unfold length_validator. rewrite Hn. cbn [rbind].
      destruct (_ || _); [by eexists|]. destruct (mx <? mn); [by eexists|]. rewrite Hs. cbn [rbind].
      cbv zeta. destruct (_ || _); by eexists.
    - unfold count_validator. destruct (_ || _); [by eexists|]. destruct (mx <? mn); [by eexists|].
      cbv zeta. destruct (_ || _); by eexists.
    - destruct Ha as (s & Hs & _). unfold choices_string_validator. rewrite Hs. cbn [rbind].
      destruct (existsb _ _); by eexists.
    - destruct Ha as (s & Hs & _). unfold choices_int_validator. rewrite Hs. cbn [rbind].
      destruct (existsb _ _); by eexists.
    - destruct Ha as (s & c & Hs & _). unfold choices_float_validator. rewrite Hs. cbn [rbind].
      destruct (existsb _ _); by eexists.
    - by eexists. }
  destruct Hr as [[st ev] Hr]. destruct (run_post _ _ _ _ _ Hr) as [(-> & _)|(_ & [? _] & _)]; [|done].
  eauto.
Qed.
Lemma accepts_text_runs f v h : accepts_text f v -> exists ev, run_validator f (ArgText v) h = Ok (0, ev).
Proof.
  intros Ha. assert (Hr : exists r, run_validator f (ArgText v) h = Ok r).
  { destruct f as [mn mx|mn mx|mn mx|p hint|l|l|l|g|g]; simpl in *; try done; [|by eexists].
    destruct Ha as (Hx & q & s & -> & -> & Hm). unfold regex_validator. rewrite Hx, Hm. simpl. by eexists. }
  destruct Hr as [[st ev] Hr]. destruct (run_pre _ _ _ _ _ Hr) as [(-> & _)|(_ & ? & _)]; [|done].
  eauto.
Qed.

Definition entry_accepts (o : opt) (h : heap) (e : ventry) : Prop :=
  match v_order e with
  | ORDER_POST => accepts_option (v_fun e) o h
  | ORDER_PRE => d_vtype (decl_of o) = 2%N ->
      exists v, read_str h (d_default (decl_of o)) = Ok v /\ accepts_text (v_fun e) v
  end.
Lemma default_validators_spec o h l : forall st,
  default_validators o h l st = Ok 0 <-> st = 0 /\ forall e, e ∈ l -> entry_accepts o h e.
Proof.
  induction l as [|e l IH]; intros st; cbn [default_validators].
  { split; [|by intros [-> _]]. intros [= ->]. split; [done|]. intros e Hx. by apply elem_of_nil in Hx. }
  assert (Hcons : (forall x, x ∈ e :: l -> entry_accepts o h x) <->
     entry_accepts o h e /\ forall x, x ∈ l -> entry_accepts o h x).
  { setoid_rewrite elem_of_cons. naive_solver. }
  rewrite Hcons. clear Hcons. split.
  - intros E. apply rbind_Ok in E as ([r ev] & E1 & E). cbv zeta in E.
    assert (r = 0 /\ st = 0 /\ forall x, x ∈ l -> entry_accepts o h x) as (-> & -> & HI).
    { destruct (Z.eqb_spec r SUCCESS) as [->|N].
      - destruct (Z.eqb_spec st SUCCESS) as [->|N]; [apply IH in E as [_ E]; done|].
        destruct ev; [done|]. by apply IH in E as [E _].
      - change (E_INVALID_DEFAULT =? SUCCESS) with false in E. cbv iota in E.
        destruct ev; [done|]. by apply IH in E as [E _]. }
    split; [done|]. split; [|done]. unfold entry_accepts. destruct (v_order e) eqn:Eo.
    + intros Ev. change 2%N with VT_STRING in Ev. rewrite Ev in E1. cbn [N.eqb VT_STRING Pos.eqb] in E1.
      apply rbind_Ok in E1 as (s & Es & Er).
      exists s. split; [done|]. destruct (run_pre _ _ _ _ _ Er) as [(_ & ? & _)|(? & _)]; done.
    + destruct (run_post _ _ _ _ _ E1) as [(_ & ? & _)|(? & _)]; done.
  - intros (-> & Ha & HI). unfold entry_accepts in Ha. destruct (v_order e) eqn:Eo.
    + destruct (N.eqb_spec (d_vtype (decl_of o)) VT_STRING) as [Ev|Ev].
      * destruct (Ha Ev) as (v & Hv & Hr). rewrite Hv. cbn [rbind].
        destruct (accepts_text_runs _ _ h Hr) as [ev Er]. rewrite Er. cbn [rbind]. by apply IH.
      * cbn [rbind]. by apply IH.
    + destruct (accepts_runs _ _ _ Ha) as [ev Er]. rewrite Er. cbn [rbind]. by apply IH.
Qed.
Lemma default_value_spec o h : validate_default_value o h = Ok 0 <-> default_ok o h.
Proof.
  unfold validate_default_value, default_ok, validators. destruct (d_have_default (decl_of o)); [|done].
  destruct (N.eqb_spec (d_vtype (decl_of o)) VT_FLAG) as [E|E].
  { change VT_FLAG with 16%N in E. split; [done|]. intros Hd. destruct (Hd eq_refl). done. }
  change VT_FLAG with 16%N in E. destruct (d_validators (decl_of o)) as [l|]; simpl.
  - rewrite default_validators_spec. unfold entry_accepts. naive_solver.
  - split; [|done]. intros _ _. split; [done|]. intros e Hx. by apply elem_of_nil in Hx.
Qed.

(** ** Entries *)
Lemma isSome_spec {A} (x : option A) : isSome x = true <-> is_Some x.
Proof. destruct x; simpl; [by split; eauto|]. split; [done|by intros [? ?]]. Qed.
Lemma isSome_none {A} (x : option A) : isSome x = false <-> x = None.
Proof. by destruct x. Qed.
Lemma status_if (c : bool) (k st : Z) : k <> 0 -> (if c then k else st) = 0 <-> c = false /\ st = 0.
Proof. destruct c; naive_solver. Qed.
Lemma status_if_not (c : bool) (k st : Z) : k <> 0 -> (if c then st else k) = 0 <-> c = true /\ st = 0.
Proof. destruct c; naive_solver. Qed.
Lemma status_0 : SUCCESS = 0 <-> True.
Proof. done. Qed.

Lemma dependencies_spec T d : validate_dependencies T d = 0 <->
  (forall n, n ∈ default [] (d_require d) \/ n ∈ default [] (d_conflict d) ->
     exists e, e ∈ map decl_of T /\ d_name e = Some n) /\
  (forall n, n ∈ default [] (d_require d) -> n ∉ default [] (d_conflict d)).
Proof.
  unfold validate_dependencies.
  assert (Hl : forall l, existsb (fun n => negb (isSome (find_option_by_name T n))) l = false <->
    forall n, n ∈ l -> exists e, e ∈ map decl_of T /\ d_name e = Some n).
  { intros l. rewrite existsb_elem_false. split; intros Hx n Hn; specialize (Hx n Hn).
    - apply negb_false_iff, isSome_spec in Hx as [i Hi]. apply find_name_Some in Hi as (o & Ho & Hn' & _).
      exists (decl_of o). split; [|done]. apply elem_of_list_fmap_1. by eapply elem_of_list_lookup_2.
    - apply negb_false_iff. destruct (find_option_by_name T n) eqn:E; [done|]. exfalso.
      destruct Hx as (e & He & Hne). apply elem_of_list_fmap in He as (o & -> & Ho).
      apply find_name_None in E. by apply (E o Ho). }
  assert (Hb : existsb (fun r => existsb (fun c => strcmp r c =? 0) (default [] (d_conflict d)))
       (default [] (d_require d)) = false <->
     (forall n, n ∈ default [] (d_require d) -> n ∉ default [] (d_conflict d))).
  { rewrite existsb_elem_false. split; intros Hx n Hn.
    - intros Hc. specialize (Hx n Hn). rewrite existsb_elem_false in Hx. specialize (Hx n Hc).
      rewrite strcmp_refl in Hx. done.
    - apply existsb_elem_false. intros c Hc. rewrite strcmp_eqb. apply bool_decide_eq_false.
      intros ->. by apply (Hx c). }
  cbv zeta. rewrite status_if by done. rewrite !orb_false_iff, Hb, !Hl. naive_solver.
Qed.

Lemma vt_if (x v : N) (c : bool) (P : Prop) : (c = false <-> P) ->
  (x =? v)%N && c = false <-> (x = v -> P).
Proof. intros Hc. destruct (N.eqb_spec x v); simpl; naive_solver. Qed.

Lemma option_spec T o h : validate_option T o h = Ok 0 <-> option_ok (map decl_of T) (decl_of o) /\ default_ok o h.
Proof.
  unfold validate_option. cbv zeta. set (d := decl_of o). rewrite <- default_value_spec.
  assert (F1 := flags_spec d OPTION_FLAG_MASK [0; 1; 2; 3; 4; 5]%N ltac:(vm_compute; done) ltac:(done) ltac:(done)).
  assert (F2 := flags_spec d OPTION_ARRAY_FLAG_MASK [3; 4; 9; 10]%N ltac:(vm_compute; done) ltac:(done) ltac:(done)).
  assert (F3 := flags_spec d OPTION_MAP_FLAG_MASK [3; 4; 11; 12; 13]%N ltac:(vm_compute; done) ltac:(done) ltac:(done)).
  assert (Hc : Ascii.eqb (d_sname d) NUL && negb (isSome (d_lname d)) = false <->
    (d_sname d <> Ascii.zero \/ is_Some (d_lname d))).
  { rewrite andb_false_iff, negb_false_iff, isSome_spec, Ascii.eqb_neq. done. }
  pose proof (dependencies_spec T d) as Hdep.
  set (st := if Ascii.eqb (d_sname d) NUL && negb (isSome (d_lname d)) then E_MALFORMED_OPTION else SUCCESS).
  assert (Hdv : forall (x : Z), Ok (if validate_dependencies T d =? SUCCESS
        then (if x =? SUCCESS then
           (if isSome (d_handler d)
             then if isSome (d_help d) then
              if (d_vtype d =? VT_PRIMITIVE)%N && has_other (d_flags d) OPTION_FLAG_MASK
               || (d_vtype d =? VT_ARRAY)%N && has_other (d_flags d) OPTION_ARRAY_FLAG_MASK
               || (d_vtype d =? VT_MAP)%N && has_other (d_flags d) OPTION_MAP_FLAG_MASK
              then E_INVALID_FLAG else st else E_MALFORMED_OPTION
            else E_INVALID_HANDLER) else E_MALFORMED_OPTION) else E_MALFORMED_OPTION) = Ok 0 <->
     x = 0 /\ option_ok (map decl_of T) d).
  { intros x. assert (Hok : forall y : Z, Ok y = Ok 0 <-> y = 0) by naive_solver. rewrite Hok.
    rewrite !status_if_not by done. unfold st. rewrite !status_if by done.
    change SUCCESS with 0. rewrite !Z.eqb_eq, Hdep, !orb_false_iff, Hc, !isSome_spec,
     (vt_if _ _ _ _ F1), (vt_if _ _ _ _ F2), (vt_if _ _ _ _ F3).
    change VT_PRIMITIVE with 15%N. change VT_ARRAY with 224%N. change VT_MAP with 3840%N. split.
    - intros ((D1 & D2) & -> & Hh & He & ((V1 & V2) & V3) & Hcc & _). split; [done|]. by split.
    - intros (-> & [A B C D E (F & G & I)]). split_and!; done. }
  destruct (validate_default_value o h) as [x|]; cbn [rbind].
  - rewrite Hdv. naive_solver.
  - naive_solver.
Qed.
Lemma positional_spec o h : validate_positional o h = Ok 0 <-> positional_ok (decl_of o) /\ default_ok o h.
Proof.
  unfold validate_positional. cbv zeta. set (d := decl_of o). rewrite <- default_value_spec.
  assert (F1 := flags_spec d POSITIONAL_FLAG_MASK [0]%N ltac:(vm_compute; done) ltac:(done) ltac:(done)).
  assert (F2 : has_other (d_flags d) POSITIONAL_FLAG_MASK = false ->
      has_other (d_flags d) POSITIONAL_MANY_FLAG_MASK = false).
  { rewrite !other_bits. intros Hx b Hb. specialize (Hx b Hb). unfold POSITIONAL_MANY_FLAG_MASK.
    rewrite !N.lor_spec. unfold POSITIONAL_FLAG_MASK in Hx. rewrite Hx. by rewrite !orb_true_r. }
  assert (Hr : has (d_flags d) FLAG_REQUIRED && d_have_default d = false <-> (required d -> d_have_default d = false)).
  { pose proof (required_bit d) as Hb. destruct (has _ _), (d_have_default d); simpl; naive_solver. }
  destruct (validate_default_value o h) as [x|]; cbn [rbind]; [|naive_solver].
  assert (Hok : forall y : Z, Ok y = Ok 0 <-> y = 0) by naive_solver. rewrite !Hok.
  repeat ((rewrite status_if by done) || (rewrite status_if_not by done)).
  change SUCCESS with 0. rewrite Hr, orb_false_iff, andb_false_iff, !isSome_none, !isSome_spec, Z.eqb_eq, F1. split.
  - intros (? & -> & ? & ? & ? & ? & ? & ? & ?). split; [|done]. by split.
  - intros ([? ? ? ? [? ?] Hf] & ->). split_and!; try done. right. apply F2. by apply F1.
Qed.
Lemma subcommand_spec d : validate_subcommand d = 0 <-> subcommand_ok d.
Proof.
  unfold validate_subcommand. cbv zeta.
  assert (F1 := flags_spec d SUBCOMMAND_FLAG_MASK [1; 2; 3; 4]%N ltac:(vm_compute; done) ltac:(done) ltac:(done)).
  repeat ((rewrite status_if by done) || (rewrite status_if_not by done)).
  rewrite orb_false_iff, !isSome_none, !isSome_spec, F1. split.
  - intros (? & ? & (? & ?) & ? & ? & ? & ? & ? & ?). by split.
  - intros [? ? ? (? & ? & ? & ? & ?) ?]. split_and!; done.
Qed.
Lemma group_spec d : validate_group d = 0 <-> flags_among d [14]%N.
Proof.
  unfold validate_group. rewrite status_if by done.
  rewrite (flags_spec d GROUP_FLAG_MASK [14]%N ltac:(vm_compute; done) ltac:(done) ltac:(done)).
  change SUCCESS with 0. naive_solver.
Qed.
Lemma type_format_spec T h l : forall st, validate_type_format T l h st = Ok 0 <->
  st = 0 /\ forall o, o ∈ l -> entry_ok (map decl_of T) o h.
Proof.
  induction l as [|o l IH]; intros st; cbn [validate_type_format].
  { split; [|by intros [-> _]]. intros [= ->]. split; [done|]. intros e Hx. by apply elem_of_nil in Hx. }
  assert (Hcons : (forall x, x ∈ o :: l -> entry_ok (map decl_of T) x h) <->
     entry_ok (map decl_of T) o h /\ forall x, x ∈ l -> entry_ok (map decl_of T) x h).
  { setoid_rewrite elem_of_cons. naive_solver. }
  rewrite Hcons.
  assert (He : entry_ok (map decl_of T) o h <->
     match d_type (decl_of o) with
        | TOption => validate_option T o h
        | TPositional => validate_positional o h
        | TGroup => Ok (validate_group (decl_of o))
        | TSubcommand => Ok (validate_subcommand (decl_of o))
     end = Ok 0).
  { unfold entry_ok. destruct (d_type (decl_of o)); cbv zeta.
    - by rewrite option_spec.
    - rewrite <- group_spec. split; [by intros ->|by intros [= ->]].
    - by rewrite positional_spec.
    - rewrite <- subcommand_spec. split; [by intros ->|by intros [= ->]]. }
  cbv zeta. rewrite He. destruct (match d_type (decl_of o) with TOption => _ | _ => _ end) as [r|]; cbn [rbind].
  - rewrite IH, status_if_not by done. change SUCCESS with 0. rewrite Z.eqb_eq. split.
    + by intros ((-> & ->) & ?).
    + by intros (-> & [= ->] & ?).
  - split; [done|]. by intros (_ & ? & _).
Qed.
Lemma table_ok_spec T h : table_ok T h <->
  validate_placement T = 0 /\ validate_naming T = 0 /\ validate_type_format T T h SUCCESS = Ok 0.
Proof.
  rewrite placement_spec, naming_spec, type_format_spec. split.
  - by intros [? ? ?].
  - intros (? & ? & _ & ?). by split.
Qed.

(** ** The recursion over the tables *)
Lemma subs_depth rec l : (forall t d st d', rec t d = Ok (st, d') -> d' = d) ->
  forall st depth st' depth', validate_subs rec l st depth = Ok (st', depth') -> depth' = depth.
Proof.
  intros Hrec. induction l as [|o l IH]; intros st depth st' depth' E; cbn [validate_subs] in E.
  { by injection E as <- <-. }
  destruct (d_type (decl_of o)); try by apply IH in E.
  destruct (d_sub (decl_of o)) as [t|]; [|by apply IH in E].
  apply rbind_Ok in E as ([r depth2] & Er & E). apply Hrec in Er as ->.
  apply IH in E. lia.
Qed.
Lemma structure_depth fuel a : forall t depth st depth',
  validate_structure fuel a t depth = Ok (st, depth') -> depth' = depth.
Proof.
  induction fuel as [|fuel IH]; intros t depth st depth' E; cbn [validate_structure] in E; [done|].
  apply rbind_Ok in E as (T & _ & E). apply rbind_Ok in E as (tf & _ & E).
  eapply subs_depth; [|exact E]. eauto.
Qed.
Lemma subs_spec rec l : (forall t d st d', rec t d = Ok (st, d') -> d' = d) ->
  forall st depth depth', validate_subs rec l st depth = Ok (0, depth') <->
    depth' = depth /\ st = 0 /\
    forall d t, d ∈ map decl_of l -> d_type d = TSubcommand -> d_sub d = Some t ->
      (S depth <= 8)%nat /\ rec t (S depth) = Ok (0, S depth).
Proof.
  intros Hrec. induction l as [|o l IH]; intros st depth depth'; cbn [validate_subs].
  { split; [|by intros (-> & -> & _)]. intros [= -> ->]. split_and!; try done.
    intros d t Hx. by apply elem_of_nil in Hx. }
  set (d := decl_of o). assert (Hskip : (d_type d <> TSubcommand \/ d_sub d = None) ->
     validate_subs rec l st depth = Ok (0, depth') <->
     depth' = depth /\ st = 0 /\
     forall d t, d ∈ map decl_of (o :: l) -> d_type d = TSubcommand -> d_sub d = Some t ->
      (S depth <= 8)%nat /\ rec t (S depth) = Ok (0, S depth)).
  { intros Hn. rewrite IH. split; intros (-> & -> & Hx); (split; [done|]; split; [done|]).
    - intros d' t Hd' Ht Hs. simpl in Hd'. apply elem_of_cons in Hd' as [->|Hd']; [|by eapply Hx].
      fold d in Ht, Hs. destruct Hn; congruence.
    - intros d' t Hd'. apply Hx. by apply elem_of_cons; right. }
  destruct (d_type d) eqn:Et; try (apply Hskip; by left).
  destruct (d_sub d) as [t0|] eqn:Es; [|apply Hskip; by right]. clear Hskip.
  split.
  - intros E. apply rbind_Ok in E as ([r depth2] & Er & E). pose proof (Hrec _ _ _ _ Er) as ->.
    cbn [Nat.sub] in E. rewrite Nat.sub_0_r in E. apply IH in E as (-> & Hst & Hx).
    rewrite status_if_not in Hst by done. destruct Hst as [Hr Hst]. apply Z.eqb_eq in Hr as ->.
    rewrite status_if in Hst by done. destruct Hst as [Hlt ->]. apply Nat.ltb_ge in Hlt.
    split; [done|]. split; [done|]. intros d' t Hd' Ht' Hs'. simpl in Hd'.
    apply elem_of_cons in Hd' as [->|Hd']; [|by eapply Hx]. fold d in Hs'.
    rewrite Es in Hs'. injection Hs' as <-. split; [exact Hlt|done].
  - intros (-> & -> & Hx). destruct (Hx d t0) as [Hle Hr]; [by apply elem_of_cons; left|done|done|].
    rewrite Hr. cbn [rbind Nat.sub]. rewrite Nat.sub_0_r. apply IH. split; [done|]. split.
    + rewrite status_if_not by done. split; [done|]. rewrite status_if by done. split; [|done].
      by apply Nat.ltb_ge.
    + intros d' t Hd'. apply Hx. by apply elem_of_cons; right.
Qed.
Lemma decls_tab a t T : a_tabs a !! t = Some T -> decls a !! t = Some (map decl_of T).
Proof. intros HT. unfold decls. by rewrite list_lookup_fmap, HT. Qed.
Lemma structure_spec fuel a t depth depth' : validate_structure (S fuel) a t depth = Ok (0, depth') <->
  depth' = depth /\
  exists T, a_tabs a !! t = Some T /\ table_ok T (a_heap a) /\
  forall t', below (decls a) t t' -> (S depth <= 8)%nat /\
    validate_structure fuel a t' (S depth) = Ok (0, S depth).
Proof.
  cbn [validate_structure]. unfold table. destruct (a_tabs a !! t) as [T|] eqn:ET; cbn [rbind].
  2:{ split; [done|]. by intros (_ & T & ? & _). }
  assert (Hb : forall P : nat -> Prop,
     (forall d t', d ∈ map decl_of T -> d_type d = TSubcommand -> d_sub d = Some t' -> P t') <->
     (forall t', below (decls a) t t' -> P t')).
  { intros P. split.
    - intros Hx t' (T' & i & d & HT' & Hd & Ht & Hs). rewrite (decls_tab _ _ _ ET) in HT'.
      injection HT' as <-. eapply Hx; eauto. by eapply elem_of_list_lookup_2.
    - intros Hx d t' Hd Ht Hs. apply Hx. apply elem_of_list_lookup in Hd as [i Hi].
      exists (map decl_of T), i, d. by rewrite (decls_tab _ _ _ ET). }
  destruct (validate_type_format T T (a_heap a) SUCCESS) as [tf|] eqn:Etf; cbn [rbind].
  - rewrite subs_spec by (intros; by eapply structure_depth).
    rewrite (Hb (fun t' => (S depth <= 8)%nat /\ validate_structure fuel a t' (S depth) = Ok (0, S depth))).
    rewrite !status_if_not by done. change SUCCESS with 0 in *. rewrite !Z.eqb_eq. split.
    + intros (-> & (-> & H2 & H1 & _) & Hx). split; [done|]. exists T. split; [done|]. split; [|done].
      apply table_ok_spec. done.
    + intros (-> & T' & [= <-] & Hok & Hx). apply table_ok_spec in Hok as (H1 & H2 & H3).
      change SUCCESS with 0 in H3. split; [done|]. split; [|done]. rewrite Etf in H3. injection H3 as ->.
      done.
  - split; [done|]. intros (_ & T' & [= <-] & Hok & Hx). apply table_ok_spec in Hok as (H1 & H2 & H3). congruence.
Qed.

Lemma structure_below a D t t' : D = decls a -> way_down D t t' ->
  forall fuel depth, validate_structure fuel a t depth = Ok (0, depth) ->
  exists fuel' depth', (fuel' < fuel)%nat /\ (depth < depth' <= 8)%nat /\
    validate_structure fuel' a t' depth' = Ok (0, depth').
Proof.
  intros -> Hw. induction Hw as [t t' Hb|t t' t'' Hb _ IH]; intros [|fuel] depth E; try done;
    apply structure_spec in E as (_ & T & _ & _ & Hx); destruct (Hx _ Hb) as [Hle E].
  - exists fuel, (S depth). split_and!; try done; lia.
  - destruct (IH _ _ E) as (fuel' & depth' & ? & ? & ?). exists fuel', depth'. split_and!; try done; lia.
Qed.
Lemma structure_table a fuel t depth : validate_structure fuel a t depth = Ok (0, depth) ->
  exists T, a_tabs a !! t = Some T /\ table_ok T (a_heap a).
Proof. destruct fuel; [done|]. intros E. apply structure_spec in E as (_ & T & ? & ? & _). eauto. Qed.
Lemma structure_acyclic a fuel : forall t depth, validate_structure fuel a t depth = Ok (0, depth) ->
  ~ way_down (decls a) t t.
Proof.
  induction fuel as [fuel IH] using lt_wf_ind. intros t depth E Hw.
  destruct (structure_below _ _ _ _ eq_refl Hw _ _ E) as (fuel' & depth' & ? & ? & E').
  by eapply IH.
Qed.
Lemma structure_chain a stk : forall fuel t depth, validate_structure fuel a t depth = Ok (0, depth) ->
  chain (decls a) t stk -> stk = [] \/ (depth + length stk <= 8)%nat.
Proof.
  induction stk as [|r stk IH]; intros fuel t depth E Hc; [by left|right].
  destruct fuel as [|fuel]; [done|].
  cbn [chain] in Hc. destruct Hc as (T & d & t' & E1 & E2 & E3 & E4 & E5 & E6 & Hc).
  apply structure_spec in E as (_ & T' & _ & _ & Hx).
  destruct (Hx t') as [Hle E']; [by exists T, (snd r), d|].
  destruct (IH _ _ _ E' Hc) as [->|]; simpl; lia.
Qed.

Lemma structure_complete a n : forall t depth,
  (forall t', reachable (decls a) t t' -> exists T, a_tabs a !! t' = Some T /\ table_ok T (a_heap a)) ->
  (forall stk, chain (decls a) t stk -> (length stk <= n)%nat) -> (depth + n <= 8)%nat ->
  validate_structure (S n) a t depth = Ok (0, depth).
Proof.
  induction n as [|n IH]; intros t depth Hok Hch Hle; apply structure_spec; (split; [done|]).
  all: destruct (Hok t) as (T & HT & HokT); [by left|]; exists T; split; [done|]; split; [done|].
  all: intros t' Hb; pose proof Hb as (T' & i & d & HT' & Hd & Ht & Hs).
  all: assert (HT2 : is_Some (decls a !! t'))
     by (destruct (Hok t') as (T2 & HT2 & _); [right; by apply wd_one|]; by rewrite (decls_tab _ _ _ HT2)).
  - exfalso. specialize (Hch [(t, i)]). cbn [chain length fst snd] in Hch.
    assert (1 <= 0)%nat; [|lia]. apply Hch. exists T', d, t'. done.
  - split; [lia|]. apply IH; [| |lia].
    + intros t2 [->|Hw]; apply Hok; right; [by apply wd_one|by eapply wd_more].
    + intros stk Hstk. specialize (Hch ((t, i) :: stk)). cbn [chain length fst snd] in Hch.
      assert (S (length stk) <= S n)%nat; [|lia]. apply Hch. exists T', d, t'. done.
Qed.

Lemma structure_accepts a : (exists fuel, validate_structure fuel a (a_root a) 0 = Ok (0, O)) <-> structure_ok a.
Proof.
  split.
  - intros (fuel & E). split.
    + intros t [->|Hw]; [by eapply structure_table|].
      destruct (structure_below _ _ _ _ eq_refl Hw _ _ E) as (fuel' & depth' & _ & _ & E').
      by eapply structure_table.
    + intros stk Hc. destruct (structure_chain _ _ _ _ _ E Hc) as [->|]; simpl; lia.
  - intros [Ht Hd]. exists 9%nat. by apply (structure_complete a 8).
Qed.
Lemma init_spec fuel tabs root depth x depth' : argus_init fuel tabs root depth = Ok (x, depth') ->
  depth' = depth /\ (x = None \/ x = Some (make_argus tabs root None)).
Proof.
  unfold argus_init. intros E. apply rbind_Ok in E as ([st d] & Es & E).
  apply structure_depth in Es as ->. injection E as <- <-. split; [done|]. destruct (st =? SUCCESS); auto.
Qed.
Lemma init_accepts tabs root a :
  (exists fuel, argus_init fuel tabs root 0 = Ok (Some a, O)) <->
  a = make_argus tabs root None /\ structure_ok a.
Proof.
  rewrite <- structure_accepts. unfold argus_init. split.
  - intros (fuel & E). apply rbind_Ok in E as ([st d] & Es & E).
    pose proof (structure_depth _ _ _ _ _ _ Es) as Hd. cbv beta iota in E.
    destruct (Z.eqb_spec st SUCCESS) as [Hst|]; [|done]. rewrite Hst, Hd in Es.
    injection E as <- _. split; [done|]. exists fuel. exact Es.
  - intros (-> & fuel & E). exists fuel. change (a_root (make_argus tabs root None)) with root in E.
    rewrite E. done.
Qed.
Lemma init_depth fuel tabs root depth a depth' : argus_init fuel tabs root depth = Ok (Some a, depth') ->
  exists fuel, argus_init fuel tabs root 0 = Ok (Some a, O).
Proof.
  intros E. pose proof (init_spec _ _ _ _ _ _ E) as (-> & [?|[= ->]]); [done|].
  apply init_accepts. split; [done|]. set (a := make_argus tabs root None).
  assert (E' : validate_structure fuel a (a_root a) depth = Ok (0, depth)).
  { unfold argus_init in E. apply rbind_Ok in E as ([st1 d1] & Es & E).
    pose proof (structure_depth _ _ _ _ _ _ Es) as Hd1. cbv beta iota in E.
    destruct (Z.eqb_spec st1 SUCCESS) as [Hst|]; [|done]. rewrite Hst, Hd1 in Es. exact Es. }
  split.
  - intros t [->|Hw]; [by eapply structure_table|].
    destruct (structure_below _ _ _ _ eq_refl Hw _ _ E') as (fuel' & depth' & _ & _ & E2).
    by eapply structure_table.
  - intros stk Hc. destruct (structure_chain _ _ _ _ _ E' Hc) as [->|]; simpl; lia.
Qed.

(** ** What an accepted description gives to the parser *)
Lemma accepted_acyclic a : structure_ok a -> acyclic (decls a) (a_root a).
Proof.
  intros Hok. apply structure_accepts in Hok as [fuel E]. intros t [->|Hw]; [by eapply structure_acyclic|].
  destruct (structure_below _ _ _ _ eq_refl Hw _ _ E) as (fuel' & depth' & _ & _ & E').
  by eapply structure_acyclic.
Qed.
Lemma accepted_subs a : structure_ok a -> no_strays (decls a) (a_root a) -> subs_present (decls a).
Proof.
  intros [Hok _] Hns t T i d HT Hd Ht.
  assert (Hr : reachable (decls a) (a_root a) t) by (apply Hns; eauto).
  destruct (Hok t Hr) as (T0 & HT0 & HokT). pose proof (decls_tab _ _ _ HT0) as HT'.
  assert (T = map decl_of T0) as -> by congruence.
  pose proof Hd as Hd2. rewrite list_lookup_fmap in Hd. destruct (T0 !! i) as [o|] eqn:Eo; [|done].
  injection Hd as <-. pose proof (to_entries _ _ HokT o ltac:(by eapply elem_of_list_lookup_2)) as He.
  unfold entry_ok in He. rewrite Ht in He. destruct (su_table _ He) as [t' Ht']. exists t'. split; [done|].
  destruct (Hok t') as (T2 & HT2 & _); [|by rewrite (decls_tab _ _ _ HT2)].
  right. assert (Hb : below (decls a) t t') by (by exists (map decl_of T0), i, (decl_of o)).
  destruct Hr as [->|Hr]; [by apply wd_one|]. eapply way_down_trans; [done|]. by apply wd_one.
Qed.
Lemma accepted_named a : structure_ok a -> no_strays (decls a) (a_root a) ->
  forall t T, a_tabs a !! t = Some T -> all_named T.
Proof.
  intros [Hok _] Hns t T HT o Ho Hg.
  destruct (Hok t) as (T0 & HT0 & HokT); [apply Hns; by rewrite (decls_tab _ _ _ HT)|].
  assert (T0 = T) as -> by congruence.
  destruct (wn_name _ (to_named _ _ HokT) (decl_of o)) as (n & Hn & _); [by apply elem_of_list_fmap_1|done|].
  by exists n.
Qed.
Lemma accepted_fresh a : structure_ok a -> no_strays (decls a) (a_root a) ->
  a_stack a = [] -> a_err a = 0 -> fresh a.
Proof.
  intros Hok Hns Hs He. split; try done.
  - destruct (so_tables _ Hok (a_root a)) as (T & HT & _); [by left|]. by rewrite (decls_tab _ _ _ HT).
  - by apply accepted_subs.
  - by apply accepted_acyclic.
  - by apply accepted_named.
Qed.

Lemma accepted_structure a : accepted a -> structure_ok a /\ a_stack a = [] /\ a_err a = 0.
Proof.
  intros (fuel & tabs & root & prefix & E & ->). split; [|done].
  destruct (proj1 (init_accepts tabs root (make_argus tabs root None))) as [_ [S1 S2]]; [by exists fuel|].
  split; [exact S1|exact S2].
Qed.
Lemma accepted_table a t T : accepted a -> reachable (decls a) (a_root a) t -> decls a !! t = Some T ->
  exists T', a_tabs a !! t = Some T' /\ T = map decl_of T' /\ table_ok T' (a_heap a).
Proof.
  intros Ha Hr HT. apply accepted_structure in Ha as (Hok & _ & _).
  destruct (so_tables _ Hok t Hr) as (T' & HT' & Hok'). exists T'. split; [done|].
  rewrite (decls_tab _ _ _ HT') in HT. injection HT as <-. done.
Qed.
Lemma accepted_ready a : accepted a -> no_strays (decls a) (a_root a) -> fresh a.
Proof. intros Ha. apply accepted_structure in Ha as (Hok & Hs & He). intros. by apply accepted_fresh. Qed.

(** ** Which entries are called *)
Definition callable (D : list (list decl)) (t i : nat) : Prop :=
  exists T d, D !! t = Some T /\ T !! i = Some d /\ (d_type d = TOption \/ d_type d = TPositional).
Lemma cluster_calls D T t rest cs its r t' i' v : D !! t = Some T -> cluster T t rest cs its r ->
  Call t' i' v ∈ its -> t' = t /\ callable D t' i'.
Proof.
  intros HT. induction 1; intros Hx; try (by apply elem_of_nil in Hx);
    try (apply elem_of_cons in Hx as [Hx|Hx]; [|(by auto) || (by apply elem_of_nil in Hx)]); try done.
  all: injection Hx as -> -> ->; split; [done|]; destruct H0 as (e & He & [Ht _] & _); exists T, e; auto.
Qed.
Lemma reach_step D t t1 t2 : below D t t1 -> reachable D t1 t2 -> reachable D t t2.
Proof. intros Hb [->|Hw]; right; [by apply wd_one|by eapply wd_more]. Qed.
Lemma reach_trans D t t1 t2 : reachable D t t1 -> reachable D t1 t2 -> reachable D t t2.
Proof. intros [->|H1]; [done|]. intros [->|H2]; right; [done|by eapply way_down_trans]. Qed.
Lemma reads_calls D t k only argv its : reads D t k only argv its ->
  forall t' i' v, Call t' i' v ∈ its -> reachable D t t' /\ callable D t' i'.
Proof.
  assert (Hrec : forall T t k i, D !! t = Some T -> receives T k i -> callable D t i).
  { intros T t0 k0 i0 HT (d & Hd & Hp & _). exists T, d. auto. }
  assert (Hlong : forall T t n i, D !! t = Some T -> first (long_named n) T i -> callable D t i).
  { intros T t0 n i0 HT (d & Hd & [Hp _] & _). exists T, d. auto. }
  induction 1; intros t'' i'' v'' Hx;
    try (by apply elem_of_nil in Hx); try (by eauto);
    try (apply elem_of_cons in Hx as [Hx|Hx];
         [first [done|injection Hx as -> -> ->; split; [by left|by eauto]]|(by eauto) || (by apply elem_of_nil in Hx)]).
  - apply elem_of_app in Hx as [Hx|Hx]; [|eauto].
    destruct (cluster_calls _ _ _ _ _ _ _ _ _ _ H0 H3 Hx) as [-> ?]. split; [by left|done].
  - destruct (cluster_calls _ _ _ _ _ _ _ _ _ _ H0 H3 Hx) as [-> ?]. split; [by left|done].
  - apply elem_of_cons in Hx as [Hx|Hx]; [done|]. destruct (IHreads _ _ _ Hx) as [Hr Hc]. split; [|done].
    eapply reach_step; [|exact Hr]. exists T, i, d. split_and!; try done. by eapply selects_sub.
Qed.
Lemma in_play_reachable a argv its a1 t : fresh a ->
  reads (decls a) (a_root a) 0 false argv its -> perform a its = Ok (0, a1) ->
  t ∈ tables_in_play a1 -> reachable (decls a) (a_root a) t.
Proof.
  intros [Hs He HR HS Hac Hn] Hr Hp Ht.
  destruct (parsed_stack a argv its 0 a1 HS HR Hac Hs Hr Hp) as (_ & _ & Q3 & Q4 & Q5 & _).
  unfold tables_in_play in Ht. rewrite Q3, Q4, Q5 in Ht. apply elem_of_cons in Ht as [->|Ht]; [by left|].
  right. eapply chain_way; [|exact Ht]. by eapply reads_chain.
Qed.
Lemma assigned_calls a argv its : fresh a -> assigned a argv its ->
  forall t i v, Call t i v ∈ its -> reachable (decls a) (a_root a) t /\ callable (decls a) t i.
Proof.
  intros Hf (its1 & a1 & Hr & Hp & ->) t i v Hx. apply elem_of_app in Hx as [Hx|Hx].
  - by eapply reads_calls.
  - apply env_items_mem in Hx as (Ht & o & Ho & Hv & [w ->]).
    split; [by eapply in_play_reachable|].
    destruct (entry_decls _ _ _ _ Ho) as (T & HT & Hd).
    rewrite (perform_decls _ _ _ _ Hp) in HT. exists T, (decl_of o). split; [done|]. split; [done|].
    unfold from_env in Hv. destruct (d_type (decl_of o)); auto; done.
Qed.
Lemma accepted_handlers a argv its t i v : accepted a -> no_strays (decls a) (a_root a) ->
  reads (decls a) (a_root a) 0 false argv its \/ assigned a argv its ->
  Call t i v ∈ its -> exists T d f, decls a !! t = Some T /\ T !! i = Some d /\ d_handler d = Some f.
Proof.
  intros Ha Hns Hr Hx. assert (Hf : fresh a) by (by apply accepted_ready).
  assert (Hc : reachable (decls a) (a_root a) t /\ callable (decls a) t i).
  { destruct Hr as [Hr|Hr]; [by eapply reads_calls|by eapply assigned_calls]. }
  destruct Hc as (Hre & T & d & HT & Hd & Hty).
  destruct (accepted_table _ _ _ Ha Hre HT) as (T' & HT' & -> & Hok).
  pose proof Hd as Hd2. rewrite list_lookup_fmap in Hd. destruct (T' !! i) as [o|] eqn:Eo; [|done].
  injection Hd as <-. pose proof (to_entries _ _ Hok o ltac:(by eapply elem_of_list_lookup_2)) as He.
  unfold entry_ok in He. cbv zeta in He.
  assert (Hh : is_Some (d_handler (decl_of o))).
  { destruct Hty as [Hty|Hty]; rewrite Hty in He; destruct He as [He _]; [apply (op_handler _ _ He)|apply (po_handler _ He)]. }
  destruct Hh as [f Hh]. eauto 6.
Qed.

(** ** The command stack *)
Lemma entered_app its1 its2 : entered (its1 ++ its2) = entered its1 ++ entered its2.
Proof. unfold entered. apply omap_app. Qed.
Lemma accepted_entered a argv its : accepted a -> no_strays (decls a) (a_root a) ->
  reads (decls a) (a_root a) 0 false argv its -> (length (entered its) <= 8)%nat.
Proof.
  intros Ha Hns Hr. pose proof (accepted_ready _ Ha Hns) as [_ _ HR HS _ _].
  apply accepted_structure in Ha as (Hok & _ & _). apply (so_depth _ Hok). by eapply reads_chain.
Qed.
Lemma accepted_select a argv its1 t i its2 a1 : accepted a -> no_strays (decls a) (a_root a) ->
  reads (decls a) (a_root a) 0 false argv (its1 ++ Enter t i :: its2) -> perform a its1 = Ok (0, a1) ->
  exists a2, select a1 t i = Ok a2.
Proof.
  intros Ha Hns Hr Hp. pose proof (accepted_entered _ _ _ Ha Hns Hr) as Hlen.
  pose proof (accepted_ready _ Ha Hns) as [Hst _ HR HS _ _].
  assert (Hrj : forall c m, Reject c m ∉ its1).
  { eapply perform_no_reject; [|exact Hp]. intros c m Hc.
    destruct (reads_codes _ _ _ _ _ _ c m Hr) as [->|[->| ->]]; [|done..]. apply elem_of_app. by left. }
  pose proof (perform_stack _ _ _ _ Hp Hrj) as (P1 & P2 & P3 & P4 & _).
  specialize (P4 eq_refl). rewrite Hst in P4. simpl in P4.
  rewrite entered_app, app_length in Hlen. simpl in Hlen.
  pose proof (reads_chain _ _ _ _ _ _ HS HR Hr) as Hch. rewrite entered_app in Hch.
  assert (Hent : exists T d, decls a !! t = Some T /\ T !! i = Some d).
  { clear -Hch. revert Hch. generalize (a_root a). generalize (entered its1) as l.
    induction l as [|r l IH]; intros t0 Hch; cbn [app chain] in Hch.
    - destruct Hch as (T & d & t' & ? & ? & ? & _). simpl in *. subst. eauto.
    - destruct Hch as (T & d & t' & ? & ? & ? & _ & _ & _ & Hch). eauto. }
  destruct Hent as (T & d & HT & Hd). rewrite <- P3 in HT.
  destruct (decls_entry _ _ _ _ _ HT Hd) as (o & Ho & _).
  apply entry_get in Ho. unfold select. rewrite Ho. cbn [rbind].
  destruct (Nat.ltb_spec (length (a_stack a1)) 8) as [|Hge]; [by eexists|]. rewrite P4 in Hge. lia.
Qed.

(** ** Defaults, options by name, sequences of checks *)
Lemma accepted_default a t i o : accepted a -> reachable (decls a) (a_root a) t -> entry a t i o ->
  ~ group_entry o -> d_have_default (decl_of o) = true -> validated (a_heap a) o.
Proof.
  intros Ha Hr (T & HT & Ho) Hg Hd.
  destruct (accepted_table _ _ _ Ha Hr (decls_tab _ _ _ HT)) as (T' & HT' & _ & Hok).
  assert (T' = T) as -> by congruence.
  pose proof (to_entries _ _ Hok o ltac:(by eapply elem_of_list_lookup_2)) as He.
  unfold entry_ok in He. cbv zeta in He. intros e Hin Hord.
  assert (Hdo : default_ok o (a_heap a) -> accepts_option (v_fun e) o (a_heap a)).
  { intros Hdo. destruct (Hdo Hd) as [_ Hv]. specialize (Hv e Hin). rewrite Hord in Hv. done. }
  unfold group_entry in Hg. destruct (d_type (decl_of o)); [|done|..].
  - apply Hdo, He.
  - apply Hdo, He.
  - destruct (su_bare _ He) as (_ & _ & _ & _ & ?). congruence.
Qed.

Lemma accepted_names a t T : accepted a -> reachable (decls a) (a_root a) t -> decls a !! t = Some T ->
  well_named T.
Proof. intros Ha Hr HT. destruct (accepted_table _ _ _ Ha Hr HT) as (T' & _ & -> & [? _ _]). done. Qed.
Lemma accepted_placement a t T : accepted a -> reachable (decls a) (a_root a) t -> decls a !! t = Some T ->
  well_placed T.
Proof. intros Ha Hr HT. destruct (accepted_table _ _ _ Ha Hr HT) as (T' & _ & -> & [_ ? _]). done. Qed.
Lemma accepted_entries a t T i d : accepted a -> reachable (decls a) (a_root a) t -> decls a !! t = Some T ->
  T !! i = Some d ->
  match d_type d with
  | TOption => option_ok T d
  | TPositional => positional_ok d
  | TSubcommand => subcommand_ok d /\ forall t', d_sub d = Some t' -> is_Some (decls a !! t')
  | TGroup => flags_among d [14%N]
  end.
Proof.
  intros Ha Hr HT Hd. destruct (accepted_table _ _ _ Ha Hr HT) as (T' & HT' & -> & Hok).
  pose proof Hd as Hd2. rewrite list_lookup_fmap in Hd. destruct (T' !! i) as [o|] eqn:Eo; [|done].
  injection Hd as <-. pose proof (to_entries _ _ Hok o ltac:(by eapply elem_of_list_lookup_2)) as He.
  unfold entry_ok in He. cbv zeta in He. destruct (d_type (decl_of o)) eqn:Et.
  - apply He.
  - done.
  - apply He.
  - split; [done|]. intros t' Ht'. apply accepted_structure in Ha as (Hso & _ & _).
    destruct (so_tables _ Hso t') as (T2 & HT2 & _); [|by rewrite (decls_tab _ _ _ HT2)].
    eapply reach_trans; [exact Hr|]. right. apply wd_one. by exists (map decl_of T'), i, (decl_of o).
Qed.

Lemma long_denotes T i d n : well_named T -> T !! i = Some d -> d_type d = TOption ->
  d_lname d = Some n -> first (long_named n) T i.
Proof.
  intros W Hi Ht Hn. exists d. split; [done|]. split; [done|]. intros j y Hj Hy [_ Hl].
  eapply (wn_long _ W j i); [lia|done..].
Qed.
Lemma short_denotes T i d : well_named T -> T !! i = Some d -> d_type d = TOption ->
  d_sname d <> Ascii.zero -> first (short_named (d_sname d)) T i.
Proof.
  intros W Hi Ht Hn. exists d. split; [done|]. split; [done|]. intros j y Hj Hy [_ Hl].
  apply Hn. rewrite <- Hl. eapply (wn_short _ W j i y d); [lia|done..].
Qed.

(** Several checks one after the other, as long as the tables are accepted. *)
Fixpoint init_all (fuel : nat) (l : list (list (list opt) * nat)) (depth : nat)
  : res (list (option argus) * nat) :=
  match l with
  | [] => Ok ([], depth)
  | p :: l' =>
      let* (x, depth1) := argus_init fuel (fst p) (snd p) depth in
      let* (xs, depth2) := init_all fuel l' depth1 in Ok (x :: xs, depth2)
  end.
Lemma init_all_spec fuel l : forall xs depth depth', init_all fuel l depth = Ok (xs, depth') ->
  depth' = depth /\ Forall2 (fun p x => argus_init fuel (fst p) (snd p) depth = Ok (x, depth)) l xs.
Proof.
  induction l as [|p l IH]; intros xs depth depth' E; cbn [init_all] in E.
  { injection E as <- <-. split; [done|constructor]. }
  apply rbind_Ok in E as ([x d1] & E1 & E). apply rbind_Ok in E as ([xs' d2] & E2 & E). injection E as <- <-.
  pose proof (init_spec _ _ _ _ _ _ E1) as [-> _]. apply IH in E2 as [-> HF]. split; [done|]. by constructor.
Qed.

Lemma accepted_env_none a : length (entered (env_items a)) = 0%nat.
Proof.
  destruct (entered (env_items a)) as [|[t i] l] eqn:E; [done|]. exfalso.
  assert (Hx : (t, i) ∈ entered (env_items a)) by (rewrite E; by left).
  unfold entered in Hx. apply elem_of_list_omap in Hx as ([| |] & Hx & [=]); subst.
  by eapply env_items_no_enter.
Qed.
Lemma accepted_stack a argv a' : accepted a -> no_strays (decls a) (a_root a) ->
  argus_parse a argv = Ok (Returned 0, a') -> (length (a_stack a') <= 8)%nat.
Proof.
  intros Ha Hns E. pose proof (accepted_ready _ Ha Hns) as Hf.
  apply parse_success in E as (its & (its1 & a1 & Hr & Hp & ->) & _ & _ & _ & _ & _ & _ & -> & _); [|done].
  rewrite entered_app, app_length, (accepted_env_none a1). rewrite Nat.add_0_r. by eapply accepted_entered.
Qed.
End libc.
