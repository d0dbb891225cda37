(** * What the structure check prints *)
From Coq Require Import Lia.
From Verif Require Import Validate LibProofs FrameProofs SpecGrammar GrammarProofs GrammarLemmas
  SpecAfter AfterProofs SpecStructure StructProofs Display SpecDisplay ChoiceProofs Messages SpecMessages MessageProofs
  SpecRefused RefusedProofs StructErrors SpecFaults.

Lemma if_then_spec b m w : w ∈ if_then b m <-> b = true /\ w = m.
Proof. destruct b; simpl; rewrite ?elem_of_list_singleton, ?elem_of_nil; naive_solver. Qed.
Lemma pair_spec (i : nat) l k (w : cstr) : (k, w) ∈ map (pair i) l <-> k = i /\ w ∈ l.
Proof. rewrite elem_of_list_fmap. naive_solver. Qed.

(** ** Placement *)
Lemma before_take T i P : before T i P <-> some_in (take i T) P.
Proof.
  unfold before, some_in. split.
  - intros (j & e & Hj & He & HP). exists e. split; [|done]. apply elem_of_list_lookup. exists j.
    by rewrite lookup_take.
  - intros (e & He & HP). apply elem_of_list_lookup in He as [j Hj]. apply lookup_take_Some in Hj as [? ?].
    by exists j, e.
Qed.
Lemma up_to_take T i P : up_to T i P <-> some_in (take (S i) T) P.
Proof.
  rewrite <- before_take. unfold up_to, before. split; intros (j & e & Hj & ?); exists j, e; (split; [lia|done]).
Qed.
(** The same for one entry [d] after [P] *)
Inductive misplaced_after (P : list decl) (d : decl) : cstr -> Prop :=
  | ma_second : is_many d -> some_in P is_many -> misplaced_after P d ($"Only one POSITIONAL_MANY argument is allowed")
  | ma_after : is_single d -> some_in P is_many ->
      misplaced_after P d ($"POSITIONAL argument must be placed before POSITIONAL_MANY argument")
  | ma_optional : some_in (P ++ [d]) is_optional -> some_in (P ++ [d]) is_many ->
      misplaced_after P d ($"Cannot mix optional positional and POSITIONAL_MANY arguments")
  | ma_option : d_type d = TOption -> some_in P is_sub ->
      misplaced_after P d ($"Options should be placed at the top level, before any subcommands")
  | ma_mixed : some_in (P ++ [d]) is_sub -> some_in (P ++ [d]) is_single ->
      misplaced_after P d ($"Cannot mix subcommands and positional arguments at the same level")
  | ma_required : positional d -> required d -> some_in P is_optional ->
      misplaced_after P d ($"Required positional must be before all optional positional arguments").
Lemma misplaced_split T i w : misplaced T i w <->
  (exists d, T !! i = Some d /\ misplaced_after (take i T) d w) \/
  (i = O /\ w = $"Help option is missing" /\ forall d, d ∈ T -> d_type d = TOption -> d_name d <> Some ($"help")).
Proof.
  split.
  - intros Hm. destruct Hm as [d|d|[d Hd] Ho|d|[d Hd] Ho|d|].
    all: try (left; exists d; split; [done|]; rewrite ?up_to_take, ?before_take in *).
    all: try (erewrite take_S_r in * by done).
    all: try (by constructor).
  - intros [(d & Hd & Hm)|(-> & -> & Hh)]; [|by constructor].
    destruct Hm; [eapply mp_second|eapply mp_after|eapply mp_optional|eapply mp_option|eapply mp_mixed|eapply mp_required];
      try done; rewrite ?up_to_take, ?before_take; try (by eexists); try (by erewrite take_S_r); done.
Qed.
Lemma placement_says_spec s P o w : pl_inv s P -> w ∈ placement_says s o <-> misplaced_after P (decl_of o) w.
Proof.
  intros Hs. pose proof (pl_step s P o Hs) as Hs'. destruct Hs as [_ H2 H3 H4 _ _].
  destruct Hs' as [S1 S2 S3 S4 _ _]. unfold placement_says.
  set (s' := placement_step s o) in *. set (d := decl_of o) in *.
  pose proof (required_bit d) as Hr. pose proof (variadic_dec d) as Hv.
  pose proof (type_is_spec TPositional d) as Hp. pose proof (type_is_spec TOption d) as Ho.
  assert (Hv' : negb (has (d_vtype d) VT_VARIADIC) = true <-> ~ variadic d).
  { rewrite negb_true_iff, <- Hv, not_true_iff_false. done. }
  cbv zeta. rewrite !elem_of_app, !if_then_spec, !andb_true_iff, Hp, Ho, Hr, Hv, Hv'.
  rewrite H3, S1, S2, S3, S4.
  change single_pos with is_single. change optional_pos with is_optional. change many_pos with is_many.
  change (fun d => d_type d = TSubcommand) with is_sub.
  split.
  - intros [((((? & ?) & ?) & ?) & ->)|[((((? & ?) & ?) & ?) & ->)|[((? & ?) & ->)|[((? & Hx) & ->)|[((? & ?) & ->)|(((? & ?) & Hx) & ->)]]]]].
    + apply ma_second; [by repeat split|done].
    + apply ma_after; [by repeat split|done].
    + by apply ma_optional.
    + apply some_in_snoc in Hx as [Hx|Hx]; [|unfold is_sub in Hx; congruence]. by apply ma_option.
    + by apply ma_mixed.
    + apply some_in_snoc in Hx as [Hx|[_ Hx]]; [|done]. by apply ma_required.
  - intros Hm. destruct Hm as [(? & ? & ?)|(? & ? & ?)| | | |].
    + by left.
    + right. by left.
    + do 2 right. by left.
    + do 3 right. left. split; [|done]. split; [done|]. apply some_in_snoc. by left.
    + do 4 right. by left.
    + do 5 right. split; [|done]. split; [done|]. apply some_in_snoc. by left.
Qed.
Lemma placement_reports_spec l : forall s pre k w, pl_inv s (map decl_of pre) ->
  (k, w) ∈ placement_reports s (length pre) l <->
  (exists j d, k = (length pre + j)%nat /\ map decl_of l !! j = Some d /\
     misplaced_after (map decl_of pre ++ take j (map decl_of l)) d w) \/
  (k = O /\ w = $"Help option is missing" /\
   forall d, d ∈ map decl_of (pre ++ l) -> d_type d = TOption -> d_name d <> Some ($"help")).
Proof.
  induction l as [|o l IH]; intros s pre k w Hs; cbn [placement_reports].
  - rewrite app_nil_r. destruct Hs as [_ _ _ _ H5 _].
    destruct (p_help s) eqn:Eh.
    + rewrite elem_of_nil. split; [done|]. intros [(j & d & _ & Hx & _)|(_ & _ & Hn)]; [by destruct j|].
      destruct H5 as [H5 _]. destruct (H5 eq_refl) as (d & Hd & Ht & Hn'). by apply (Hn d).
    + rewrite elem_of_list_singleton. split.
      * intros [= -> ->]. right. split_and!; try done. intros d Hd Ht Hn. destruct H5 as [_ H5].
        discriminate H5. by exists d.
      * intros [(j & d & _ & Hx & _)|(-> & -> & Hn)]; [by destruct j|done].
  - rewrite elem_of_app, pair_spec, (placement_says_spec s (map decl_of pre)) by done.
    pose proof (pl_step _ _ o Hs) as Hs'. change [decl_of o] with (map decl_of [o]) in Hs'.
    rewrite <- map_app in Hs'. replace (S (length pre)) with (length (pre ++ [o])) by (rewrite app_length; simpl; lia).
    rewrite (IH _ (pre ++ [o])) by done. rewrite <- app_assoc. cbn [app].
    assert (HP : forall X, map decl_of (pre ++ [o]) ++ X = map decl_of pre ++ decl_of o :: X).
    { intros X. by rewrite map_app, <- app_assoc. }
    assert (HL : length (pre ++ [o]) = S (length pre)) by (rewrite app_length; simpl; lia).
    cbn [map]. split.
    + intros [[-> Hm]|[(j & d & -> & Hd & Hm)|Hm]].
      * left. exists O, (decl_of o). rewrite Nat.add_0_r. simpl. by rewrite app_nil_r.
      * left. exists (S j), d. split; [lia|]. split; [done|]. rewrite HP in Hm. done.
      * by right.
    + intros [([|j] & d & -> & Hd & Hm)|Hm].
      * left. simpl in Hd, Hm. rewrite app_nil_r in Hm. injection Hd as <-. split; [lia|done].
      * right. left. exists j, d. split; [lia|]. split; [done|]. rewrite HP. done.
      * by do 2 right.
Qed.
Lemma placement_reports_ok T k w :
  (k, w) ∈ placement_reports (Placement false false false false false SUCCESS) O T <-> misplaced (map decl_of T) k w.
Proof.
  rewrite misplaced_split.
  change O with (length (@nil opt)). rewrite (placement_reports_spec T _ []) by exact (pl_fold []). simpl. split.
  - intros [(j & d & -> & ?)|Hm]; [left; by exists d|by right].
  - intros [(d & ?)|Hm]; [left; by exists k, d|by right].
Qed.

(** ** Names *)
Section names.
Context (line_of : nat -> nat -> Z).
Lemma unique_says_spec t n l : forall j w, w ∈ unique_says line_of t n j l <->
  exists k d, map decl_of l !! k = Some d /\
    ((d_name d = Some n /\ w = $"Name conflict with option line: " ++ dec (line_of t (j + k))) \/
     (d_lname d = Some n /\ w = $"Long name conflict with option line: " ++ dec (line_of t (j + k)))).
Proof.
  induction l as [|o l IH]; intros j w; cbn [unique_says].
  { rewrite elem_of_nil. split; [done|]. intros ([|k] & d & ? & _); done. }
  rewrite !elem_of_app, !if_then_spec, !str_is_spec, IH. split.
  - intros [[? ->]|[[? ->]|(k & d & Hk & Hw)]].
    + exists O, (decl_of o). rewrite Nat.add_0_r. split; [done|]. by left.
    + exists O, (decl_of o). rewrite Nat.add_0_r. split; [done|]. by right.
    + exists (S k), d. rewrite Nat.add_succ_r. done.
  - intros ([|k] & d & Hk & Hw).
    + injection Hk as <-. rewrite Nat.add_0_r in Hw. destruct Hw; [by left|right; by left].
    + do 2 right. exists k, d. rewrite Nat.add_succ_r in Hw. done.
Qed.
Lemma contains_true l c : contains l c = true <-> c ∈ l.
Proof.
  destruct (contains l c) eqn:E.
  - split; [|done]. intros _. destruct (decide (c ∈ l)) as [|N]; [done|]. apply contains_spec in N. congruence.
  - apply contains_spec in E. done.
Qed.
Lemma naming_says_spec t pre o later used w :
  (forall c, c ∈ used <-> c <> Ascii.zero /\ some_in (map decl_of pre) (fun e => d_sname e = c)) ->
  w ∈ naming_says line_of t (length pre) o later used <->
  misnamed line_of t (map decl_of (pre ++ o :: later)) (length pre) (decl_of o) w.
Proof.
  intros Hu. set (T := map decl_of (pre ++ o :: later)). unfold naming_says. cbv zeta. set (d := decl_of o).
  assert (Hd : T !! length pre = Some d).
  { unfold T. rewrite map_app. simpl. rewrite lookup_app_r by (rewrite map_length; lia).
    by rewrite map_length, Nat.sub_diag. }
  assert (Htk : take (length pre) T = map decl_of pre).
  { unfold T. rewrite map_app. apply take_app_alt. by rewrite map_length. }
  assert (Hlater : forall j e, (length pre < j)%nat -> T !! j = Some e <-> map decl_of later !! (j - S (length pre))%nat = Some e).
  { intros j e Hj. unfold T. rewrite map_app. simpl. rewrite lookup_app_r by (rewrite map_length; lia).
    rewrite map_length. rewrite lookup_cons_ne_0 by lia. by replace (pred (j - length pre)) with (j - S (length pre))%nat by lia. }
  rewrite !elem_of_app, !if_then_spec.
  assert (E1 : match d_name d with Some n => is_empty n | None => true end && negb (type_is TGroup d) = true <->
    d_type d <> TGroup /\ (d_name d = None \/ d_name d = Some [])).
  { rewrite andb_true_iff, negb_true_iff, type_is_not. destruct (d_name d) as [[|]|]; simpl; naive_solver. }
  assert (E2 : negb (Ascii.eqb (d_sname d) NUL) && existsb (Ascii.eqb (d_sname d)) used = true <->
    d_sname d <> Ascii.zero /\ before T (length pre) (fun e => d_sname e = d_sname d)).
  { rewrite andb_true_iff, negb_true_iff, Ascii.eqb_neq, existsb_elem, before_take, Htk. split.
    - intros (? & x & Hx & Ex). apply Ascii.eqb_eq in Ex as <-. apply Hu in Hx as [? ?]. done.
    - intros (? & ?). split; [done|]. exists (d_sname d). rewrite Ascii.eqb_refl. split; [|done]. by apply Hu. }
  rewrite E1, E2, !Ascii.eqb_eq. unfold space_char, hyphen. split.
  - intros [((? & ?) & ->)|[(? & ->)|[(? & ->)|[((? & ?) & ->)|Hl]]]].
    + by apply mn_name.
    + by apply mn_space.
    + by apply mn_hyphen.
    + change ($"Short name '" ++ [d_sname d] ++ $"' is already used")
        with (in_quotes $"Short name " [d_sname d] ++ $" is already used"). by apply mn_used.
    + destruct (d_lname d) as [l|] eqn:El; [|by apply elem_of_nil in Hl].
      rewrite !elem_of_app, !if_then_spec, !contains_true in Hl.
      destruct Hl as [(Hx & ->)|[(? & ->)|[(? & ->)|[(Hx & ->)|Hx]]]].
      * destruct l as [|c l]; [done|]. apply Ascii.eqb_eq in Hx as ->. by eapply mn_start.
      * by eapply mn_spaces.
      * by eapply mn_dots.
      * destruct l; [|done]. by apply mn_empty.
      * apply unique_says_spec in Hx as (k & e & Hk & [(? & ->)|(? & ->)]).
        -- eapply (mn_conflict _ _ _ _ _ l (S (length pre) + k) e); [done|lia| |done]. apply Hlater; [lia|].
           by replace (S (length pre) + k - S (length pre))%nat with k by lia.
        -- eapply (mn_long _ _ _ _ _ l (S (length pre) + k) e); [done|lia| |done]. apply Hlater; [lia|].
           by replace (S (length pre) + k - S (length pre))%nat with k by lia.
  - intros Hm. destruct Hm as [| | | |l El|l El ?|l El ?|El|l j e El Hj He Hn|l j e El Hj He Hn].
    + by left.
    + right; by left.
    + do 2 right; by left.
    + do 3 right; by left.
    + do 4 right. rewrite El. rewrite !elem_of_app, if_then_spec. by left.
    + do 4 right. rewrite El. rewrite !elem_of_app, !if_then_spec, !contains_true. right; by left.
    + do 4 right. rewrite El. rewrite !elem_of_app, !if_then_spec, !contains_true. do 2 right; by left.
    + do 4 right. rewrite El. rewrite !elem_of_app, !if_then_spec. do 3 right; by left.
    + do 4 right. rewrite El. rewrite !elem_of_app. do 4 right. apply unique_says_spec.
      exists (j - S (length pre))%nat, e. split; [by apply Hlater|]. left. split; [done|].
      by replace (S (length pre) + (j - S (length pre)))%nat with j by lia.
    + do 4 right. rewrite El. rewrite !elem_of_app. do 4 right. apply unique_says_spec.
      exists (j - S (length pre))%nat, e. split; [by apply Hlater|]. right. split; [done|].
      by replace (S (length pre) + (j - S (length pre)))%nat with j by lia.
Qed.
Lemma naming_reports_spec t l : forall pre used k w,
  (forall c, c ∈ used <-> c <> Ascii.zero /\ some_in (map decl_of pre) (fun e => d_sname e = c)) ->
  (k, w) ∈ naming_reports line_of t (length pre) l used <->
  exists d, (length pre <= k)%nat /\ map decl_of (pre ++ l) !! k = Some d /\ misnamed line_of t (map decl_of (pre ++ l)) k d w.
Proof.
  induction l as [|o l IH]; intros pre used k w Hu; cbn [naming_reports].
  { rewrite elem_of_nil, app_nil_r. split; [done|]. intros (d & Hk & Hd & _). apply lookup_lt_Some in Hd.
    rewrite map_length in Hd. lia. }
  rewrite elem_of_app, pair_spec, (naming_says_spec t pre o l used w Hu).
  replace (S (length pre)) with (length (pre ++ [o])) by (rewrite app_length; simpl; lia).
  rewrite (IH (pre ++ [o])).
  2:{ intros c. rewrite map_app. cbn [map]. rewrite some_in_snoc. destruct (Ascii.eqb_spec (d_sname (decl_of o)) NUL) as [E|E].
      - rewrite Hu. split; [naive_solver|]. intros (? & [?|?]); [done|]. change NUL with Ascii.zero in E. congruence.
      - rewrite elem_of_cons, Hu. split; [|naive_solver]. intros [->|[? ?]]; [|naive_solver]. split; [done|]. by right. }
  rewrite <- app_assoc, app_length. simpl.
  assert (Hd : map decl_of (pre ++ o :: l) !! length pre = Some (decl_of o)).
  { rewrite map_app. simpl. rewrite lookup_app_r by (rewrite map_length; lia). by rewrite map_length, Nat.sub_diag. }
  split.
  - intros [[-> Hm]|(d & ? & ? & ?)]; [by exists (decl_of o)|]. exists d. split; [lia|done].
  - intros (d & Hk & Hd' & Hm). destruct (decide (k = length pre)) as [->|].
    + left. rewrite Hd in Hd'. injection Hd' as <-. done.
    + right. exists d. split; [lia|done].
Qed.
Lemma naming_reports_ok t T k w : (k, w) ∈ naming_reports line_of t O T [] <->
  exists d, map decl_of T !! k = Some d /\ misnamed line_of t (map decl_of T) k d w.
Proof.
  change O with (length (@nil opt)). rewrite (naming_reports_spec t T []).
  - simpl. split; [naive_solver|]. intros (d & ?). exists d. split; [lia|done].
  - intros c. rewrite elem_of_nil. split; [done|]. intros (_ & d & Hd & _). by apply elem_of_nil in Hd.
Qed.
End names.

Section libc.
Context `{Libc} (pcre : cstr -> cstr) (p : program) (line_of : nat -> nat -> Z).
Notation prog := (p_name p).

(** ** Defaults *)
Lemma refusal_not_accepted o h f t : refusal o h f t -> ~ accepts_option f o h.
Proof.
  intros Hr Ha. destruct Hr as [a b ?|a b x ? E ?|a b E|a b E ?|a b E ? ? ?|a b s E ? E' ?|a b ?|a b ? ? ?|a b ? ?|l s E N|l x E N|l x E N];
    simpl in Ha.
  - destruct Ha as (? & _ & ?). lia.
  - destruct Ha as (y & E2 & ?). assert (x = y) by congruence. lia.
  - destruct Ha as (? & E2 & _). congruence.
  - destruct Ha as (? & _ & _ & ? & ?). lia.
  - destruct Ha as (? & _ & _ & ? & ?). lia.
  - destruct Ha as (s' & _ & E2 & ? & ?). assert (s = s') by congruence. subst. lia.
  - lia.
  - lia.
  - lia.
  - destruct Ha as (s' & E2 & ?). assert (s = s') by congruence. by subst.
  - destruct Ha as (s' & E2 & ?). assert (x = s') by congruence. by subst.
  - destruct Ha as (s' & c & E2 & Hc & Hf). assert (x = s') by congruence. subst. rewrite N in Hf; done.
Qed.
Lemma refusal_same o h f t t' : refusal o h f t -> refusal o h f t' -> t = t'.
Proof.
  intros Hr Hr'. destruct Hr; inversion Hr'; subst; try congruence; try lia; try done.
Qed.
(** One validator of the default *)
Definition entry_run (o : opt) (h : heap) (e : ventry) : res (Z * list event) :=
  match v_order e with
  | ORDER_PRE =>
      if (d_vtype (decl_of o) =? VT_STRING)%N then
        let* s := read_str h (d_default (decl_of o)) in run_validator (v_fun e) (ArgText s) h
      else Ok (SUCCESS, [])
  | ORDER_POST => run_validator (v_fun e) (ArgOption o) h
  end.
Inductive entry_refuses (o : opt) (h : heap) (e : ventry) : cstr -> Prop :=
  | er_value w : v_order e = ORDER_POST -> refusal o h (v_fun e) w -> entry_refuses o h e w
  | er_text v c w : v_order e = ORDER_PRE -> d_vtype (decl_of o) = 2%N ->
      read_str h (d_default (decl_of o)) = Ok v -> text_refusal pcre (v_fun e) v c w -> entry_refuses o h e w.
Lemma entry_run_spec o h e r ev : listable (v_fun e) -> entry_run o h e = Ok (r, ev) ->
  (r = 0 /\ ev = [] /\ forall w, ~ entry_refuses o h e w) \/
  (r <> 0 /\ ev = []) \/
  (r <> 0 /\ exists m w, ev = [EDiag r m] /\ render pcre m = Ok w /\ forall w', entry_refuses o h e w' <-> w' = w).
Proof.
  intros Hl E. unfold entry_run in E. destruct (v_order e) eqn:Eo.
  - destruct (N.eqb_spec (d_vtype (decl_of o)) VT_STRING) as [Ev|Ev].
    + change VT_STRING with 2%N in Ev. apply rbind_Ok in E as (s & Es & E).
      destruct (v_fun e) as [| | |q hint| | | |g|g] eqn:Ef; try (simpl in E; congruence).
      * destruct (refused_text pcre (VRegex q hint) _ _ _ _ I E) as [(-> & -> & Ha)|(N & m & t & -> & Hm & Ht)]; [left|do 2 right].
        -- split; [done|]. split; [done|]. intros w Hw. destruct Hw as [w Ho Hr|v c w Ho Hv Hs Hr]; [congruence|].
           rewrite Es in Hs. injection Hs as <-. rewrite Ef in Hr. by eapply refusal_not.
        -- split; [done|]. exists m, t. split; [done|]. split; [done|]. intros w. split.
           ++ intros Hw. destruct Hw as [w Ho Hr|v c w Ho Hv Hs Hr]; [congruence|].
              rewrite Es in Hs. injection Hs as <-. rewrite Ef in Hr. by destruct (refusal_fun pcre _ _ _ _ _ _ Hr Ht).
           ++ intros ->. eapply er_text; try done. by rewrite Ef.
      * simpl in E. injection E as <- <-. destruct (decide (g s = 0)) as [Z|Z]; [left|right; by left].
        split; [done|]. split; [done|]. intros w Hw. destruct Hw as [w Ho Hr|v c w Ho Hv Hs Hr]; [congruence|].
        rewrite Ef in Hr. inversion Hr.
    + injection E as <- <-. left. split; [done|]. split; [done|]. intros w Hw.
      destruct Hw as [w Ho Hr|v c w Ho Hv Hs Hr]; [congruence|]. change VT_STRING with 2%N in Ev. done.
  - assert (Hno : forall w, entry_refuses o h e w <-> refusal o h (v_fun e) w).
    { intros w. split; [|intros ?; by apply er_value]. intros Hw. destruct Hw; [done|congruence]. }
    assert (HB : builtin (v_fun e) \/ exists g, v_fun e = VCustomPost g).
    { destruct (v_fun e); try (by left). right; eauto. }
    destruct HB as [HB|[g Hg]].
    + destruct (decide (r = 0)) as [->|N].
      * left. destruct (run_post _ _ _ _ _ E) as [(_ & Ha & ->)|(? & _)]; [|done].
        split; [done|]. split; [done|]. intros w Hw. apply Hno in Hw. by eapply refusal_not_accepted.
      * do 2 right. split; [done|]. destruct (refuse_text pcre _ _ _ _ _ HB Hl E N) as (m & t & -> & Hm & Ht).
        exists m, t. split; [done|]. split; [done|]. intros w. rewrite Hno. split; [|by intros ->].
        intros Hr. by eapply refusal_same.
    + rewrite Hg in *. simpl in E. injection E as <- <-.
      destruct (decide (g (value o) (value_count o) = 0)) as [Z|Z]; [left|right; by left].
      split; [done|]. split; [done|]. intros w Hw. apply Hno in Hw. inversion Hw.
Qed.
Lemma captured_one r m w : render pcre m = Ok w -> captured pcre p [EDiag r m] = Ok (told_line prog w).
Proof.
  intros Hm. cbn [captured]. unfold error_line. rewrite Hm. cbn [rbind]. rewrite app_nil_r.
  unfold told_line, line_end. done.
Qed.
Definition default_text (w : cstr) : cstr :=
  $"Default value does not pass validations: " ++ line_end ++ ["009"%char] ++ $"    " ++ told_line prog w.
(** The model of the messages runs exactly as that of the statuses. *)
Lemma default_validators_agree o h l : (forall e, e ∈ l -> listable (v_fun e)) -> forall st,
  match default_validators o h l st with
  | Ok st' => exists ms, default_validators_say pcre p o h l st = Ok ms /\ (st' = 0 <-> st = 0 /\ ms = []) /\
      forall w, w ∈ ms <-> exists e w', e ∈ l /\ entry_refuses o h e w' /\ w = default_text w'
  | UB _ => exists u, default_validators_say pcre p o h l st = UB u
  end.
Proof.
  induction l as [|e l IH]; intros Hl st; cbn [default_validators default_validators_say].
  { exists []. split; [done|]. split; [naive_solver|]. intros w. rewrite elem_of_nil. split; [done|].
    intros (e & _ & He & _). by apply elem_of_nil in He. }
  assert (Hl' : forall e, e ∈ l -> listable (v_fun e)) by (intros; apply Hl; by right).
  assert (He : listable (v_fun e)) by (apply Hl; by left).
  fold (entry_run o h e). destruct (entry_run o h e) as [[r ev]|u] eqn:E; cbn [rbind]; [|eauto].
  destruct (entry_run_spec _ _ _ _ _ He E) as [(-> & -> & Hn)|[(N & ->)|(N & m & w & -> & Hm & Hw)]].
  - cbn [captured rbind]. change (0 =? SUCCESS) with true. cbv iota zeta.
    destruct (Z.eqb_spec st SUCCESS) as [->|Ns]; [|eauto]. specialize (IH Hl' SUCCESS).
    destruct (default_validators o h l SUCCESS) as [st'|u]; [|done]. destruct IH as (ms & -> & Hz & Hms).
    exists ms. split; [done|]. split; [done|]. intros w. rewrite Hms. split.
    + intros (e' & w' & ? & ?). exists e', w'. split; [by right|done].
    + intros (e' & w' & He' & Hr & ?). apply elem_of_cons in He' as [->|He']; [by apply Hn in Hr|eauto].
  - cbn [captured rbind]. cbv zeta. destruct (Z.eqb_spec r SUCCESS) as [?|_]; [done|].
    change (E_INVALID_DEFAULT =? SUCCESS) with false. cbv iota. eauto.
  - rewrite (captured_one _ _ _ Hm). cbn [rbind]. cbv zeta. destruct (Z.eqb_spec r SUCCESS) as [?|_]; [done|].
    change (E_INVALID_DEFAULT =? SUCCESS) with false. cbv iota. specialize (IH Hl' E_INVALID_DEFAULT).
    destruct (default_validators o h l E_INVALID_DEFAULT) as [st'|u].
    + destruct IH as (ms & -> & Hz & Hms). cbn [rbind]. eexists. split; [reflexivity|].
      split. { rewrite Hz. split; [by intros [? _]|by intros [_ ?]]. }
      intros x. rewrite elem_of_cons, Hms. split.
      * intros [->|(e' & w' & ? & ? & ->)]; [exists e, w|exists e', w'].
        -- split; [by left|]. split; [by apply Hw|]. reflexivity.
        -- split; [by right|done].
      * intros (e' & w' & He' & Hr & ->). apply elem_of_cons in He' as [->|He']; [|eauto 6].
        left. apply Hw in Hr as ->. reflexivity.
    + destruct IH as [u' ->]. cbn [rbind]. eauto.
Qed.
Definition all_listable (d : decl) : Prop := forall e, e ∈ validators d -> listable (v_fun e).
Lemma default_agree o h : all_listable (decl_of o) ->
  match validate_default_value o h with
  | Ok st => exists ms, default_says pcre p o h = Ok ms /\ (st = 0 <-> ms = []) /\ forall w, w ∈ ms <-> bad_default pcre prog o h w
  | UB _ => exists u, default_says pcre p o h = UB u
  end.
Proof.
  intros Hl. unfold validate_default_value, default_says. cbv zeta. destruct (d_have_default (decl_of o)) eqn:Ed.
  2:{ exists []. split; [done|]. split; [done|]. intros w. rewrite elem_of_nil. split; [done|]. intros Hb.
      destruct Hb; congruence. }
  destruct (N.eqb_spec (d_vtype (decl_of o)) VT_FLAG) as [E|E]; change VT_FLAG with 16%N in E.
  { eexists. split; [done|]. split; [done|]. intros w. rewrite elem_of_list_singleton. split.
    - intros ->. by apply bd_flag.
    - intros Hb. by destruct Hb. }
  assert (Hb : forall w, bad_default pcre prog o h w <-> exists e w', e ∈ validators (decl_of o) /\ entry_refuses o h e w' /\ w = default_text w').
  { intros w. split.
    - intros Hb. destruct Hb as [|w _ _ Hr]; [done|]. destruct Hr as [e w ? ? ?|e v c w ? ? ? ? ?]; exists e, w; (split; [done|]); (split; [|done]).
      + by apply er_value.
      + by eapply er_text.
    - intros (e & w' & He & Hr & ->). apply bd_refused; [done..|]. destruct Hr; [by eapply dr_value|by eapply dr_text]. }
  unfold all_listable in Hl. unfold validators in *. destruct (d_validators (decl_of o)) as [l|]; simpl in *.
  - pose proof (default_validators_agree o h l Hl SUCCESS) as Ha. destruct (default_validators o h l SUCCESS); [|done].
    destruct Ha as (ms & -> & Hz & Hms). exists ms. split; [done|]. split; [naive_solver|]. intros w. by rewrite Hms, Hb.
  - exists []. split; [done|]. split; [done|]. intros w. rewrite Hb, elem_of_nil. split; [done|].
    intros (e & _ & He & _). by apply elem_of_nil in He.
Qed.

(** ** Entries *)
Lemma flags_not d m (bits : list N) :
  forallb (fun b => Bool.eqb (N.testbit m b) (bool_decide (b ∈ bits))) (map N.of_nat (seq 0 20)) = true ->
  (m < 2 ^ 20)%N -> forallb (fun b => (b <? 20)%N) bits = true ->
  has_other (d_flags d) m = true <-> ~ flags_among d bits.
Proof. intros H1 H2 H3. rewrite <- (flags_spec d m bits H1 H2 H3). destruct (has_other _ _); naive_solver. Qed.
Lemma negSome {A} (x : option A) : negb (isSome x) = true <-> x = None.
Proof. by destruct x. Qed.
Lemma notNone {A} (x : option A) : isSome x = true <-> x <> None.
Proof. by destruct x. Qed.
Lemma nil_if b (m : cstr) : if_then b m = [] <-> b = false.
Proof. by destruct b. Qed.
Lemma concat_spec {A} (f : A -> list cstr) l w : w ∈ concat (map f l) <-> exists x, x ∈ l /\ w ∈ f x.
Proof.
  induction l as [|y l IH]; simpl.
  - rewrite elem_of_nil. split; [done|]. intros (x & Hx & _). by apply elem_of_nil in Hx.
  - rewrite elem_of_app, IH. setoid_rewrite elem_of_cons. naive_solver.
Qed.
Lemma unknown_spec T n : negb (isSome (find_option_by_name T n)) = true <-> unknown (map decl_of T) n.
Proof.
  rewrite negSome. unfold unknown. rewrite find_name_None. split.
  - intros Hn e He. apply elem_of_list_fmap in He as (o & -> & Ho). by apply Hn.
  - intros Hn o Ho. apply Hn. by apply elem_of_list_fmap_1.
Qed.
Lemma dependencies_say_spec T d w : w ∈ dependencies_say T d <->
  (exists n, requires d n /\ conflicts d n /\ w = in_quotes $"Option cannot require and conflict with the same option: " n) \/
  (exists n, requires d n /\ unknown (map decl_of T) n /\ w = in_quotes $"Required option not found " n ++ $" in options") \/
  (exists n, conflicts d n /\ unknown (map decl_of T) n /\ w = in_quotes $"Conflicting option not found " n ++ $" in options").
Proof.
  unfold dependencies_say. cbv zeta. rewrite !elem_of_app, !concat_spec. fold (requires d).
  assert (HT : forall a n b, ($a ++ n ++ $b) = ($a ++ n ++ $b)) by done. clear HT.
  assert (Hq : forall b n e, (b ++ $"'") ++ n ++ $"'" ++ e = in_quotes b n ++ e).
  { intros b n e. unfold in_quotes. by rewrite <- !app_assoc. }
  split.
  - intros [(n & Hn & Hw)|[(n & Hn & Hw)|(n & Hn & Hw)]].
    + apply concat_spec in Hw as (c & Hc & Hw). apply if_then_spec in Hw as [E ->].
      rewrite strcmp_eqb in E. apply bool_decide_eq_true in E as <-. left. exists n. split_and!; try done.
    + apply if_then_spec in Hw as [E ->]. apply unknown_spec in E. right; left. exists n. split_and!; try done.
      rewrite <- Hq. done.
    + apply if_then_spec in Hw as [E ->]. apply unknown_spec in E. do 2 right. exists n. split_and!; try done.
      rewrite <- Hq. done.
  - intros [(n & Hn & Hc & ->)|[(n & Hn & Hu & ->)|(n & Hn & Hu & ->)]].
    + left. exists n. split; [done|]. apply concat_spec. exists n. split; [done|]. apply if_then_spec.
      rewrite strcmp_refl. done.
    + right; left. exists n. split; [done|]. apply if_then_spec. split; [by apply unknown_spec|]. rewrite <- Hq. done.
    + do 2 right. exists n. split; [done|]. apply if_then_spec. split; [by apply unknown_spec|]. rewrite <- Hq. done.
Qed.
Lemma dependencies_nil T d : dependencies_say T d = [] <-> validate_dependencies T d = 0.
Proof.
  rewrite dependencies_spec. split.
  - intros E. assert (Hn : forall w, w ∉ dependencies_say T d) by (intros w; rewrite E; apply not_elem_of_nil).
    clear E. assert (Hu : forall n, ~ unknown (map decl_of T) n -> exists e, e ∈ map decl_of T /\ d_name e = Some n).
    { intros n Hx. destruct (decide (Exists (fun e => d_name e = Some n) (map decl_of T))) as [He|He].
      - apply Exists_exists in He as (e & ? & ?). eauto.
      - exfalso. apply Hx. intros e He' Hne. apply He, Exists_exists. eauto. }
    split.
    + intros n [Hr|Hc]; apply Hu; intros Hx.
      * eapply Hn. apply dependencies_say_spec. right; left. eauto.
      * eapply Hn. apply dependencies_say_spec. do 2 right. eauto.
    + intros n Hr Hc. eapply Hn. apply dependencies_say_spec. left. eauto.
  - intros (Hk & Hd). destruct (dependencies_say T d) as [|w l] eqn:E; [done|]. exfalso.
    assert (Hw : w ∈ dependencies_say T d) by (rewrite E; by left).
    assert (Hu : forall n, unknown (map decl_of T) n -> ~ exists e, e ∈ map decl_of T /\ d_name e = Some n).
    { intros n Hn (e & He & Hne). by apply (Hn e He). }
    apply dependencies_say_spec in Hw as [(n & Hr & Hc & _)|[(n & Hr & Hx & _)|(n & Hr & Hx & _)]].
    + by apply (Hd n).
    + apply (Hu n Hx), Hk. by left.
    + apply (Hu n Hx), Hk. by right.
Qed.
Lemma app_nil_iff {A} (l k : list A) : l ++ k = [] <-> l = [] /\ k = [].
Proof. split; [apply app_nil|by intros [-> ->]]. Qed.

Ltac flags m bits := let F := fresh "F" in
  match goal with d := decl_of _ |- _ =>
    pose proof (flags_not d m bits ltac:(vm_compute; done) ltac:(done) ltac:(done)) as F end.
Lemma option_agree T o h : all_listable (decl_of o) ->
  match validate_option T o h with
  | Ok st => exists ms, option_says pcre p T o h = Ok ms /\ (st = 0 <-> ms = []) /\
      forall w, w ∈ ms <-> malformed pcre prog (map decl_of T) o h TOption w
  | UB _ => exists u, option_says pcre p T o h = UB u
  end.
Proof.
  intros Hl. pose proof (default_agree o h Hl) as Hd. unfold validate_option, option_says. cbv zeta. set (d := decl_of o).
  destruct (validate_default_value o h) as [dv|u]; cbn [rbind].
  2:{ destruct Hd as [u' ->]. cbn [rbind]. eauto. }
  destruct Hd as (ms & -> & Hz & Hms). cbn [rbind]. eexists. split; [reflexivity|]. split.
  - rewrite !app_nil_iff, !nil_if, <- Hz, dependencies_nil.
    repeat ((rewrite status_if by done) || (rewrite status_if_not by done)).
    rewrite !Z.eqb_eq, !negb_false_iff. change SUCCESS with 0. tauto.
  - flags OPTION_FLAG_MASK [0; 1; 2; 3; 4; 5]%N. flags OPTION_ARRAY_FLAG_MASK [3; 4; 9; 10]%N.
    flags OPTION_MAP_FLAG_MASK [3; 4; 11; 12; 13]%N.
    intros w. rewrite !elem_of_app, !if_then_spec, Hms, dependencies_say_spec, !negSome, !orb_true_iff, !andb_true_iff, negSome,
      Ascii.eqb_eq, F, F0, F1, !N.eqb_eq.
    change VT_PRIMITIVE with 15%N. change VT_ARRAY with 224%N. change VT_MAP with 3840%N. split.
    + intros [((? & ?) & ->)|[(Hf & ->)|[(? & ->)|[(? & ->)|[?|[(n & ? & ? & ->)|[(n & ? & ? & ->)|(n & ? & ? & ->)]]]]]]].
      * by apply mf_callable.
      * destruct Hf as [[(Ev & ?)|(Ev & ?)]|(Ev & ?)]; (eapply mf_flags; [fold d; rewrite Ev; rewrite !elem_of_cons; eauto|done]).
      * by apply mf_help.
      * by apply mf_handler.
      * by apply mf_default.
      * by apply mf_both.
      * by apply mf_require.
      * by apply mf_conflict.
    + intros Hm. remember TOption as ty eqn:Ety. destruct Hm as [| | | | | | | | | | | | | | | | | | | | | | | |]; try discriminate Ety; subst d; clear Ety.
      * by left.
      * right; left. split; [|done].
        match goal with Hb : (_, _) ∈ _ |- _ => rewrite !elem_of_cons, elem_of_nil in Hb; destruct Hb as [[= -> ->]|[[= -> ->]|[[= -> ->]|[]]]] end.
        -- left; by left.
        -- left; by right.
        -- by right.
      * do 2 right; by left.
      * do 3 right; by left.
      * do 4 right; by left.
      * do 5 right; left. eauto.
      * do 6 right; left. eauto.
      * do 7 right. eauto.
Qed.
Lemma positional_agree T o h : all_listable (decl_of o) ->
  match validate_positional o h with
  | Ok st => exists ms, positional_says pcre p o h = Ok ms /\ (st = 0 <-> ms = []) /\
      forall w, w ∈ ms <-> malformed pcre prog T o h TPositional w
  | UB _ => exists u, positional_says pcre p o h = UB u
  end.
Proof.
  intros Hl. pose proof (default_agree o h Hl) as Hd. unfold validate_positional, positional_says. cbv zeta. set (d := decl_of o).
  destruct (validate_default_value o h) as [dv|u]; cbn [rbind].
  2:{ destruct Hd as [u' ->]. cbn [rbind]. eauto. }
  destruct Hd as (ms & -> & Hz & Hms). cbn [rbind]. eexists. split; [reflexivity|]. split.
  - rewrite !app_nil_iff, !nil_if, <- Hz.
    repeat ((rewrite status_if by done) || (rewrite status_if_not by done)).
    rewrite !Z.eqb_eq, !negb_false_iff. change SUCCESS with 0. tauto.
  - flags POSITIONAL_MANY_FLAG_MASK [0; 3; 4; 9; 10]%N. flags POSITIONAL_FLAG_MASK [0]%N.
    pose proof (required_bit d) as Hr. pose proof (variadic_dec d) as Hv.
    intros w. rewrite !elem_of_app, !if_then_spec, Hms, !negSome, !orb_true_iff, !andb_true_iff, F, F0, Hr, Hv, !notNone.
    split.
    + intros [(? & ->)|[(? & ->)|[((? & ?) & ->)|[(? & ->)|[(? & ->)|[((? & ?) & ->)|[?|(? & ->)]]]]]]].
      * by apply mf_p_name.
      * by apply mf_p_help.
      * by apply mf_p_many.
      * by apply mf_p_flags.
      * by apply mf_p_handler.
      * by apply mf_p_required.
      * by apply mf_p_default.
      * by apply mf_p_alone.
    + intros Hm. remember TPositional as ty eqn:Ety. destruct Hm; try discriminate Ety; subst d; clear Ety; tauto.
Qed.
Lemma group_agree T o h : (validate_group (decl_of o) = 0 <-> group_says (decl_of o) = []) /\
  forall w, w ∈ group_says (decl_of o) <-> malformed pcre prog T o h TGroup w.
Proof.
  unfold validate_group, group_says. set (d := decl_of o). flags GROUP_FLAG_MASK [14]%N. split.
  - rewrite nil_if, status_if by done. naive_solver.
  - intros w. rewrite if_then_spec, F. split.
    + intros (? & ->). by apply mf_g_flags.
    + intros Hm. remember TGroup as ty eqn:Ety. destruct Hm; try discriminate Ety; subst d; clear Ety; tauto.
Qed.
Lemma subcommand_agree T o h : (validate_subcommand (decl_of o) = 0 <-> subcommand_says (decl_of o) = []) /\
  forall w, w ∈ subcommand_says (decl_of o) <-> malformed pcre prog T o h TSubcommand w.
Proof.
  unfold validate_subcommand, subcommand_says. cbv zeta. set (d := decl_of o). split.
  - rewrite !app_nil_iff, !nil_if.
    repeat ((rewrite status_if by done) || (rewrite status_if_not by done)).
    rewrite !negb_false_iff. change SUCCESS with 0. tauto.
  - flags SUBCOMMAND_FLAG_MASK [1; 2; 3; 4]%N.
    intros w. rewrite !elem_of_app, !if_then_spec, !negSome, !orb_true_iff, F, !notNone. split.
    + intros [(? & ->)|[(? & ->)|[(? & ->)|[(? & ->)|[(? & ->)|[(? & ->)|[(? & ->)|(? & ->)]]]]]]].
      * by apply mf_s_name.
      * by apply mf_s_help.
      * by apply mf_s_options.
      * by apply mf_s_flags.
      * by apply mf_s_handler.
      * by apply mf_s_alone.
      * by apply mf_s_default.
      * by apply mf_s_validators.
    + intros Hm. remember TSubcommand as ty eqn:Ety. destruct Hm; try discriminate Ety; subst d; clear Ety; tauto.
Qed.

Definition table_listable (T : list opt) : Prop := forall o, o ∈ T -> all_listable (decl_of o).
Lemma format_agree T h l : forall i st, table_listable l ->
  match validate_type_format T l h st with
  | Ok st' => exists rs, format_reports pcre p T i l h = Ok rs /\ (st' = 0 <-> st = 0 /\ rs = []) /\
      forall k w, (k, w) ∈ rs <-> exists j o, k = (i + j)%nat /\ l !! j = Some o /\
        malformed pcre prog (map decl_of T) o h (d_type (decl_of o)) w
  | UB _ => exists u, format_reports pcre p T i l h = UB u
  end.
Proof.
  induction l as [|o l IH]; intros i st Hl; cbn [validate_type_format format_reports].
  { exists []. split; [done|]. split; [naive_solver|]. intros k w. rewrite elem_of_nil. split; [done|].
    intros ([|j] & o & _ & ? & _); done. }
  assert (He : match (match d_type (decl_of o) with
        | TOption => validate_option T o h
        | TPositional => validate_positional o h
        | TGroup => Ok (validate_group (decl_of o))
        | TSubcommand => Ok (validate_subcommand (decl_of o))
        end) with
    | Ok st => exists ms, entry_says pcre p T o h = Ok ms /\ (st = 0 <-> ms = []) /\
        forall w, w ∈ ms <-> malformed pcre prog (map decl_of T) o h (d_type (decl_of o)) w
    | UB _ => exists u, entry_says pcre p T o h = UB u
    end).
  { assert (Ho : all_listable (decl_of o)) by (apply Hl; by left). unfold entry_says.
    destruct (d_type (decl_of o)).
    - by apply option_agree.
    - eexists. split; [done|]. apply group_agree.
    - by apply positional_agree.
    - eexists. split; [done|]. apply subcommand_agree. }
  cbv zeta. destruct (match d_type (decl_of o) with TOption => _ | _ => _ end) as [r|u]; cbn [rbind].
  2:{ destruct He as [u' ->]. cbn [rbind]. eauto. }
  destruct He as (ms & -> & Hz & Hms). cbn [rbind].
  specialize (IH (S i) (if r =? SUCCESS then st else E_MALFORMED_OPTION) ltac:(intros x Hx; apply Hl; by right)).
  destruct (validate_type_format T l h (if r =? SUCCESS then st else E_MALFORMED_OPTION)) as [st'|u].
  2:{ destruct IH as [u' ->]. cbn [rbind]. eauto. }
  destruct IH as (rs & -> & Hst & Hrs). cbn [rbind]. eexists. split; [reflexivity|]. split.
  - rewrite Hst, status_if_not by done. rewrite Z.eqb_eq. change SUCCESS with 0. rewrite Hz, app_nil_iff.
    assert (Hmap : map (pair i) ms = [] <-> ms = []) by (by destruct ms). rewrite Hmap. tauto.
  - intros k w. rewrite elem_of_app, pair_spec, Hms, Hrs. split.
    + intros [(-> & Hm)|(j & o' & -> & Hj & Hm)]; [exists O, o|exists (S j), o']; (split; [lia|]); done.
    + intros ([|j] & o' & -> & Hj & Hm).
      * injection Hj as <-. left. split; [lia|done].
      * right. exists j, o'. split; [lia|]. done.
Qed.

(** ** A table *)
Lemma nil_none {A B} (l : list (A * B)) : l = [] <-> forall k w, (k, w) ∉ l.
Proof.
  split; [intros -> k w; apply not_elem_of_nil|]. destruct l as [|[k w] l]; [done|]. intros Hx.
  exfalso. apply (Hx k w). by left.
Qed.
Lemma placement_nil T : placement_reports (Placement false false false false false SUCCESS) O T = [] <-> validate_placement T = 0.
Proof.
  rewrite placement_spec, nil_none. setoid_rewrite placement_reports_ok. set (D := map decl_of T). split.
  - intros Hn. split.
    + destruct (decide (Exists (fun d => d_type d = TOption /\ d_name d = Some ($"help")) D)) as [He|He].
      { apply Exists_exists in He as (d & ? & ? & ?). eauto. }
      exfalso. eapply (Hn O). apply mp_help; [done|]. intros d Hd Ht Hx. apply He, Exists_exists. eauto.
    + intros i j d e Hij Hi Hj Hp Hr Hp' Hr'. eapply (Hn j). eapply mp_required; try done. by exists i, d.
    + intros i j d e Hij Hi Hj Hp Hr Hv Hp'. destruct (has (d_flags e) FLAG_REQUIRED) eqn:Er.
      * apply required_bit in Er. destruct (has (d_vtype e) VT_VARIADIC) eqn:Ev.
        -- apply variadic_dec in Ev. eapply (Hn j). eapply mp_second; [done|by repeat split|]. by exists i, d.
        -- assert (~ variadic e) by (rewrite <- variadic_dec, Ev; done).
           eapply (Hn j). eapply mp_after; [done|by repeat split|]. by exists i, d.
      * assert (~ required e) by (rewrite <- required_bit, Er; done). eapply (Hn j). eapply mp_optional; [by eexists| |].
        -- by exists j, e.
        -- exists i, d. split; [lia|]. done.
    + intros d e Hd He Hp Hr Hv Hs. apply elem_of_list_lookup in Hd as [i Hi]. apply elem_of_list_lookup in He as [j Hj].
      eapply (Hn (i `max` j)%nat). eapply mp_mixed.
      * destruct (Nat.max_spec i j) as [[_ ->]|[_ ->]]; by eexists.
      * exists j, e. split; [lia|done].
      * exists i, d. split; [lia|done].
    + intros i j d e Hij Hi Hj Hs Ho. eapply (Hn j). eapply mp_option; try done. by exists i, d.
  - intros [Wh Wo Wv Wm Ws] k w Hm.
    assert (Hpl : placed D) by done. destruct (placed_apart _ Hpl) as [A1 A2].
    assert (Hup : forall P, up_to D k P -> some_in D P).
    { intros P (j & e & _ & He & HP). exists e. split; [by eapply elem_of_list_lookup_2|done]. }
    destruct Hm as [d Hd (? & ? & ?) (j & e & Hj & He & ? & ? & ?)|d Hd (? & ? & ?) (j & e & Hj & He & ? & ? & ?)|_ Ho Hm|
      d Hd Ho (j & e & Hj & He & Hs)|_ Hs Hp|d Hd ? ? (j & e & Hj & He & ? & ?)|_ Hh].
    + by apply (Wv j k e d).
    + by apply (Wv j k e d).
    + by apply A1; split; apply Hup.
    + by apply (Ws j k e d).
    + by apply A2; split; apply Hup.
    + by apply (Wo j k e d).
    + destruct Wh as (d & ? & ? & ?). by apply (Hh d).
Qed.
Lemma naming_nil t T : naming_reports line_of t O T [] = [] <-> validate_naming T = 0.
Proof.
  rewrite naming_spec, nil_none. setoid_rewrite naming_reports_ok. set (D := map decl_of T). split.
  - intros Hn. assert (Hn' : forall k d w, D !! k = Some d -> ~ misnamed line_of t D k d w) by (intros k d w ? ?; eapply Hn; eauto).
    clear Hn. rename Hn' into Hn. split.
    + intros d Hd Ht. apply elem_of_list_lookup in Hd as [k Hk]. destruct (d_name d) as [[|c n]|] eqn:En.
      * exfalso. eapply Hn; [done|]. apply mn_name; [done|by right].
      * by eexists.
      * exfalso. eapply Hn; [done|]. apply mn_name; [done|by left].
    + intros i j d e Hij Hi Hj Hs. destruct (decide (d_sname d = Ascii.zero)) as [|Hz]; [done|]. exfalso.
      destruct (lt_eq_lt_dec i j) as [[Hl|?]|Hl]; [|done|].
      * eapply (Hn j e); [done|]. apply mn_used; [congruence|]. by exists i, d.
      * eapply (Hn i d); [done|]. apply mn_used; [congruence|]. by exists j, e.
    + intros i j d e l Hij Hi Hj Hd He. destruct (lt_eq_lt_dec i j) as [[Hl|?]|Hl]; [|done|].
      * eapply (Hn i d); [done|]. by eapply mn_long.
      * eapply (Hn j e); [done|]. by eapply mn_long.
    + intros i j d e l Hij Hi Hj Hd He. eapply (Hn i d); [done|]. by eapply mn_conflict.
    + intros d l Hd El. apply elem_of_list_lookup in Hd as [k Hk]. split_and!.
      * intros ->. eapply Hn; [done|]. by apply mn_empty.
      * intros s ->. eapply Hn; [done|]. by eapply mn_start.
      * intros Hx. eapply Hn; [done|]. by eapply mn_spaces.
      * intros Hx. eapply Hn; [done|]. by eapply mn_dots.
    + intros d Hd. apply elem_of_list_lookup in Hd as [k Hk]. split; intros Hx; (eapply Hn; [done|]).
      * by apply mn_space.
      * by apply mn_hyphen.
  - intros [W1 W2 W3 W4 W5 W6] k w (d & Hd & Hm). pose proof (elem_of_list_lookup_2 _ _ _ Hd) as Hin.
    destruct Hm as [Ht Hn|Hs|Hs|Hz (j & e & Hj & He & Hs)|l El|l El Hx|l El Hx|El|l j e El Hj He Hn|l j e El Hj He Hn].
    + destruct (W1 d Hin Ht) as (n & En & ?). destruct Hn; congruence.
    + by destruct (W6 d Hin).
    + by destruct (W6 d Hin).
    + apply Hz. apply (W2 k j d e); [lia|done..].
    + destruct (W5 d _ Hin El) as (_ & Hx & _). by apply (Hx l).
    + by destruct (W5 d _ Hin El) as (_ & _ & ? & _).
    + by destruct (W5 d _ Hin El) as (_ & _ & _ & ?).
    + by destruct (W5 d _ Hin El) as (? & _).
    + by apply (W4 k j d e l).
    + apply (W3 k j d e l); try done. lia.
Qed.

(** ** The recursion *)
Definition depth_text : cstr := $"Subcommand depth exceeds maximum allowed (8)".
Definition table_fault (a : argus) (t i : nat) (w : cstr) : Prop :=
  exists T, a_tabs a !! t = Some T /\
    (misplaced (map decl_of T) i w \/
     (exists d, map decl_of T !! i = Some d /\ misnamed line_of t (map decl_of T) i d w) \/
     (exists o, T !! i = Some o /\ malformed pcre prog (map decl_of T) o (a_heap a) (d_type (decl_of o)) w)).
Definition fault_from (a : argus) (t depth t' i : nat) (w : cstr) : Prop :=
  (reachable (decls a) t t' /\ table_fault a t' i w) \/
  (exists stk, chain (decls a) t (stk ++ [(t', i)]) /\ (8 <= depth + length stk)%nat /\ w = depth_text).
Lemma decls_inv a t D : decls a !! t = Some D -> exists T, a_tabs a !! t = Some T /\ D = map decl_of T.
Proof. unfold decls. rewrite list_lookup_fmap. destruct (a_tabs a !! t); simpl; [|done]. intros [= <-]. eauto. Qed.
Lemma fault_from_root a t i w : fault pcre prog line_of a t i w <-> fault_from a (a_root a) 0 t i w.
Proof.
  unfold fault_from, table_fault. split.
  - intros Hf. destruct Hf as [D w Hr HD Hm|D d w Hr HD Hd Hm|T o w Hr HT Ho Hm|stk Hc Hl].
    + apply decls_inv in HD as (T & HT & ->). left. split; [done|]. exists T. split; [done|]. by left.
    + apply decls_inv in HD as (T & HT & ->). left. split; [done|]. exists T. split; [done|]. right; left. eauto.
    + left. split; [done|]. exists T. split; [done|]. do 2 right. eauto.
    + right. exists stk. split_and!; done.
  - intros [(Hr & T & HT & [Hm|[(d & Hd & Hm)|(o & Ho & Hm)]])|(stk & Hc & Hl & ->)].
    + eapply ft_place; [done|by apply decls_tab|done].
    + eapply ft_name; [done|by apply decls_tab|done|done].
    + by eapply ft_entry.
    + by eapply ft_depth.
Qed.
Lemma reachable_unroll D t t' : reachable D t t' <-> t' = t \/ exists t1, below D t t1 /\ reachable D t1 t'.
Proof.
  split.
  - intros [->|Hw]; [by left|right]. destruct Hw as [t' Hb|t1 t' Hb Hw].
    + exists t'. split; [done|]. by left.
    + exists t1. split; [done|]. by right.
  - intros [->|(t1 & Hb & Hr)]; [by left|]. by eapply reach_step.
Qed.
(** What the loop over the subcommands in [l], from position [i] of table [t] on, finds *)
Definition sub_fault (a : argus) (t depth i : nat) (l : list opt) (t' k : nat) (w : cstr) : Prop :=
  exists j o t1, l !! j = Some o /\ d_type (decl_of o) = TSubcommand /\ d_sub (decl_of o) = Some t1 /\
    ((8 <= depth)%nat /\ t' = t /\ k = (i + j)%nat /\ w = depth_text \/ fault_from a t1 (S depth) t' k w).
Lemma subs_agree a fuel t l : (forall t depth,
   match validate_structure fuel a t depth with
   | Ok (st, d') => exists rs, structure_reports pcre p line_of fuel a t depth = Ok (rs, d') /\ (st = 0 <-> rs = []) /\
       is_Some (a_tabs a !! t) /\ forall t' i w, Report t' i w ∈ rs <-> fault_from a t depth t' i w
   | UB _ => exists u, structure_reports pcre p line_of fuel a t depth = UB u
   end) -> forall i st depth,
  match validate_subs (validate_structure fuel a) l st depth with
  | Ok (st', d') => exists rs, subs_reports (structure_reports pcre p line_of fuel a) t i l depth = Ok (rs, d') /\
      (st' = 0 <-> st = 0 /\ rs = []) /\
      (forall o t1, o ∈ l -> d_type (decl_of o) = TSubcommand -> d_sub (decl_of o) = Some t1 -> is_Some (a_tabs a !! t1)) /\
      forall t' k w, Report t' k w ∈ rs <-> sub_fault a t depth i l t' k w
  | UB _ => exists u, subs_reports (structure_reports pcre p line_of fuel a) t i l depth = UB u
  end.
Proof.
  intros Hrec. induction l as [|o l IH]; intros i st depth; cbn [validate_subs subs_reports].
  { exists []. split; [done|]. split; [naive_solver|]. split; [intros o t1 Ho; by apply elem_of_nil in Ho|].
    intros t' k w. rewrite elem_of_nil. split; [done|]. intros ([|j] & o & t1 & ? & _); done. }
  assert (Hskip : (d_type (decl_of o) <> TSubcommand \/ d_sub (decl_of o) = None) ->
     match validate_subs (validate_structure fuel a) l st depth with
     | Ok (st', d') => exists rs, subs_reports (structure_reports pcre p line_of fuel a) t (S i) l depth = Ok (rs, d') /\
         (st' = 0 <-> st = 0 /\ rs = []) /\
         (forall o' t1, o' ∈ o :: l -> d_type (decl_of o') = TSubcommand -> d_sub (decl_of o') = Some t1 -> is_Some (a_tabs a !! t1)) /\
         forall t' k w, Report t' k w ∈ rs <-> sub_fault a t depth i (o :: l) t' k w
     | UB _ => exists u, subs_reports (structure_reports pcre p line_of fuel a) t (S i) l depth = UB u
     end).
  { intros Hn. specialize (IH (S i) st depth). destruct (validate_subs _ l st depth) as [[st' d']|u]; [|done].
    destruct IH as (rs & -> & Hz & Hp & Hrs). exists rs. split; [done|]. split; [done|]. split.
    - intros o' t1 Ho. apply elem_of_cons in Ho as [->|Ho]; [|by eapply Hp]. intros ? ?. destruct Hn; congruence.
    - intros t' k w. rewrite Hrs. unfold sub_fault. split.
      + intros (j & o' & t1 & ? & ? & ? & Hx). exists (S j), o', t1. split_and!; try done.
        destruct Hx as [(? & ? & ? & ?)|?]; [left|by right]. split_and!; try done. lia.
      + intros ([|j] & o' & t1 & Hj & ? & ? & Hx).
        * injection Hj as <-. destruct Hn; congruence.
        * exists j, o', t1. split_and!; try done.
          destruct Hx as [(? & ? & ? & ?)|?]; [left|by right]. split_and!; try done. lia. }
  destruct (d_type (decl_of o)) eqn:Et; try (apply Hskip; by left).
  destruct (d_sub (decl_of o)) as [t1|] eqn:Es; [|apply Hskip; by right]. clear Hskip. cbv zeta.
  pose proof (Hrec t1 (S depth)) as Hr. pose proof (structure_depth fuel a t1 (S depth)) as Hd.
  destruct (validate_structure fuel a t1 (S depth)) as [[r depth2]|u]; cbn [rbind].
  2:{ destruct Hr as [u' ->]. cbn [rbind]. eauto. }
  rewrite (Hd _ _ eq_refl) in *. clear Hd. destruct Hr as (rs1 & -> & Hz1 & Hp1 & Hrs1). cbn [rbind Nat.sub]. rewrite Nat.sub_0_r.
  set (st2 := if r =? SUCCESS then _ else _).
  specialize (IH (S i) st2 depth). destruct (validate_subs _ l st2 depth) as [[st' d']|u].
  2:{ destruct IH as [u' ->]. cbn [rbind]. eauto. }
  destruct IH as (rs & -> & Hz & Hp & Hrs). cbn [rbind]. eexists. split; [reflexivity|]. split; [|split].
  - rewrite Hz. unfold st2. rewrite status_if_not, status_if by done. rewrite Z.eqb_eq. change SUCCESS with 0.
    rewrite !app_nil_iff, Hz1. destruct (MAX_SUBCOMMAND_DEPTH <? S depth)%nat; naive_solver.
  - intros o' t2 Ho. apply elem_of_cons in Ho as [->|Ho]; [|by eapply Hp]. intros _ E. congruence.
  - intros t' k w. rewrite !elem_of_app, Hrs1, Hrs.
    assert (Hhere : Report t' k w ∈ (if (MAX_SUBCOMMAND_DEPTH <? S depth)%nat then [Report t i depth_text] else []) <->
      (8 <= depth)%nat /\ t' = t /\ k = i /\ w = depth_text).
    { destruct (Nat.ltb_spec MAX_SUBCOMMAND_DEPTH (S depth)) as [Hlt|Hlt]; unfold MAX_SUBCOMMAND_DEPTH in Hlt.
      - rewrite elem_of_list_singleton. split; [intros [= -> -> ->]; split_and!; try done; lia|by intros (_ & -> & -> & ->)].
      - rewrite elem_of_nil. split; [done|]. intros (? & _). lia. }
    change ($"Subcommand depth exceeds maximum allowed (" ++ dec (Z.of_nat MAX_SUBCOMMAND_DEPTH) ++ $")") with depth_text.
    rewrite Hhere. unfold sub_fault. split.
    + intros [(? & ? & ? & ?)|[Hf|(j & o' & t2 & ? & ? & ? & Hx)]].
      * exists O, o, t1. split_and!; try done. left. split_and!; try done. lia.
      * exists O, o, t1. split_and!; try done. by right.
      * exists (S j), o', t2. split_and!; try done. destruct Hx as [(? & ? & ? & ?)|?]; [left|by right]. split_and!; try done. lia.
    + intros ([|j] & o' & t2 & Hj & ? & Es' & Hx).
      * injection Hj as <-. rewrite Es in Es'. injection Es' as <-. destruct Hx as [(? & ? & ? & ?)|?]; [left|right; by left].
        split_and!; try done. lia.
      * do 2 right. exists j, o', t2. split_and!; try done. destruct Hx as [(? & ? & ? & ?)|?]; [left|by right]. split_and!; try done. lia.
Qed.
Lemma structure_agree a fuel : (forall t T, a_tabs a !! t = Some T -> table_listable T) -> forall t depth,
  match validate_structure fuel a t depth with
  | Ok (st, d') => exists rs, structure_reports pcre p line_of fuel a t depth = Ok (rs, d') /\ (st = 0 <-> rs = []) /\
      is_Some (a_tabs a !! t) /\ forall t' i w, Report t' i w ∈ rs <-> fault_from a t depth t' i w
  | UB _ => exists u, structure_reports pcre p line_of fuel a t depth = UB u
  end.
Proof.
  intros Hl. induction fuel as [|fuel IH]; intros t depth; cbn [validate_structure structure_reports]; [eauto|].
  unfold table. destruct (a_tabs a !! t) as [T|] eqn:ET; cbn [rbind]; [|eauto]. cbv zeta.
  pose proof (format_agree T (a_heap a) T O SUCCESS (Hl _ _ ET)) as Hf.
  destruct (validate_type_format T T (a_heap a) SUCCESS) as [tf|u]; cbn [rbind].
  2:{ destruct Hf as [u' ->]. cbn [rbind]. eauto. }
  destruct Hf as (fr & -> & Hfz & Hfr). cbn [rbind].
  set (st := if tf =? SUCCESS then _ else _).
  pose proof (subs_agree a fuel t T IH O st depth) as Hs.
  destruct (validate_subs (validate_structure fuel a) T st depth) as [[st' d']|u].
  2:{ destruct Hs as [u' ->]. cbn [rbind]. eauto. }
  destruct Hs as (rs & -> & Hsz & Hp & Hrs). cbn [rbind]. eexists. split; [reflexivity|]. split; [|split; [by eexists|]].
  - rewrite Hsz. unfold st. rewrite !status_if_not by done. rewrite !Z.eqb_eq. change SUCCESS with 0 in *.
    rewrite Hfz, <- placement_nil, <- (naming_nil t), app_nil_iff.
    assert (Hat : forall l, at_table t l = [] <-> l = []) by (by intros []). rewrite Hat, !app_nil_iff. tauto.
  - intros t' i w. rewrite elem_of_app, Hrs.
    assert (Hat : forall l, Report t' i w ∈ at_table t l <-> t' = t /\ (i, w) ∈ l).
    { intros l. unfold at_table. rewrite elem_of_list_fmap. split.
      - intros ([k x] & [= -> -> ->] & ?). done.
      - intros (-> & ?). by exists (i, w). }
    rewrite Hat, !elem_of_app, placement_reports_ok, naming_reports_ok, Hfr.
    unfold fault_from, sub_fault. split.
    + intros [(-> & Hx)|(j & o & t1 & Hj & Ht & Es & Hx)].
      * left. split; [by left|]. exists T. split; [done|]. destruct Hx as [?|[?|(j & o & -> & ? & ?)]]; [by left|right; by left|].
        do 2 right. by exists o.
      * assert (HT1 : is_Some (decls a !! t1)).
        { destruct (Hp o t1) as [T1 HT1]; [by eapply elem_of_list_lookup_2|done|done|]. by rewrite (decls_tab _ _ _ HT1). }
        assert (Hj' : map decl_of T !! j = Some (decl_of o)) by (by rewrite list_lookup_fmap, Hj).
        destruct Hx as [(? & -> & -> & ->)|[(Hr & Hx)|(stk & Hc & ? & ->)]].
        -- right. exists []. simpl. split; [|split; [lia|done]]. exists (map decl_of T), (decl_of o), t1.
           rewrite (decls_tab _ _ _ ET). done.
        -- left. split; [|done]. eapply reach_step; [|done]. exists (map decl_of T), j, (decl_of o).
           rewrite (decls_tab _ _ _ ET). done.
        -- right. exists ((t, j) :: stk). simpl. split; [|split; [lia|done]]. exists (map decl_of T), (decl_of o), t1.
           rewrite (decls_tab _ _ _ ET). done.
    + intros [(Hr & Hx)|(stk & Hc & ? & ->)].
      * apply reachable_unroll in Hr as [->|(t1 & (D & j & d & HD & Hj & Ht & Es) & Hr)].
        -- left. split; [done|]. destruct Hx as (T' & HT' & Hx). rewrite ET in HT'. injection HT' as <-.
           destruct Hx as [?|[?|(o & ? & ?)]]; [by left|right; by left|]. do 2 right. by exists i, o.
        -- right. rewrite (decls_tab _ _ _ ET) in HD. injection HD as <-. rewrite list_lookup_fmap in Hj.
           destruct (T !! j) as [o|] eqn:Ho; [|done]. injection Hj as <-. exists j, o, t1. split_and!; try done.
           right. left. done.
      * right. destruct stk as [|[t0 j] stk]; cbn [app chain fst snd length] in *;
          destruct Hc as (D & d & t1 & -> & HD & Hj & Ht & Es & HT1 & Hc);
          rewrite (decls_tab _ _ _ ET) in HD; injection HD as <-; rewrite list_lookup_fmap in Hj.
        -- destruct (T !! i) as [o|] eqn:Ho; [|done]. injection Hj as <-. exists i, o, t1. split_and!; try done.
           left. split_and!; try done. lia.
        -- destruct (T !! j) as [o|] eqn:Ho; [|done]. injection Hj as <-. exists j, o, t1. split_and!; try done.
           right. right. exists stk. split_and!; try done. lia.
Qed.

(** ** The lines *)
Lemma line_spec f l (o : option opt) w : exists t, struct_error_line (Some f) l o w = Ok t /\
  complaint f l (decl_of <$> o) w t.
Proof.
  unfold struct_error_line. eexists. split; [reflexivity|].
  assert (Hx : forall hd body, heading (decl_of <$> o) hd ->
    hd = body ++ $" ]:" -> complaint f l (decl_of <$> o) w
      (f ++ $":" ++ dec l ++ $" -> " ++ body ++ $" ]:" ++ [newline] ++ ["009"%char] ++ w ++ [newline])).
  { intros hd body Hh ->. exists (body ++ $" ]:"). split; [done|]. unfold line_end. change newline with "010"%char.
    rewrite <- (app_assoc body). done. }
  match goal with |- complaint _ _ _ _ (_ ++ _ ++ _ ++ _ ++ ?k ++ ?n ++ _) => rewrite (app_assoc k n) end.
  destruct o as [o|]; simpl fmap in *.
  2:{ eapply Hx; [apply hd_end|]. done. }
  set (d := decl_of o) in *. destruct (d_name d) as [n|] eqn:En.
  2:{ destruct (d_type d) eqn:Et.
      - eapply Hx; [apply (hd_unnamed d ($"Option")); [done|]; rewrite Et, !elem_of_cons; tauto|done].
      - eapply Hx; [apply (hd_unnamed d ($"Group")); [done|]; rewrite Et, !elem_of_cons; tauto|done].
      - eapply Hx; [apply (hd_unnamed d ($"Positional")); [done|]; rewrite Et, !elem_of_cons; tauto|done].
      - eapply Hx; [apply (hd_unnamed d ($"Subcommand")); [done|]; rewrite Et, !elem_of_cons; tauto|done]. }
  assert (Hty : forall ty, d_type d = ty -> type_is TOption d = bool_decide (ty = TOption)) by (intros ty <-; done).
  destruct (d_type d) eqn:Et; rewrite (Hty _ eq_refl); cbv beta iota.
  - change (bool_decide (TOption = TOption)) with true. cbv iota.
    replace (match d_lname d with Some l => $"--" ++ l | None => [] end ++
        (if Ascii.eqb (d_sname d) NUL then [] else $" -" ++ [d_sname d])) with (called_by d).
    + eapply Hx; [by eapply hd_option|]. by rewrite <- app_assoc.
    + unfold called_by. f_equal. destruct (decide (d_sname d = Ascii.zero)) as [->|N]; [done|].
      destruct (Ascii.eqb_spec (d_sname d) NUL); done.
  - eapply Hx; [by eapply hd_group|]. by rewrite <- app_assoc.
  - eapply Hx; [by eapply hd_positional|]. by rewrite <- app_assoc.
  - eapply Hx; [by eapply hd_sub|]. by rewrite <- app_assoc.
Qed.
Context (file_of : nat -> nat -> option cstr).
Definition unpack (r : report) : nat * nat * cstr := (r_tab r, r_at r, r_text r).
Lemma reports_told a l : (forall r, r ∈ l -> is_Some (a_tabs a !! r_tab r) /\ is_Some (file_of (r_tab r) (r_at r))) ->
  exists out, reports_text file_of line_of a l = Ok out /\ told_of line_of file_of a (map unpack l) out.
Proof.
  induction l as [|r l IH]; intros Hl; cbn [reports_text map].
  { eexists. split; [done|]. apply to_nil. }
  destruct IH as (out & IH & Ho); [intros; apply Hl; by right|].
  destruct (Hl r) as [[T HT] [f Hf]]; [by left|]. unfold table. rewrite HT. cbn [rbind]. rewrite Hf.
  destruct (line_spec f (line_of (r_tab r) (r_at r)) (T !! r_at r) (r_text r)) as (t & -> & Ht). cbn [rbind].
  rewrite IH. cbn [rbind]. eexists. split; [reflexivity|]. eapply to_cons; [by apply decls_tab|done| |done].
  rewrite list_lookup_fmap. done.
Qed.
Lemma reports_no_file a l r : r ∈ l -> file_of (r_tab r) (r_at r) = None -> exists u, reports_text file_of line_of a l = UB u.
Proof.
  induction l as [|x l IH]; intros Hr Hf; [by apply elem_of_nil in Hr|]. cbn [reports_text].
  destruct (table a (r_tab x)) as [T|]; cbn [rbind]; [|eauto]. apply elem_of_cons in Hr as [->|Hr].
  - rewrite Hf. cbn. eauto.
  - destruct (struct_error_line _ _ _ _); cbn [rbind]; [|eauto]. destruct (IH Hr Hf) as [u ->]. cbn [rbind]. eauto.
Qed.
Lemma fault_table a t depth t' i w : fault_from a t depth t' i w -> is_Some (a_tabs a !! t').
Proof.
  intros [(_ & T & HT & _)|(stk & Hc & _)]; [by eexists|]. revert t Hc.
  induction stk as [|r stk IH]; intros t (D & d & t1 & Hr & HD & _ & _ & _ & _ & Hc).
  - simpl in Hr. subst. apply decls_inv in HD as (T & ? & _). by eexists.
  - by eapply IH.
Qed.
Lemma init_told fuel tabs root x d' : (forall T o e, T ∈ tabs -> o ∈ T -> e ∈ validators (decl_of o) -> listable (v_fun e)) ->
  (forall t i w, fault pcre prog line_of (make_argus tabs root None) t i w -> is_Some (file_of t i)) ->
  argus_init fuel tabs root 0 = Ok (x, d') ->
  exists l out, init_stderr pcre p file_of line_of fuel tabs root 0 = Ok out /\
    told_of line_of file_of (make_argus tabs root None) l out /\
    (forall t i w, (t, i, w) ∈ l <-> fault pcre prog line_of (make_argus tabs root None) t i w) /\
    (x = None <-> exists t i w, fault pcre prog line_of (make_argus tabs root None) t i w).
Proof.
  intros Hl Hf E. set (a := make_argus tabs root None) in *. unfold argus_init in E. fold a in E. cbv zeta in E.
  apply rbind_Ok in E as ([st d2] & Es & E). injection E as <- <-.
  assert (Hl' : forall t T, a_tabs a !! t = Some T -> table_listable T).
  { intros t T HT o Ho e He. apply (Hl T o e); try done. by eapply elem_of_list_lookup_2. }
  pose proof (structure_agree a fuel Hl' root 0) as Ha. rewrite Es in Ha. destruct Ha as (rs & Hrs & Hz & _ & Hin).
  change root with (a_root a) in Hin. setoid_rewrite <- fault_from_root in Hin.
  assert (Hall : forall r, r ∈ rs -> is_Some (a_tabs a !! r_tab r) /\ is_Some (file_of (r_tab r) (r_at r))).
  { intros [t i w] Hr. apply Hin in Hr. split; [by eapply fault_table, fault_from_root|by eapply Hf]. }
  destruct (reports_told a rs Hall) as (out & Ho & Ht). exists (map unpack rs), out.
  unfold init_stderr. fold a. rewrite Hrs. cbn [rbind]. split; [done|]. split; [done|]. split.
  - intros t i w. rewrite <- Hin, elem_of_list_fmap. unfold unpack. split.
    + intros ([t' i' w'] & [= -> -> ->] & Hr). done.
    + intros Hr. by exists (Report t i w).
  - change SUCCESS with 0. destruct (Z.eqb_spec st 0) as [Hst|Hst].
    + split; [done|]. apply Hz in Hst as ->. intros (t & i & w & Hw). apply Hin in Hw. by apply elem_of_nil in Hw.
    + split; [|done]. intros _. destruct rs as [|[t i w] rs]; [tauto|]. exists t, i, w. apply Hin. by left.
Qed.
Lemma init_no_file fuel tabs root x d' t i w : (forall T o e, T ∈ tabs -> o ∈ T -> e ∈ validators (decl_of o) -> listable (v_fun e)) ->
  argus_init fuel tabs root 0 = Ok (x, d') ->
  fault pcre prog line_of (make_argus tabs root None) t i w -> file_of t i = None ->
  exists u, init_stderr pcre p file_of line_of fuel tabs root 0 = UB u.
Proof.
  intros Hl E Hft Hf. set (a := make_argus tabs root None) in *. unfold argus_init in E. fold a in E. cbv zeta in E.
  apply rbind_Ok in E as ([st d2] & Es & E). clear E.
  assert (Hl' : forall t T, a_tabs a !! t = Some T -> table_listable T).
  { intros t' T HT o Ho e He. apply (Hl T o e); try done. by eapply elem_of_list_lookup_2. }
  pose proof (structure_agree a fuel Hl' root 0) as Ha. rewrite Es in Ha. destruct Ha as (rs & Hrs & _ & _ & Hin).
  unfold init_stderr. fold a. rewrite Hrs. cbn [rbind]. apply (reports_no_file a rs (Report t i w)); [|done].
  apply Hin. change root with (a_root a). by apply fault_from_root.
Qed.
Lemma init_silent fuel tabs root a d' : (forall T o e, T ∈ tabs -> o ∈ T -> e ∈ validators (decl_of o) -> listable (v_fun e)) ->
  argus_init fuel tabs root 0 = Ok (Some a, d') -> init_stderr pcre p file_of line_of fuel tabs root 0 = Ok [].
Proof.
  intros Hl E. unfold argus_init in E. cbv zeta in E. set (b := make_argus tabs root None) in *.
  apply rbind_Ok in E as ([st d2] & Es & E).
  assert (Hl' : forall t T, a_tabs b !! t = Some T -> table_listable T).
  { intros t' T HT o Ho e He. apply (Hl T o e); try done. by eapply elem_of_list_lookup_2. }
  pose proof (structure_agree b fuel Hl' root 0) as Ha. rewrite Es in Ha. destruct Ha as (rs & Hrs & Hz & _ & _).
  cbv beta iota in E. destruct (Z.eqb_spec st SUCCESS) as [Hst|Hst]; [|done]. apply Hz in Hst as ->.
  unfold init_stderr. fold b. rewrite Hrs. done.
Qed.
End libc.
