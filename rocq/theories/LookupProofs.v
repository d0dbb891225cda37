(** * Proofs about lookup by path *)
From Verif Require Import Validate Api LibProofs FrameProofs SpecGrammar GrammarProofs GrammarLemmas
  ActiveProofs SpecAfter AfterProofs EnvProofs AfterFacts.
From Coq Require Import Lia.

Lemma sub_of_subtable a r t : subtable (decls a) r = Some t -> sub_of a r = Ok (Some t).
Proof.
  intros Ht. rewrite sub_of_decls. unfold subtable in Ht. destruct (decls a !! fst r) as [T|]; [|done].
  destruct (T !! snd r); [|done]. by rewrite Ht.
Qed.
Lemma decls_table a t : is_Some (decls a !! t) -> exists T, a_tabs a !! t = Some T.
Proof.
  intros Hs. unfold decls in Hs. rewrite list_lookup_fmap in Hs.
  destruct (a_tabs a !! t); [eauto|by destruct Hs].
Qed.
Lemma finds_find a t T n i : a_tabs a !! t = Some T ->
  finds a t n i <-> find_option_by_name T n = Some i.
Proof.
  intros HT. rewrite find_name_Some. split.
  - intros (T' & HT' & Hf). congruence.
  - intros Hf. by exists T.
Qed.

Definition inner_first (a : argus) (ts : list nat) (n : cstr) (t i : nat) : Prop :=
  exists k, ts !! k = Some t /\ finds a t n i /\
    forall k' t' j, (k' < k)%nat -> ts !! k' = Some t' -> ~ finds a t' n j.

Lemma relative_spec a stk n :
  is_Some (decls a !! a_root a) ->
  (forall r, r ∈ stk -> exists t, subtable (decls a) r = Some t /\ is_Some (decls a !! t)) ->
  exists res, find_from_relative a stk n = Ok res /\
    forall t i, res = Some (t, i) <-> inner_first a (omap (subtable (decls a)) stk ++ [a_root a]) n t i.
Proof.
  intros HR. induction stk as [|r stk IH]; intros Hs; cbn [find_from_relative].
  - destruct (decls_table _ _ HR) as [T HT]. unfold table. rewrite HT. cbn [rbind].
    eexists. split; [reflexivity|]. intros t i. cbn [omap list_omap app]. split.
    + destruct (find_option_by_name T n) as [j|] eqn:Ej; [|done]. intros [= <- <-].
      exists 0%nat. split; [done|]. split; [by apply (finds_find _ _ _ _ _ HT)|]. intros. lia.
    + intros (k & Hk & Hf & _). destruct k as [|[]]; [|done..]. injection Hk as <-.
      apply (finds_find _ _ _ _ _ HT) in Hf. by rewrite Hf.
  - destruct (Hs r) as (t0 & Ht0 & HT0); [left|]. rewrite (sub_of_subtable _ _ _ Ht0). cbn [rbind].
    destruct (decls_table _ _ HT0) as [T HT]. unfold table_ptr, table. rewrite HT. cbn [rbind].
    destruct IH as (res & Hres & IH); [intros; apply Hs; by right|].
    cbn [omap list_omap]. rewrite Ht0. cbn [app].
    destruct (find_option_by_name T n) as [j|] eqn:Ej.
    + eexists. split; [reflexivity|]. intros t i. split.
      * intros [= <- <-]. exists 0%nat. split; [done|]. split; [by apply (finds_find _ _ _ _ _ HT)|]. intros. lia.
      * intros (k & Hk & Hf & Hno). destruct k as [|k].
        -- injection Hk as <-. apply (finds_find _ _ _ _ _ HT) in Hf. congruence.
        -- exfalso. apply (Hno 0%nat t0 j); [lia|done|]. by apply (finds_find _ _ _ _ _ HT).
    + exists res. split; [done|]. intros t i. rewrite IH. unfold inner_first. split.
      * intros (k & Hk & Hf & Hno). exists (S k). split; [done|]. split; [done|].
        intros k' t' j Hlt Hk' Hf'. destruct k' as [|k'].
        -- injection Hk' as <-. apply (finds_find _ _ _ _ _ HT) in Hf'. congruence.
        -- apply (Hno k' t' j); [lia|done|done].
      * intros (k & Hk & Hf & Hno). destruct k as [|k].
        -- injection Hk as <-. apply (finds_find _ _ _ _ _ HT) in Hf. congruence.
        -- exists k. split; [done|]. split; [done|]. intros k' t' j Hlt Hk'. apply (Hno (S k')); [lia|done].
Qed.

Lemma omap_rev {A B} (f : A -> option B) l : omap f (rev l) = rev (omap f l).
Proof.
  induction l as [|x l IH]; [done|]. cbn [rev]. rewrite omap_app, IH. cbn [omap list_omap].
  destruct (f x); [done|]. by rewrite app_nil_r.
Qed.
Lemma rev_lookup {A} (l : list A) k : (k < length l)%nat -> rev l !! k = l !! (length l - S k)%nat.
Proof.
  intros Hk. rewrite rev_alt. change (rev_append l []) with (reverse l). by apply reverse_lookup.
Qed.
Lemma inner_first_rev a n t i :
  inner_first a (rev (tables_in_play a)) n t i <-> finds_inside a n t i.
Proof.
  set (ts := tables_in_play a). unfold inner_first, finds_inside. fold ts. split.
  - intros (k & Hk & Hf & Hno). assert (Hl : (k < length ts)%nat).
    { apply lookup_lt_Some in Hk. by rewrite rev_length in Hk. }
    rewrite rev_lookup in Hk by done. exists (length ts - S k)%nat. split; [done|]. split; [done|].
    intros k' t' j Hlt Hk'. pose proof (lookup_lt_Some _ _ _ Hk') as Hl'.
    apply (Hno (length ts - S k')%nat); [lia|]. rewrite rev_lookup by lia.
    replace (length ts - S (length ts - S k'))%nat with k' by lia. done.
  - intros (k & Hk & Hf & Hno). pose proof (lookup_lt_Some _ _ _ Hk) as Hl.
    exists (length ts - S k)%nat. rewrite rev_lookup by lia.
    replace (length ts - S (length ts - S k))%nat with k by lia. split; [done|]. split; [done|].
    intros k' t' j Hlt Hk'. rewrite rev_lookup in Hk' by lia. apply (Hno (length ts - S k')%nat); [lia|done].
Qed.

Lemma well_stacked_sub a : well_stacked a ->
  forall r, r ∈ a_stack a -> exists t, subtable (decls a) r = Some t /\ is_Some (decls a !! t).
Proof.
  intros [_ Hw] r Hr. destruct (Hw r Hr) as (T & d & t & E1 & E2 & _ & E3 & E4).
  exists t. split; [|done]. unfold subtable. by rewrite E1, E2.
Qed.

Lemma bare_name a n : well_stacked a -> "."%char ∉ n ->
  exists res, find_option_by_active_path a (Some n) = Ok res /\
    forall t i, res = Some (t, i) <-> finds_inside a n t i.
Proof.
  intros Hw Hn. unfold find_option_by_active_path.
  assert (strchr n dot = None) as -> by (by apply strchr_None).
  destruct (relative_spec a (rev (a_stack a)) n) as (res & Hres & Hiff).
  - apply Hw.
  - intros r Hr. apply elem_of_list_In, in_rev, elem_of_list_In in Hr. by apply well_stacked_sub.
  - exists res. split; [done|]. intros t i. rewrite Hiff, <- inner_first_rev.
    unfold tables_in_play. cbn [rev]. by rewrite omap_rev.
Qed.

Lemma root_path a n : well_stacked a ->
  exists res, find_option_by_active_path a (Some ("."%char :: n)) = Ok res /\
    forall t i, res = Some (t, i) <-> t = a_root a /\ finds a t n i.
Proof.
  intros [HR _]. unfold find_option_by_active_path. cbn [strchr].
  change (Ascii.eqb "." dot) with true. cbv iota.
  destruct (decls_table _ _ HR) as [T HT]. unfold table. rewrite HT. cbn [rbind].
  eexists. split; [reflexivity|]. intros t i. change (drop 1 ("."%char :: n)) with n.
  destruct (find_option_by_name T n) as [j|] eqn:Ej; split.
  - intros [= <- <-]. split; [done|]. by apply (finds_find _ _ _ _ _ HT).
  - intros [-> Hf]. apply (finds_find _ _ _ _ _ HT) in Hf. congruence.
  - done.
  - intros [-> Hf]. apply (finds_find _ _ _ _ _ HT) in Hf. congruence.
Qed.

(** ** Dotted paths *)
Lemma count_dotted cs n : "."%char ∉ n -> (forall c, c ∈ cs -> "."%char ∉ c) ->
  count_components (dotted cs n) = length cs.
Proof.
  assert (Happ : forall s rest, "."%char ∉ s -> count_components (s ++ rest) = count_components rest).
  { induction s as [|x s IH]; intros rest Hs; [done|]. cbn [app count_components].
    destruct (Ascii.eqb_spec x dot) as [->|]; [destruct Hs; left|]. apply IH. intros Hx. apply Hs. by right. }
  intros Hn. induction cs as [|c cs IH]; intros Hc.
  - unfold dotted. simpl. rewrite <- (app_nil_r n), Happ by done. done.
  - unfold dotted. cbn [map concat]. rewrite <- !app_assoc. rewrite Happ by (apply Hc; left).
    cbn [app count_components]. change (Ascii.eqb "." dot) with true. cbv iota.
    cbn [length]. f_equal. apply IH. intros. apply Hc. by right.
Qed.

(** The first components of the path begin the names of the selected subcommands. *)
Fixpoint path_fits (a : argus) (stk : list (nat * nat)) (cs : list cstr) {struct cs} : Prop :=
  match cs, stk with
  | [], _ => True
  | c :: cs', r :: stk' =>
      (exists T d m, decls a !! fst r = Some T /\ T !! snd r = Some d /\ d_name d = Some m /\ c `prefix_of` m) /\
      path_fits a stk' cs'
  | _ :: _, [] => False
  end.
Lemma walk_dotted a cs : forall stk t n,
  (forall r, r ∈ stk -> exists T d t, decls a !! fst r = Some T /\ T !! snd r = Some d /\
    is_Some (d_name d) /\ d_sub d = Some t /\ is_Some (decls a !! t)) ->
  "."%char ∉ n -> (forall c, c ∈ cs -> "."%char ∉ c) -> (length cs <= length stk)%nat ->
  (path_fits a stk cs /\
   walk_path a stk (dotted cs n) (Some t) (length cs) =
     Ok (Some ((t :: omap (subtable (decls a)) stk) !! length cs, n))) \/
  (~ path_fits a stk cs /\ walk_path a stk (dotted cs n) (Some t) (length cs) = Ok None).
Proof.
  induction cs as [|c cs IH]; intros stk t n Hs Hn Hc Hl.
  { left. split; [done|]. destruct stk; reflexivity. }
  destruct stk as [|r stk]; [simpl in Hl; lia|]. cbn [length walk_path].
  assert (Hch : strchr (dotted (c :: cs) n) dot = Some (length c)).
  { apply strchr_Some. exists c, (dotted cs n). split; [|split; [done|apply Hc; left]].
    unfold dotted. cbn [map concat]. by rewrite <- !app_assoc. }
  rewrite Hch. destruct (Hs r) as (T & d & t' & ET & Ed & [m Hm] & Hsub & HT'); [left|].
  destruct (decls_entry _ _ _ _ _ ET Ed) as (o & Ho & Hd). apply entry_get in Ho. rewrite Ho. cbn [rbind].
  rewrite Hd, Hm, Hsub.
  assert (Hdrop : drop (S (length c)) (dotted (c :: cs) n) = dotted cs n).
  { unfold dotted. cbn [map concat]. rewrite <- !app_assoc. cbn [app].
    rewrite drop_app_ge by lia. replace (S (length c) - length c)%nat with 1%nat by lia. done. }
  rewrite Hdrop.
  assert (Hcmp : (strncmp (dotted (c :: cs) n) m (length c) =? 0) = true <-> c `prefix_of` m).
  { assert (Hd2 : dotted (c :: cs) n = c ++ ("."%char :: dotted cs n)).
    { unfold dotted. cbn [map concat]. by rewrite <- !app_assoc. }
    rewrite Hd2, strncmp_take by (rewrite app_length; lia). rewrite take_app. split.
    - intros ->. exists (drop (length c) m). rewrite take_drop. done.
    - intros [k ->]. by rewrite take_app. }
  destruct (IH stk t' n) as [[Hf Hw]|[Hf Hw]]; try done.
  { intros r' Hr'. apply Hs. by right. }
  { intros. apply Hc. by right. }
  { simpl in Hl. lia. }
  - destruct (strncmp (dotted (c :: cs) n) m (length c) =? 0) eqn:E.
    + left. split.
      * split; [|done]. exists T, d, m. split_and!; try done. by apply Hcmp.
      * rewrite Hw. do 3 f_equal. cbn [omap list_omap lookup list_lookup].
        unfold subtable at 2. rewrite ET, Ed, Hsub. done.
    + right. split; [|done]. intros [(T1 & d1 & m1 & E1 & E2 & E3 & E4) _].
      assert (T1 = T) as -> by congruence. assert (d1 = d) as -> by congruence.
      assert (m1 = m) as -> by congruence. apply Hcmp in E4. congruence.
  - right. destruct (strncmp (dotted (c :: cs) n) m (length c) =? 0); (split; [|done]); by intros [_ ?].
Qed.

Lemma path_fits_iff a : forall cs stk, (length cs <= length stk)%nat ->
  (forall r, r ∈ stk -> exists T d t, decls a !! fst r = Some T /\ T !! snd r = Some d /\
    is_Some (d_name d) /\ d_sub d = Some t /\ is_Some (decls a !! t)) ->
  path_fits a stk cs <-> forall k c, cs !! k = Some c -> exists r T d m, stk !! k = Some r /\
    decls a !! fst r = Some T /\ T !! snd r = Some d /\ d_name d = Some m /\ c `prefix_of` m.
Proof.
  induction cs as [|c cs IH]; intros [|r stk] Hl Hs; simpl in Hl; try lia; cbn [path_fits].
  - split; done.
  - split; done.
  - rewrite (IH stk); [|lia|intros; apply Hs; by right]. split.
    + intros [(T & d & m & ?) Hrest] [|k] c' Hk; [injection Hk as <-|by apply Hrest].
      exists r, T, d, m. done.
    + intros Hall. split.
      * destruct (Hall 0%nat c eq_refl) as (r' & T & d & m & [= <-] & ?). eauto.
      * intros k c' Hk. exact (Hall (S k) c' Hk).
Qed.

Lemma dotted_path a c cs n : well_stacked a -> "."%char ∉ n ->
  (forall x, x ∈ c :: cs -> "."%char ∉ x) -> c <> [] ->
  exists res, find_option_by_active_path a (Some (dotted (c :: cs) n)) = Ok res /\
    forall t i, res = Some (t, i) <->
      (forall k x, (c :: cs) !! k = Some x -> exists m, selected_name a k m /\ x `prefix_of` m) /\
      tables_in_play a !! length (c :: cs) = Some t /\ finds a t n i.
Proof.
  intros [HR Hw] Hn Hc Hne. unfold find_option_by_active_path.
  assert (Hch : strchr (dotted (c :: cs) n) dot = Some (length c)).
  { apply strchr_Some. exists c, (dotted cs n). split; [|split; [done|apply Hc; left]].
    unfold dotted. cbn [map concat]. by rewrite <- !app_assoc. }
  rewrite Hch. destruct (length c) as [|l] eqn:El; [by destruct c|].
  cbv zeta. rewrite count_dotted by done.
  assert (Hsel : forall k x, (exists r T d m, a_stack a !! k = Some r /\ decls a !! fst r = Some T /\
      T !! snd r = Some d /\ d_name d = Some m /\ x `prefix_of` m) <->
      exists m, selected_name a k m /\ x `prefix_of` m).
  { intros k x. split.
    - intros (r & T & d & m & ? & ? & ? & ? & ?). exists m. split; [|done]. exists r, T, d. done.
    - intros (m & (r & T & d & ? & ? & ? & ?) & ?). exists r, T, d, m. done. }
  assert (Hom : length (omap (subtable (decls a)) (a_stack a)) = length (a_stack a)).
  { clear -Hw. induction (a_stack a) as [|r stk IH]; [done|]. cbn [omap list_omap].
    destruct (Hw r) as (T & d & t & E1 & E2 & _ & E3 & _); [left|]. unfold subtable at 1.
    rewrite E1, E2, E3. cbn [length]. f_equal. apply IH. intros. apply Hw. by right. }
  destruct (Nat.ltb_spec (length (a_stack a)) (length (c :: cs))) as [Hlt|Hge].
  { exists None. split; [done|]. intros t i. split; [done|]. intros (_ & Ht & _).
    apply lookup_lt_Some in Ht. unfold tables_in_play in Ht. cbn [length] in *. rewrite Hom in Ht. lia. }
  destruct (walk_dotted a (c :: cs) (a_stack a) (a_root a) n Hw Hn Hc Hge) as [[Hf Hwk]|[Hf Hwk]].
  - rewrite Hwk. cbn [rbind]. fold (tables_in_play a).
    pose proof (proj1 (path_fits_iff a (c :: cs) (a_stack a) Hge Hw) Hf) as Hf'. clear Hf. rename Hf' into Hf.
    destruct (tables_in_play a !! length (c :: cs)) as [t0|] eqn:Et.
    + assert (HT0 : is_Some (decls a !! t0)).
      { cbn [length] in Et. unfold tables_in_play in Et. apply elem_of_list_lookup_2 in Et.
        apply elem_of_cons in Et as [->|Et]; [done|].
        apply elem_of_list_omap in Et as (r & Hr & Hs).
        destruct (well_stacked_sub a (conj HR Hw) r Hr) as (t1 & H1 & H2). congruence. }
      destruct (decls_table _ _ HT0) as [T HT]. unfold table_ptr, table. rewrite HT. cbn [rbind].
      destruct (find_option_by_name T n) as [j|] eqn:Ej.
      * eexists. split; [reflexivity|]. intros t i. split.
        -- intros [= <- <-]. split; [intros; apply Hsel; auto|]. split; [done|].
           by apply (finds_find _ _ _ _ _ HT).
        -- intros (_ & Ht1 & Hfi). injection Ht1 as <-. apply (finds_find _ _ _ _ _ HT) in Hfi. congruence.
      * eexists. split; [reflexivity|]. intros t i. split; [done|].
        intros (_ & Ht1 & Hfi). injection Ht1 as <-. apply (finds_find _ _ _ _ _ HT) in Hfi. congruence.
    + exfalso. apply lookup_ge_None in Et. unfold tables_in_play in Et. cbn [length] in *. rewrite Hom in Et. lia.
  - rewrite Hwk. cbn [rbind]. exists None. split; [done|]. intros t i. split; [done|].
    intros (Hall & _). destruct Hf. apply (proj2 (path_fits_iff a (c :: cs) (a_stack a) Hge Hw)). intros k x Hk. apply Hsel. auto.
Qed.

Section libc.
Context `{Libc}.
Lemma entered_named a stk : (forall t T, a_tabs a !! t = Some T -> all_named T) ->
  chain (decls a) (a_root a) stk ->
  forall r, r ∈ stk -> exists T d t, decls a !! fst r = Some T /\ T !! snd r = Some d /\
    is_Some (d_name d) /\ d_sub d = Some t /\ is_Some (decls a !! t).
Proof.
  intros Hn. generalize (a_root a) as t0. induction stk as [|r0 stk IH]; intros t0 Hc r Hr.
  { by apply elem_of_nil in Hr. }
  cbn [chain] in Hc. destruct Hc as (T & d & t' & E1 & E2 & E3 & E4 & E5 & E6 & Hc).
  apply elem_of_cons in Hr as [->|Hr]; [|by eapply IH].
  exists T, d, t'. rewrite E1. split_and!; try done.
  destruct (decls_entry _ _ _ _ _ E2 E3) as (o & (T0 & HT0 & Ho) & Hd). subst d.
  eapply Hn; [exact HT0|by eapply elem_of_list_lookup_2|]. unfold group_entry. by rewrite E4.
Qed.
Lemma success_well_stacked a argv a' : fresh a -> argus_parse a argv = Ok (Returned 0, a') ->
  well_stacked a'.
Proof.
  intros Hf E. pose proof Hf as [Hst Herr HR HS Hac Hnm].
  destruct (reads_total _ _ 0%nat false argv HS HR) as [its Hr].
  destruct (success_parts _ _ _ _ Hf E Hr) as (a1 & _ & _ & _ & _ & _ & _ & _ & _ & Hd & Hs).
  apply (WholeProofs.parse_success) in E as (_ & _ & _ & _ & _ & Hroot & _); [|done].
  split; [by rewrite Hd, Hroot|]. rewrite Hd, Hs. eapply entered_named; [exact Hnm|].
  by eapply reads_chain.
Qed.
End libc.
