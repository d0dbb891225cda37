(** * Proofs about validators, the checks after parsing and the environment phase *)
From Verif Require Import Api LibProofs FrameProofs SpecGrammar GrammarProofs GrammarLemmas
  SpecAfter.
From Coq Require Import Lia.

Lemma existsb_elem {A} (p : A -> bool) l : existsb p l = true <-> exists x, x ∈ l /\ p x = true.
Proof.
  rewrite existsb_exists. split; intros (x & H & ?); exists x; split; auto; by apply elem_of_list_In.
Qed.
Lemma existsb_elem_false {A} (p : A -> bool) l :
  existsb p l = false <-> forall x, x ∈ l -> p x = false.
Proof.
  split.
  - intros E x Hx. destruct (p x) eqn:Ex; [|done].
    assert (existsb p l = true) by (apply existsb_elem; eauto). congruence.
  - intros E. destruct (existsb p l) eqn:El; [|done].
    apply existsb_elem in El as (x & Hx & Hp). rewrite E in Hp by done. done.
Qed.

Section libc.
Context `{Libc}.

Definition builtin (f : vfun) : Prop :=
  match f with VCustomPre _ | VCustomPost _ => False | _ => True end.

(** One message with the code *)
Definition told (c : Z) (ev : list event) : Prop := exists m, ev = [EDiag c m].
Hint Unfold told : core.

(** ** One validator *)
Lemma run_post f o h st ev :
  run_validator f (ArgOption o) h = Ok (st, ev) ->
  (st = 0 /\ accepts_option f o h /\ ev = []) \/
  (st <> 0 /\ refuses_with f o h st /\ (builtin f -> told st ev)).
Proof.
  destruct f as [mn mx|mn mx|mn mx|p hint|l|l|l|g|g]; simpl; try discriminate.
  - unfold range_validator, refuses_with. simpl.
    destruct (Z.ltb_spec mx mn).
    { intros [= <- <-]. right. split; [done|]. split; [|by eexists]. split; [|done].
      intros (x & _ & ?). lia. }
    destruct (as_int (value o)) as [x|]; simpl; [|discriminate].
    destruct ((x <? mn) || (mx <? x)) eqn:E; intros [= <- <-].
    + right. split; [done|]. split; [|by eexists]. split; [|done]. intros (y & [= <-] & ?).
      apply orb_true_iff in E as [E|E]; lia.
    + left. apply orb_false_iff in E as [E1 E2]. split; [done|]. split; [|done].
      exists x. split; [done|]. lia.
  - unfold length_validator, refuses_with. simpl.
    destruct (is_null (value o)) as [[|]|] eqn:En; simpl; [| |discriminate].
    { intros [= <- <-]. right. split; [done|]. split; [|by eexists]. split; [|done].
      intros (s & [=] & _). }
    destruct ((mn <? 0) || (mx <? 0)) eqn:E0.
    { intros [= <- <-]. right. split; [done|]. split; [|by eexists]. split; [|done].
      intros (s & _ & _ & ? & ?). apply orb_true_iff in E0 as [E0|E0]; lia. }
    apply orb_false_iff in E0 as [E1 E2].
    destruct (Z.ltb_spec mx mn).
    { intros [= <- <-]. right. split; [done|]. split; [|by eexists]. split; [|done].
      intros (s & _ & _ & ? & ?). lia. }
    destruct (deref_str (value o) h) as [s|]; simpl; [|discriminate].
    destruct ((_ <? mn) || _) eqn:E; intros [= <- <-].
    + right. split; [done|]. split; [|by eexists]. split; [|done]. intros (s' & _ & [= <-] & ? & ?).
      apply orb_true_iff in E as [E|E]; lia.
    + left. apply orb_false_iff in E as [E3 E4]. split; [done|]. split; [|done].
      exists s. split_and!; try done; lia.
  - unfold count_validator, refuses_with. simpl.
    destruct ((mn <? 0) || (mx <? 0)) eqn:E0.
    { intros [= <- <-]. right. split; [done|]. split; [|by eexists]. split; [|done].
      intros (? & ?). apply orb_true_iff in E0 as [E0|E0]; lia. }
    apply orb_false_iff in E0 as [E1 E2].
    destruct (Z.ltb_spec mx mn).
    { intros [= <- <-]. right. split; [done|]. split; [|by eexists]. split; [|done].
      intros (? & ?). lia. }
    destruct ((_ <? mn) || _) eqn:E; intros [= <- <-].
    + right. split; [done|]. split; [|by eexists]. split; [|done]. intros (? & ?).
      apply orb_true_iff in E as [E|E]; lia.
    + left. apply orb_false_iff in E as [E3 E4]. split; [done|]. split; [|done]. lia.
  - unfold choices_string_validator, refuses_with. simpl.
    destruct (deref_str (value o) h) as [s|]; simpl; [|discriminate].
    destruct (existsb _ l) eqn:E; intros [= <- <-].
    + left. apply existsb_elem in E as (x & Hx & Hc). rewrite strcmp_eqb in Hc.
      apply bool_decide_eq_true in Hc as ->. eauto 6.
    + right. split; [done|]. split; [|by eexists]. split; [|done]. intros (s' & [= <-] & Hs).
      rewrite existsb_elem_false in E. specialize (E s Hs). rewrite strcmp_refl in E. done.
  - unfold choices_int_validator, refuses_with. simpl.
    destruct (as_int (value o)) as [x|]; simpl; [|discriminate].
    destruct (existsb _ l) eqn:E; intros [= <- <-].
    + left. apply existsb_elem in E as (y & Hy & Hc). apply Z.eqb_eq in Hc as ->. eauto 6.
    + right. split; [done|]. split; [|by eexists]. split; [|done]. intros (y & [= <-] & Hy).
      rewrite existsb_elem_false in E. specialize (E x Hy). lia.
  - unfold choices_float_validator, refuses_with. simpl.
    destruct (as_float (value o)) as [x|]; simpl; [|discriminate].
    destruct (existsb _ l) eqn:E; intros [= <- <-].
    + left. apply existsb_elem in E as (y & Hy & Hc). eauto 8.
    + right. split; [done|]. split; [|by eexists]. split; [|done]. intros (z & y & [= <-] & Hy & Hf).
      rewrite existsb_elem_false in E. specialize (E y Hy). congruence.
  - intros [= <- <-]. unfold refuses_with. simpl.
    destruct (decide (g (value o) (value_count o) = 0)); [by left|]. right. done.
Qed.

Lemma run_pre f v h st ev :
  run_validator f (ArgText v) h = Ok (st, ev) ->
  (st = 0 /\ accepts_text f v /\ ev = []) \/
  (st <> 0 /\ ~ accepts_text f v /\ (builtin f -> told st ev)).
Proof.
  destruct f as [mn mx|mn mx|mn mx|p hint|l|l|l|g|g]; simpl; try discriminate.
  - unfold regex_validator. destruct regex_enabled eqn:Er; simpl.
    2:{ intros [= <- <-]. right. split; [done|]. split; [|by eexists]. by intros [? _]. }
    destruct p as [q|].
    2:{ intros [= <- <-]. right. split; [done|]. split; [|by eexists]. by intros (_ & ? & ? & ? & _). }
    destruct v as [s|].
    2:{ intros [= <- <-]. right. split; [done|]. split; [|by eexists]. by intros (_ & ? & ? & _ & ? & _). }
    destruct (regex_match q s) eqn:Em; intros [= <- <-].
    + left. split; [done|]. split; [|done]. split; [done|]. eauto.
    + right. split; [done|]. split; [|by eexists]. intros (_ & ? & ? & [= <-] & [= <-] & ?). congruence.
    + right. split; [done|]. split; [|by eexists]. intros (_ & ? & ? & [= <-] & [= <-] & ?). congruence.
    + right. split; [done|]. split; [|by eexists]. intros (_ & ? & ? & [= <-] & [= <-] & ?). congruence.
  - intros [= <- <-]. destruct (decide (g v = 0)); [by left|]. right. done.
Qed.

(** ** All validators of one order *)
Lemma run_posts l o h st ev :
  run_validators ORDER_POST l (ArgOption o) h = Ok (st, ev) ->
  (st = 0 /\ ev = [] /\
   forall e, e ∈ l -> v_order e = ORDER_POST -> accepts_option (v_fun e) o h) \/
  (st <> 0 /\ (forall e, e ∈ l -> builtin (v_fun e)) /\ told st ev \/
   st <> 0 /\ ~ (forall e, e ∈ l -> builtin (v_fun e))) /\
  (exists l1 e l2, l = l1 ++ e :: l2 /\ v_order e = ORDER_POST /\
    refuses_with (v_fun e) o h st /\
    forall e', e' ∈ l1 -> v_order e' = ORDER_POST -> accepts_option (v_fun e') o h).
Proof.
  assert (Hdec : forall l : list ventry, (forall e, e ∈ l -> builtin (v_fun e)) \/
                           ~ (forall e, e ∈ l -> builtin (v_fun e))).
  { clear. induction l as [|e l IH]; [left; intros e He; by apply elem_of_nil in He|].
    destruct IH as [IH|IH].
    - destruct e as [[]]; [..|right|right]; try (left; intros e' He';
        apply elem_of_cons in He' as [->|]; [exact I|auto]);
      intros Hx; apply (Hx _ (elem_of_list_here _ _)).
    - right. intros Hx. apply IH. intros e' He'. apply Hx. by right. }
  revert st ev. induction l as [|e l IH]; intros st ev; simpl.
  { intros [= <- <-]. left. split; [done|]. split; [done|].
    intros e He. by apply elem_of_nil in He. }
  destruct e as [f ord]. unfold is_order. simpl. destruct ord.
  - intros E. apply IH in E as [(-> & -> & Ha)|(Hst & l1 & e & l2 & -> & Ho & Hr & Ha)].
    + left. split; [done|]. split; [done|]. intros e He Hord.
      apply elem_of_cons in He as [->|He]; [done|auto].
    + right. split.
      * destruct (Hdec (VEntry f ORDER_PRE :: l1 ++ e :: l2)) as [Hb|Hb].
        -- destruct Hst as [(? & _ & ?)|(? & Hx)]; [left; auto|].
           exfalso. apply Hx. intros e' He'. apply Hb. by right.
        -- right. destruct Hst as [(? & _)|(? & _)]; auto.
      * exists (VEntry f ORDER_PRE :: l1), e, l2. split; [done|]. split; [done|]. split; [done|].
        intros e' He' Hord. apply elem_of_cons in He' as [->|He']; [done|auto].
  - destruct (run_validator f (ArgOption o) h) as [[st1 ev1]|] eqn:E1; simpl; [|discriminate].
    apply run_post in E1 as [(-> & Ha & ->)|(Hne & Hr & Hb)].
    + simpl. destruct (run_validators ORDER_POST l (ArgOption o) h) as [[st' ev']|]; simpl; [|discriminate].
      intros [= <- <-]. destruct (IH _ _ eq_refl) as [(-> & -> & Ha')|(Hst & l1 & e & l2 & -> & Ho & Hr & Ha')].
      * left. split; [done|]. split; [done|]. intros e He Hord.
        apply elem_of_cons in He as [->|He]; [done|auto].
      * right. split.
        -- destruct (Hdec (VEntry f ORDER_POST :: l1 ++ e :: l2)) as [Hb|Hb].
           ++ destruct Hst as [(? & _ & ?)|(? & Hx)]; [left; auto|].
              exfalso. apply Hx. intros e' He'. apply Hb. by right.
           ++ right. destruct Hst as [(? & _)|(? & _)]; auto.
        -- exists (VEntry f ORDER_POST :: l1), e, l2. split; [done|]. split; [done|]. split; [done|].
           intros e' He' Hord. apply elem_of_cons in He' as [->|He']; [done|auto].
    + change SUCCESS with 0. destruct (Z.eqb_spec st1 0); [done|]. intros [= <- <-]. right. split.
      * destruct (Hdec (VEntry f ORDER_POST :: l)) as [Hx|Hx]; [left|right; auto].
        split; [done|]. split; [done|]. apply Hb. apply (Hx _ (elem_of_list_here _ _)).
      * exists [], (VEntry f ORDER_POST), l. split; [done|]. split; [done|]. split; [done|].
        intros e' He'. by apply elem_of_nil in He'.
Qed.

Lemma run_pres l v h st ev :
  run_validators ORDER_PRE l (ArgText v) h = Ok (st, ev) ->
  (st = 0 /\ ev = [] /\
   forall e, e ∈ l -> v_order e = ORDER_PRE -> accepts_text (v_fun e) v) \/
  (st <> 0 /\ ((forall e, e ∈ l -> builtin (v_fun e)) -> told st ev) /\
   exists e, e ∈ l /\ v_order e = ORDER_PRE /\ ~ accepts_text (v_fun e) v).
Proof.
  revert st ev. induction l as [|e l IH]; intros st ev; simpl.
  { intros [= <- <-]. left. split; [done|]. split; [done|].
    intros e He. by apply elem_of_nil in He. }
  destruct e as [f ord]. unfold is_order. simpl. destruct ord.
  - destruct (run_validator f (ArgText v) h) as [[st1 ev1]|] eqn:E1; simpl; [|discriminate].
    apply run_pre in E1 as [(-> & Ha & ->)|(Hne & Hr & Hb)].
    + simpl. destruct (run_validators ORDER_PRE l (ArgText v) h) as [[st' ev']|]; simpl; [|discriminate].
      intros [= <- <-]. destruct (IH _ _ eq_refl) as [(-> & -> & Ha')|(Hst & Hev & e & He & Ho & Hr)].
      * left. split; [done|]. split; [done|]. intros e He Hord.
        apply elem_of_cons in He as [->|He]; [done|auto].
      * right. split; [done|]. split; [intros Hx; apply Hev; intros; apply Hx; by right|].
        exists e. split; [by right|]. done.
    + change SUCCESS with 0. destruct (Z.eqb_spec st1 0); [done|]. intros [= <- <-]. right.
      split; [done|]. split; [intros Hx; apply Hb, (Hx _ (elem_of_list_here _ _))|].
      exists (VEntry f ORDER_PRE). split; [left|]. done.
  - intros E. apply IH in E as [(-> & -> & Ha)|(Hst & Hev & e & He & Ho & Hr)].
    + left. split; [done|]. split; [done|]. intros e He Hord.
      apply elem_of_cons in He as [->|He]; [done|auto].
    + right. split; [done|]. split; [intros Hx; apply Hev; intros; apply Hx; by right|].
      exists e. split; [by right|]. done.
Qed.

(** ** Names *)
Lemma named_dec n o :
  match d_name (decl_of o) with Some m => strcmp m n =? 0 | None => false end = true <-> named n o.
Proof.
  unfold named. destruct (d_name (decl_of o)) as [m|]; [|done].
  rewrite strcmp_eqb, bool_decide_eq_true. split; [by intros ->|by intros [= ->]].
Qed.
Lemma find_name_Some T n i : find_option_by_name T n = Some i <-> first (named n) T i.
Proof. apply find_index_first. intros. apply named_dec. Qed.
Lemma find_name_None T n : find_option_by_name T n = None <-> nowhere (named n) T.
Proof. apply find_index_nowhere. intros. apply named_dec. Qed.

Lemma required_spec T name l :
  (validate_required T name l = (0, []) /\ forall n, n ∈ l -> ~ unset_in T n) \/
  (exists ev, validate_required T name l = (14, ev) /\ told 14 ev /\ exists n, n ∈ l /\ unset_in T n).
Proof.
  induction l as [|n l IH]; simpl.
  { left. split; [done|]. intros n Hn. by apply elem_of_nil in Hn. }
  assert (Hgo : ~ unset_in T n ->
    (validate_required T name l = (0, []) /\ forall m, m ∈ n :: l -> ~ unset_in T m) \/
    (exists ev, validate_required T name l = (14, ev) /\ told 14 ev /\ exists m, m ∈ n :: l /\ unset_in T m)).
  { intros Hn. destruct IH as [(E & Ha)|(ev & E & Ht & m & Hm & Hu)]; [left|right].
    - split; [done|]. intros m Hm. apply elem_of_cons in Hm as [->|Hm]; auto.
    - exists ev. split; [done|]. split; [done|]. exists m. split; [by right|done]. }
  destruct (find_option_by_name T n) as [i|] eqn:Ei.
  - apply find_name_Some in Ei. destruct Ei as (r & Hr & Hn & Hb).
    assert (Hf : first (named n) T i) by (exists r; auto).
    rewrite Hr. destruct (is_set r) eqn:Es.
    + apply Hgo. intros (j & o & Hj & Ho & Hs). rewrite (first_unique _ _ _ _ Hj Hf) in Ho. congruence.
    + right. eexists. split; [reflexivity|]. split; [by eexists|]. exists n. split; [left|]. exists i, r. done.
  - apply find_name_None in Ei. apply Hgo. intros (j & o & Hj & _).
    eapply first_nowhere; eauto.
Qed.
Lemma conflicts_spec T name l :
  (validate_conflicts T name l = (0, []) /\ forall n, n ∈ l -> ~ set_in T n) \/
  (exists ev, validate_conflicts T name l = (15, ev) /\ told 15 ev /\ exists n, n ∈ l /\ set_in T n).
Proof.
  induction l as [|n l IH]; simpl.
  { left. split; [done|]. intros n Hn. by apply elem_of_nil in Hn. }
  assert (Hgo : ~ set_in T n ->
    (validate_conflicts T name l = (0, []) /\ forall m, m ∈ n :: l -> ~ set_in T m) \/
    (exists ev, validate_conflicts T name l = (15, ev) /\ told 15 ev /\ exists m, m ∈ n :: l /\ set_in T m)).
  { intros Hn. destruct IH as [(E & Ha)|(ev & E & Ht & m & Hm & Hu)]; [left|right].
    - split; [done|]. intros m Hm. apply elem_of_cons in Hm as [->|Hm]; auto.
    - exists ev. split; [done|]. split; [done|]. exists m. split; [by right|done]. }
  destruct (find_option_by_name T n) as [i|] eqn:Ei.
  - apply find_name_Some in Ei. destruct Ei as (r & Hr & Hn & Hb).
    assert (Hf : first (named n) T i) by (exists r; auto).
    rewrite Hr. destruct (is_set r) eqn:Es.
    + right. eexists. split; [reflexivity|]. split; [by eexists|]. exists n. split; [left|]. exists i, r. done.
    + apply Hgo. intros (j & o & Hj & Ho & Hs). rewrite (first_unique _ _ _ _ Hj Hf) in Ho. congruence.
  - apply find_name_None in Ei. apply Hgo. intros (j & o & Hj & _).
    eapply first_nowhere; eauto.
Qed.

(** ** The loop over a table *)
Definition open_group (pre : list opt) (g : nat) : Prop :=
  exists G, pre !! g = Some G /\ exclusive_group G /\
    forall k o, (g < k)%nat -> pre !! k = Some o -> ~ group_entry o.
Definition loop_inv (pre : list opt) (excl : bool) (fst : option cstr) : Prop :=
  (excl = true <-> exists g, open_group pre g) /\
  (excl = true -> (is_Some fst <-> exists g j o, open_group pre g /\ (g < j)%nat /\
     pre !! j = Some o /\ is_set o = true)).

Lemma lookup_snoc_Some {A} (l : list A) x i y :
  (l ++ [x]) !! i = Some y <-> ((i < length l)%nat /\ l !! i = Some y) \/ (i = length l /\ y = x).
Proof.
  rewrite lookup_app_Some. split.
  - intros [E|(Hl & E)]; [left|right].
    + split; [by eapply lookup_lt_Some|done].
    + destruct (i - length l)%nat eqn:En; [|by destruct n].
      simpl in E. split; [lia|congruence].
  - intros [(_ & E)|(-> & ->)]; [by left|right]. split; [lia|]. by rewrite Nat.sub_diag.
Qed.

Lemma open_group_snoc pre o g :
  ~ group_entry o -> open_group (pre ++ [o]) g <-> open_group pre g.
Proof.
  intros Hn. split.
  - intros (G & HG & Hx & Hl). apply lookup_snoc_Some in HG as [(Hlt & HG)|(-> & ->)].
    + exists G. split; [done|]. split; [done|]. intros k p Hk Hp. apply (Hl k p Hk).
      by apply lookup_app_l_Some.
    + destruct Hx as [Hx _]. done.
  - intros (G & HG & Hx & Hl). exists G. split; [by apply lookup_app_l_Some|]. split; [done|].
    intros k p Hk Hp. apply lookup_snoc_Some in Hp as [(_ & Hp)|(-> & ->)]; eauto.
Qed.
Lemma open_group_snoc_group pre o g :
  group_entry o -> open_group (pre ++ [o]) g <-> g = length pre /\ exclusive_group o.
Proof.
  intros Hg. split.
  - intros (G & HG & Hx & Hl). apply lookup_snoc_Some in HG as [(Hlt & HG)|(-> & ->)]; [|done].
    destruct (Hl (length pre) o); [done| |done]. apply lookup_snoc_Some. auto.
  - intros (-> & Hx). exists o. split; [apply lookup_snoc_Some; auto|]. split; [done|].
    intros k p Hk Hp. apply lookup_snoc_Some in Hp as [(? & _)|(? & _)]; lia.
Qed.

Lemma rival_open pre o l :
  ~ group_entry o ->
  rival (pre ++ o :: l) (length pre) <->
  exists g j p, open_group pre g /\ (g < j)%nat /\ pre !! j = Some p /\ is_set p = true.
Proof.
  intros Hn. split.
  - intros (g & G & j & p & HG & Hx & (Hlt & Hm) & Hj & Hp & Hs).
    rewrite lookup_app_l in HG by lia. rewrite lookup_app_l in Hp by lia.
    exists g, j, p. split_and!; try done; [|lia]. exists G. split; [done|]. split; [done|].
    intros k q Hk Hq. pose proof (lookup_lt_Some _ _ _ Hq). apply (Hm k q); [lia|].
    rewrite lookup_app_l by lia. done.
  - intros (g & j & p & (G & HG & Hx & Hm) & Hj & Hp & Hs).
    pose proof (lookup_lt_Some _ _ _ Hp).
    exists g, G, j, p. split_and!; try done; try lia.
    + rewrite lookup_app_l by lia. done.
    + split; [lia|]. intros k q Hk Hq. destruct (decide (k = length pre)) as [->|].
      * rewrite lookup_app_r, Nat.sub_diag in Hq by lia. simpl in Hq. congruence.
      * rewrite lookup_app_l in Hq by lia. apply (Hm k q); [lia|done].
    + rewrite lookup_app_l by lia. done.
Qed.

Lemma group_dec o : is_type TGroup o = true <-> group_entry o.
Proof. unfold is_type, group_entry. apply bool_decide_eq_true. Qed.
Lemma required_dec o :
  is_type TPositional o && has (d_flags (decl_of o)) FLAG_REQUIRED = true <-> required_positional o.
Proof.
  unfold is_type, required_positional, flag. rewrite andb_true_iff, bool_decide_eq_true.
  change FLAG_REQUIRED with (2 ^ 0)%N. by rewrite has_bit.
Qed.

Lemma loop_inv_step pre o excl fst :
  ~ group_entry o -> loop_inv pre excl fst ->
  (is_set o = true -> ~ (excl = true /\ is_Some fst)) ->
  is_Some (d_name (decl_of o)) ->
  loop_inv (pre ++ [o]) excl (if is_set o then (if excl then d_name (decl_of o) else fst) else fst).
Proof.
  intros Hn [I1 I2] Hset Hname. split.
  { rewrite I1. split; intros [g Hg]; exists g; [by apply open_group_snoc|].
    by apply (open_group_snoc pre o g Hn). }
  intros ->. specialize (I2 eq_refl). destruct (is_set o) eqn:Es.
  - split; [intros _|done]. destruct I1 as [I1 _]. destruct (I1 eq_refl) as [g Hg].
    exists g, (length pre), o. split; [by apply open_group_snoc|].
    destruct Hg as (G & HG & _). pose proof (lookup_lt_Some _ _ _ HG).
    split; [done|]. split; [|done]. apply lookup_snoc_Some. auto.
  - rewrite I2. split.
    + intros (g & j & p & Hg & Hj & Hp & Hs). exists g, j, p. split_and!; try done.
      * by apply open_group_snoc.
      * by apply lookup_app_l_Some.
    + intros (g & j & p & Hg & Hj & Hp & Hs). exists g, j, p. split_and!; try done.
      * by apply (open_group_snoc pre o g Hn).
      * apply lookup_snoc_Some in Hp as [(_ & Hp)|(_ & ->)]; [done|congruence].
Qed.

Definition only_builtin (o : opt) : Prop :=
  forall e, e ∈ validators (decl_of o) -> builtin (v_fun e).

Lemma call_validators_spec o h st ev :
  call_validators o h = Ok (st, ev) ->
  (st = 0 /\ ev = [] /\ validated h o) \/
  (st <> 0 /\ refused h o st /\ (only_builtin o -> told st ev)).
Proof.
  unfold call_validators, validated, refused, only_builtin, validators.
  destruct (d_validators (decl_of o)) as [l|]; simpl.
  - intros E. apply run_posts in E as [?|(Hst & He)]; [by left|right].
    destruct Hst as [(? & ? & ?)|(? & Hb)]; split_and!; try done.
  - intros [= <- <-]. left. split; [done|]. split; [done|].
    intros e He. by apply elem_of_nil in He.
Qed.

Lemma options_set_spec h T : all_named T -> forall l pre gn excl fst st ev,
  T = pre ++ l -> loop_inv pre excl fst ->
  validate_options_set h T l gn excl fst = Ok (st, ev) ->
  (st = 0 /\ ev = [] /\
   forall i o, (length pre <= i)%nat -> T !! i = Some o -> in_order h T i o) \/
  (st <> 0 /\ exists i o, (length pre <= i)%nat /\ T !! i = Some o /\ problem h T i o st /\
   (forall j p, (length pre <= j < i)%nat -> T !! j = Some p -> in_order h T j p) /\
   (only_builtin o -> told st ev)).
Proof.
  intros Hall. induction l as [|o l IH]; intros pre gn excl fst st ev HT Hinv E; simpl in E.
  { injection E as <- <-. left. split; [done|]. split; [done|]. intros i o Hi Ho.
    apply lookup_lt_Some in Ho. rewrite HT, app_nil_r in Ho. lia. }
  assert (Ho : T !! length pre = Some o).
  { rewrite HT, lookup_app_r, Nat.sub_diag by lia. done. }
  assert (HT' : T = (pre ++ [o]) ++ l) by (rewrite <- app_assoc; done).
  assert (Hlen : length (pre ++ [o]) = S (length pre)) by (rewrite app_length; simpl; lia).
  assert (Hmem : o ∈ T) by (eapply elem_of_list_lookup_2; eauto).
  (* what follows once this entry is in order *)
  assert (Hgo : forall gn' excl' fst', in_order h T (length pre) o -> loop_inv (pre ++ [o]) excl' fst' ->
     validate_options_set h T l gn' excl' fst' = Ok (st, ev) ->
     (st = 0 /\ ev = [] /\
      forall i o, (length pre <= i)%nat -> T !! i = Some o -> in_order h T i o) \/
     (st <> 0 /\ exists i o, (length pre <= i)%nat /\ T !! i = Some o /\ problem h T i o st /\
      (forall j p, (length pre <= j < i)%nat -> T !! j = Some p -> in_order h T j p) /\
      (only_builtin o -> told st ev))).
  { intros gn' excl' fst' Hio Hi E'. destruct (IH _ _ _ _ _ _ HT' Hi E') as
      [(-> & -> & Ha)|(Hne & i & p & Hle & Hp & Hpb & Hb & Hev)].
    - left. split; [done|]. split; [done|]. intros i p Hle Hp.
      destruct (decide (i = length pre)) as [->|]; [congruence|]. apply Ha; [lia|done].
    - right. split; [done|]. exists i, p. split; [lia|]. split; [done|]. split; [done|].
      split; [|done]. intros j q Hj Hq.
      destruct (decide (j = length pre)) as [->|]; [congruence|]. apply (Hb j q); [lia|done]. }
  clear IH.
  destruct (is_type TGroup o) eqn:Eg.
  { apply group_dec in Eg. eapply Hgo; [..|exact E].
    - split; try done.
      + intros [Hp _]. unfold group_entry in Eg. congruence.
      + intros _ (g & G & j & p & _ & _ & (Hl & Hm) & _). apply (Hm (length pre) o); [lia|done|done].
    - split.
      + change FLAG_EXCLUSIVE with (2 ^ 14)%N. rewrite has_bit. split.
        * intros Hx. exists (length pre). apply open_group_snoc_group; [done|]. done.
        * intros (g & Hg). apply open_group_snoc_group in Hg as (_ & _ & Hx); done.
      + intros _. split; [by intros [??]|]. intros (g & j & p & Hg & Hj & Hp & _).
        apply open_group_snoc_group in Hg as (-> & _); [|done].
        apply lookup_snoc_Some in Hp as [(? & _)|(? & _)]; lia. }
  assert (Hng : ~ group_entry o) by (rewrite <- group_dec, Eg; done). clear Eg.
  destruct (is_type TPositional o && has (d_flags (decl_of o)) FLAG_REQUIRED && negb (is_set o)) eqn:Er.
  { apply andb_true_iff in Er as [Er Es]. apply required_dec in Er. apply negb_true_iff in Es.
    injection E as <- <-. right. split; [done|]. exists (length pre), o.
    split_and!; try done; [by apply pb_missing| |intros _; by eexists]. intros j p Hj. lia. }
  assert (Hreq : required_positional o -> is_set o = true).
  { intros Hr. apply required_dec in Hr. rewrite Hr in Er. simpl in Er. by destruct (is_set o). }
  clear Er. destruct (is_set o) eqn:Es.
  - destruct (excl && _) eqn:Ex.
    { injection E as <- <-. right. split; [done|]. exists (length pre), o.
      split_and!; try done; [|intros j p Hj; lia|intros _; by eexists]. apply pb_exclusive; [done|done|].
      rewrite HT. apply rival_open; [done|]. apply andb_true_iff in Ex as [-> Ex].
      apply Hinv; [done|]. destruct fst; [eauto|done]. }
    assert (Hnr : ~ rival T (length pre)).
    { rewrite HT. rewrite rival_open by done. intros Hr.
      assert (excl = true) as ->.
      { apply Hinv. destruct Hr as (g & j & p & Hg & _). eauto. }
      destruct Hinv as [_ I2]. apply I2 in Hr; [|done]. destruct Hr as [? ->]. done. }
    apply rbind_Ok in E as ([st1 ev1] & Ev & E).
    apply call_validators_spec in Ev as [(-> & -> & Hv)|(Hne & Hrf & Hb)].
    2:{ change SUCCESS with 0 in E. destruct (Z.eqb_spec st1 0); [done|]. simpl in E.
        injection E as <- <-. right. split; [done|]. exists (length pre), o.
        split_and!; try done; [|intros j p Hj; lia]. by apply pb_validator. }
    cbn [negb Z.eqb SUCCESS app] in E.
    set (st2 := match d_require (decl_of o) with
      Some r => validate_required T (d_name (decl_of o)) r | None => (SUCCESS, []) end) in E.
    assert (H2 : (st2 = (0, []) /\ forall n, n ∈ default [] (d_require (decl_of o)) -> ~ unset_in T n) \/
                 (exists ev, st2 = (14, ev) /\ told 14 ev /\ exists n, n ∈ default [] (d_require (decl_of o)) /\ unset_in T n)).
    { unfold st2. destruct (d_require (decl_of o)) as [r|]; [apply required_spec|].
      left. split; [done|]. intros n Hn'. by apply elem_of_nil in Hn'. }
    destruct H2 as [(-> & Hrq)|(ev2 & -> & Ht2 & n & Hn1 & Hn2)].
    2:{ simpl in E. injection E as <- <-. right. split; [done|]. exists (length pre), o.
        split_and!; try done; [|intros j p Hj; lia]. by eapply pb_require. }
    cbn [negb Z.eqb SUCCESS app] in E.
    set (st2 := match d_conflict (decl_of o) with
      Some r => validate_conflicts T (d_name (decl_of o)) r | None => (SUCCESS, []) end) in E.
    assert (H2 : (st2 = (0, []) /\ forall n, n ∈ default [] (d_conflict (decl_of o)) -> ~ set_in T n) \/
                 (exists ev, st2 = (15, ev) /\ told 15 ev /\ exists n, n ∈ default [] (d_conflict (decl_of o)) /\ set_in T n)).
    { unfold st2. destruct (d_conflict (decl_of o)) as [r|]; [apply conflicts_spec|].
      left. split; [done|]. intros n Hn'. by apply elem_of_nil in Hn'. }
    destruct H2 as [(-> & Hcf)|(ev2 & -> & Ht2 & n & Hn1 & Hn2)].
    2:{ simpl in E. injection E as <- <-. right. split; [done|]. exists (length pre), o.
        split_and!; try done; [|intros j p Hj; lia]. by eapply pb_conflict. }
    cbn [negb Z.eqb SUCCESS app] in E.
    apply rbind_Ok in E as ([st3 ev3] & E3 & E). injection E as <- <-.
    eapply Hgo; [..|exact E3].
    + split; auto.
    + pose proof (loop_inv_step pre o excl fst Hng Hinv) as Hst. rewrite Es in Hst. apply Hst.
      * intros _ [-> [? ->]]. done.
      * apply Hall; done.

  - eapply Hgo; [..|exact E].
    + split; try (intros; congruence). all: rewrite Es; try done; auto.
    + pose proof (loop_inv_step pre o excl fst Hng Hinv) as Hst. rewrite Es in Hst. apply Hst; [done|].
      apply Hall; done.
Qed.

(** ** A problem excludes order, and has one code *)
Lemma refuses_fun f o h c1 c2 : refuses_with f o h c1 -> refuses_with f o h c2 -> c1 = c2.
Proof. intros [_ H1] [_ H2]. destruct f; try done; congruence. Qed.
Lemma refused_fun h o c1 c2 : refused h o c1 -> refused h o c2 -> c1 = c2.
Proof.
  intros (l1 & e & l2 & E & Ho & Hr & Ha) (l1' & e' & l2' & E' & Ho' & Hr' & Ha').
  rewrite E in E'. clear E.
  revert l1' E' Ha'. induction l1 as [|x l1 IH]; intros [|x' l1'] E' Ha'; simpl in E'.
  - injection E' as <- <-. eapply refuses_fun; eauto.
  - injection E' as <- _. exfalso. destruct Hr as [Hr _]. apply Hr, Ha'; [left|done].
  - injection E' as -> _. exfalso. destruct Hr' as [Hr' _]. apply Hr', Ha; [left|done].
  - injection E' as <- E'. apply (IH ltac:(intros; apply Ha; [by right|done]) l1'); [done|].
    intros; apply Ha'; [by right|done].
Qed.
Lemma refused_not_validated h o c : refused h o c -> ~ validated h o.
Proof.
  intros (l1 & e & l2 & E & Ho & [Hr _] & _) Hv. apply Hr, Hv; [|done].
  rewrite E. apply elem_of_app. right. left.
Qed.
Lemma problem_fun h T i o c1 c2 : problem h T i o c1 -> problem h T i o c2 -> c1 = c2.
Proof.
  intros H1 H2. destruct H1; destruct H2; try done; try congruence;
    try (exfalso; eapply refused_not_validated; by eauto); try (by eapply refused_fun; eauto);
    try (exfalso; match goal with
      Hx : forall n, _ -> ~ unset_in _ n |- _ => eapply Hx; eassumption end).
Qed.
Lemma problem_not_in_order h T i o c : problem h T i o c -> ~ in_order h T i o.
Proof.
  intros Hp [H1 H2 H3 H4 H5]. destruct Hp.
  - specialize (H1 ltac:(done)). congruence.
  - by apply H2.
  - eapply refused_not_validated; eauto.
  - eapply H4; eauto.
  - eapply H5; eauto.
Qed.

(** ** One table, then all tables in play *)
Lemma table_spec a t st a' :
  (forall T, a_tabs a !! t = Some T -> all_named T) ->
  validate_table a (Some t) = Ok (st, a') ->
  exists T, a_tabs a !! t = Some T /\
  ((st = 0 /\ a' = a /\ table_in_order (a_heap a) T) \/
   (st <> 0 /\ (exists ev, a' = apply_events a ev) /\
    exists i o, T !! i = Some o /\ problem (a_heap a) T i o st /\
      (forall j p, (j < i)%nat -> T !! j = Some p -> in_order (a_heap a) T j p) /\
      (only_builtin o -> a_err a' = st))).
Proof.
  intros Hall E. unfold validate_table, table_ptr, table in E.
  destruct (a_tabs a !! t) as [T|] eqn:ET; [|done]. simpl in E. exists T. split; [done|].
  destruct (validate_options_set (a_heap a) T T None false None) as [[st1 ev]|] eqn:Ev; [|done].
  simpl in E. injection E as <- <-.
  apply (options_set_spec (a_heap a) T (Hall T eq_refl) T [] None false None) in Ev as
    [(-> & -> & Ha)|(Hne & i & o & _ & Ho & Hp & Hb & Hev)].
  - left. split; [done|]. split; [done|]. intros i o Ho. apply Ha; [simpl; lia|done].
  - right. split; [done|]. split; [eauto|]. exists i, o. split; [done|]. split; [done|]. split.
    + intros j p Hj. apply Hb. simpl. lia.
    + intros Hob. destruct (Hev Hob) as [m ->]. done.
  - done.
  - split; [|done]. split; [done|]. intros (g & G & HG & _). by rewrite lookup_nil in HG.
Qed.

Lemma stack_spec stk : forall a st a',
  (forall t T, a_tabs a !! t = Some T -> all_named T) ->
  validate_stack a stk = Ok (st, a') ->
  (st = 0 /\ a' = a /\ forall r, r ∈ stk -> exists t T, subtable (decls a) r = Some t /\
      a_tabs a !! t = Some T /\ table_in_order (a_heap a) T) \/
  (st <> 0 /\ (exists ev, a' = apply_events a ev) /\ exists k t T i o,
    omap (subtable (decls a)) stk !! k = Some t /\ a_tabs a !! t = Some T /\ T !! i = Some o /\
    problem (a_heap a) T i o st /\
    (forall j p, (j < i)%nat -> T !! j = Some p -> in_order (a_heap a) T j p) /\
    (forall k' t' T', (k' < k)%nat -> omap (subtable (decls a)) stk !! k' = Some t' ->
       a_tabs a !! t' = Some T' -> table_in_order (a_heap a) T') /\
    (only_builtin o -> a_err a' = st)).
Proof.
  induction stk as [|r stk IH]; intros a st a' Hall E; cbn [validate_stack] in E.
  { injection E as <- <-. left. split; [done|]. split; [done|]. intros r Hr. by apply elem_of_nil in Hr. }
  apply rbind_Ok in E as (s & Es & E). apply rbind_Ok in E as ([st1 a1] & E1 & E).
  assert (Hs : exists t, s = Some t /\ subtable (decls a) r = Some t).
  { assert (Hsub : s = subtable (decls a) r).
    { unfold subtable. unfold sub_of, get_option, table, cell in Es. unfold decls.
      rewrite list_lookup_fmap. destruct (a_tabs a !! fst r) as [T|]; [|done]. simpl in *.
      rewrite list_lookup_fmap. destruct (T !! snd r); [|done]. simpl in *. congruence. }
    destruct s as [t|]; [eauto|]. done. }
  destruct Hs as (t & -> & Ht).
  apply table_spec in E1 as (T & HT & [(-> & -> & Hio)|(Hne & Hev & i & o & Ho & Hp & Hb & Hbi)]);
    [|..|apply Hall].
  - simpl in E. apply IH in E as [(-> & -> & Ha)|(Hne & Hev & k & t' & T' & i & o & Hk & HT' & Ho & Hp & Hb & Hbt & Hbi)];
      [left|right|done].
    + split; [done|]. split; [done|]. intros r' Hr. apply elem_of_cons in Hr as [->|Hr]; eauto.
    + split; [done|]. split; [done|]. exists (S k), t', T', i, o. cbn [omap list_omap].
      rewrite Ht. split_and!; try done. intros k' t2 T2 Hk' Ht2 HT2. destruct k' as [|k'].
      * simpl in Ht2. injection Ht2 as <-. assert (T2 = T) as -> by congruence. done.
      * simpl in Ht2. eapply (Hbt k'); eauto. lia.
  - change SUCCESS with 0 in E. destruct (Z.eqb_spec st1 0); [done|]. injection E as <- <-.
    right. split; [done|]. split; [done|]. exists 0%nat, t, T, i, o. cbn [omap list_omap].
    rewrite Ht. split_and!; try done. lia.
Qed.

Lemma post_spec a st a' :
  (forall t T, a_tabs a !! t = Some T -> all_named T) ->
  post_parse_validation a = Ok (st, a') ->
  (st = 0 /\ a' = a /\ (forall r, r ∈ a_stack a -> is_Some (subtable (decls a) r)) /\
     forall t, t ∈ tables_in_play a -> exists T, a_tabs a !! t = Some T /\ table_in_order (a_heap a) T) \/
  (st <> 0 /\ (exists ev, a' = apply_events a ev) /\ first_problem a st /\
   ((forall t i o, entry a t i o -> only_builtin o) -> a_err a' = st)).
Proof.
  intros Hall E. unfold post_parse_validation in E.
  apply rbind_Ok in E as ([st1 a1] & E1 & E).
  apply table_spec in E1 as (T & HT & [(-> & -> & Hio)|(Hne & Hev & i & o & Ho & Hp & Hb & Hbi)]);
    [|..|apply Hall].
  - simpl in E. apply stack_spec in E as [(-> & -> & Ha)|(Hne & Hev & k & t' & T' & i & o & Hk & HT' & Ho & Hp & Hb & Hbt & Hbi)];
      [left|right|done].
    + split; [done|]. split; [done|]. split.
      { intros r Hr. destruct (Ha r Hr) as (t & T' & Ht & _). rewrite Ht. eauto. }
      intros t Ht. apply elem_of_cons in Ht as [->|Ht]; [eauto|].
      apply elem_of_list_omap in Ht as (r & Hr & Hrt).
      destruct (Ha r Hr) as (t1 & T1 & Ht1 & HT1 & Hi). assert (t1 = t) as -> by congruence. eauto.
    + split; [done|]. split; [done|]. split.
      * exists (S k), t', T', i, o. split_and!; try done.
        intros k' t2 T2 Hk' Ht2 HT2. destruct k' as [|k'].
        -- simpl in Ht2. injection Ht2 as <-. assert (T2 = T) as -> by congruence. done.
        -- simpl in Ht2. eapply (Hbt k'); eauto. lia.
      * intros Hob. apply Hbi. apply (Hob t' i o). exists T'. done.
  - change SUCCESS with 0 in E. destruct (Z.eqb_spec st1 0); [done|]. injection E as <- <-.
    right. split; [done|]. split; [done|]. split.
    + exists 0%nat, (a_root a), T, i, o. split_and!; try done. lia.
    + intros Hob. apply Hbi. apply (Hob (a_root a) i o). exists T. done.
Qed.

Lemma first_problem_fun a c1 c2 : first_problem a c1 -> first_problem a c2 -> c1 = c2.
Proof.
  intros (k & t & T & i & o & Hk & HT & Ho & Hp & Hb & Hbt)
         (k' & t' & T' & i' & o' & Hk' & HT' & Ho' & Hp' & Hb' & Hbt').
  destruct (decide (k < k')%nat).
  { exfalso. eapply problem_not_in_order; [exact Hp|]. eapply Hbt'; eauto. }
  destruct (decide (k' < k)%nat).
  { exfalso. eapply problem_not_in_order; [exact Hp'|]. eapply Hbt; eauto. }
  assert (k' = k) as -> by lia. assert (t' = t) as -> by congruence.
  assert (T' = T) as -> by congruence.
  destruct (decide (i < i')%nat).
  { exfalso. eapply problem_not_in_order; [exact Hp|]. eapply Hb'; eauto. }
  destruct (decide (i' < i)%nat).
  { exfalso. eapply problem_not_in_order; [exact Hp'|]. eapply Hb; eauto. }
  assert (i' = i) as -> by lia. assert (o' = o) as -> by congruence.
  eapply problem_fun; eauto.
Qed.
Lemma first_problem_not_in_order a c :
  first_problem a c -> exists t, t ∈ tables_in_play a /\
    forall T, a_tabs a !! t = Some T -> ~ table_in_order (a_heap a) T.
Proof.
  intros (k & t & T & i & o & Hk & HT & Ho & Hp & _). exists t. split.
  - eapply elem_of_list_lookup_2; eauto.
  - intros T' HT' Hio. assert (T' = T) as -> by congruence.
    eapply problem_not_in_order; [exact Hp|]. by apply Hio.
Qed.

End libc.
