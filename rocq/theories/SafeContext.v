(** * The whole context stays well formed *)
From Coq Require Import Lia.
From stdpp Require Import sets.
From Verif Require Import Api LibProofs FrameProofs SpecGrammar SpecAfter SpecMemory SpecContents SpecSafe HeapProofs ListProofs ArrayProofs
  FlagProofs ArrayHandlers MapProofs MapHandlers MapFlags MapWhole FreeProofs SafeProofs.

Section context.
Context `{Libc}.

Definition upd {X} (F : nat -> nat -> X) (t i : nat) (x : X) : nat -> nat -> X :=
  fun t' i' => if bool_decide ((t', i') = (t, i)) then x else F t' i'.
Lemma upd_same {X} (F : nat -> nat -> X) t i x : upd F t i x t i = x.
Proof. unfold upd. by rewrite bool_decide_eq_true_2. Qed.
Lemma upd_other {X} (F : nat -> nat -> X) t i x t' i' : (t', i') <> (t, i) -> upd F t i x t' i' = F t' i'.
Proof. intros. unfold upd. by rewrite bool_decide_eq_false_2. Qed.

Definition extend (V : nat -> nat -> list cstr) (t i : nat) (v : option cstr) := upd V t i (V t i ++ vlist v).

(** [invar clean a V F K]: every option is well formed; option [i] of table [t] owns the blocks
    [F t i], has received the texts [V t i] and lost the blocks [K t i]; nobody else owns or has
    lost these blocks, and no other block is alive. *)
Record invar (clean : bool) (a : argus) (V : nat -> nat -> list cstr) (F K : nat -> nat -> list nat) : Prop := Invar {
  iv_oom : oom (a_heap a) = [];
  iv_fits : forall t i o, get_option a t i = Ok o -> fits (decl_of o);
  iv_entry : forall t i o, get_option a t i = Ok o -> entry_inv clean (a_heap a) o (V t i) (F t i) (K t i);
  iv_in : forall t i l, l ∈ F t i \/ l ∈ K t i -> exists o, get_option a t i = Ok o;
  iv_disj : forall t i t' i' l, (t, i) <> (t', i') -> l ∈ F t i -> l ∉ F t' i';
  iv_lost : forall t i l, l ∈ K t i -> (l < length (bl (a_heap a)))%nat /\ forall t' i', l ∉ F t' i';
  iv_live : forall l b, bl (a_heap a) !! l = Some (Some b) -> exists t i, l ∈ F t i \/ l ∈ K t i;
}.

Lemma invar_ready a : ready a -> invar true a (fun _ _ => []) (fun _ _ => []) (fun _ _ => []).
Proof.
  intros [R1 R2 R3 R4]. split; try done.
  - intros t i o Ho. apply get_option_Ok in Ho. by eapply R1.
  - intros t i o Ho. apply entry_pristine. apply get_option_Ok in Ho. by eapply R2.
  - intros t i l [[]%elem_of_nil|[]%elem_of_nil].
  - intros t i t' i' l _ []%elem_of_nil.
  - intros t i l []%elem_of_nil.
  - intros l b Hl. by destruct (R3 l b).
Qed.
Lemma invar_same clean a a' V F K : a_tabs a' = a_tabs a -> a_heap a' = a_heap a -> invar clean a V F K -> invar clean a' V F K.
Proof.
  intros Ht Hh [I1 I2 I3 I4 I5 I6 I7].
  assert (Hg : forall t i, get_option a' t i = get_option a t i) by (intros; by apply get_option_tabs).
  split; rewrite ?Hh; try done.
  - intros t i o. rewrite Hg. apply I2.
  - intros t i o. rewrite Hg. apply I3.
  - intros t i l. setoid_rewrite Hg. apply I4.
Qed.
Lemma invar_weaken clean a V V' F K : invar clean a V F K -> invar false a V' F K.
Proof.
  intros [I1 I2 I3 I4 I5 I6 I7]. split; try done. intros t i o Ho. eapply entry_weaken. by apply I3.
Qed.
Lemma iv_lt clean a V F K t i l : invar clean a V F K -> l ∈ F t i -> (l < length (bl (a_heap a)))%nat.
Proof. intros I Hl. destruct (iv_in _ _ _ _ _ I _ _ _ (or_introl Hl)) as [o Ho]. eapply entry_live; [by apply (iv_entry _ _ _ _ _ I)|done]. Qed.

Lemma pair_dec (t i t' i' : nat) : (t', i') = (t, i) \/ (t', i') <> (t, i).
Proof. destruct (decide ((t', i') = (t, i))); auto. Qed.

Lemma invar_step clean clean' a a' V V' F K t i o o' fp' lk :
  invar clean a V F K -> get_option a t i = Ok o ->
  (forall t' i', (t', i') <> (t, i) -> get_option a' t' i' = get_option a t' i') ->
  get_option a' t i = Ok o' -> decl_of o' = decl_of o -> oom (a_heap a') = [] ->
  moves (F t i) (a_heap a) (fp' ++ lk) (a_heap a') ->
  (forall l, l ∈ lk -> l ∉ fp' /\ (l < length (bl (a_heap a')))%nat) ->
  entry_inv clean' (a_heap a') o' (V' t i) fp' (K t i ++ lk) ->
  (clean' = true -> clean = true) ->
  (forall t' i', (t', i') <> (t, i) -> V' t' i' = V t' i') ->
  invar clean' a' V' (upd F t i fp') (upd K t i (K t i ++ lk)).
Proof.
  intros I Ho Hoth Ho' Hd Hoom M Hlk HE Hcl HV.
  assert (Hown : forall l, l ∈ fp' ++ lk -> l ∈ F t i \/ (length (bl (a_heap a)) <= l)%nat) by (apply (mv_own _ _ _ _ M)).
  assert (Hlen := mv_len _ _ _ _ M).
  assert (HF : forall t' i' l, (t', i') <> (t, i) -> l ∈ F t' i' -> l ∉ fp' ++ lk).
  { intros t' i' l Hne Hl Hl'. destruct (Hown _ Hl') as [Hi|Hi].
    - by apply (iv_disj _ _ _ _ _ I t' i' t i l).
    - pose proof (iv_lt _ _ _ _ _ _ _ _ I Hl). lia. }
  assert (HK : forall t' i' l, l ∈ K t' i' -> l ∉ fp').
  { intros t' i' l Hl Hl'. destruct (iv_lost _ _ _ _ _ I _ _ _ Hl) as [Hlt HnF].
    destruct (Hown l) as [Hi|Hi]; [apply elem_of_app; by left|by apply (HnF t i)|lia]. }
  split.
  - done.
  - intros t' i' o1 H1. destruct (pair_dec t i t' i') as [[= -> ->]|Hne].
    + rewrite Ho' in H1. injection H1 as <-. rewrite Hd. by apply (iv_fits _ _ _ _ _ I t i).
    + rewrite Hoth in H1 by done. by apply (iv_fits _ _ _ _ _ I t' i').
  - intros t' i' o1 H1. destruct (pair_dec t i t' i') as [[= -> ->]|Hne].
    + rewrite Ho' in H1. injection H1 as <-. rewrite !upd_same. done.
    + rewrite Hoth in H1 by done. rewrite !upd_other by done. rewrite HV by done.
      assert (HE1 : entry_inv clean' (a_heap a) o1 (V t' i') (F t' i') (K t' i')).
      { destruct clean'; [|eapply entry_weaken; by apply (iv_entry _ _ _ _ _ I)].
        rewrite <- (Hcl eq_refl). by apply (iv_entry _ _ _ _ _ I). }
      eapply entry_moves; [exact M| |exact HE1]. intros l Hl. by apply (iv_disj _ _ _ _ _ I t' i' t i l).
  - intros t' i' l Hl. destruct (pair_dec t i t' i') as [[= -> ->]|Hne]; [eauto|].
    rewrite !upd_other in Hl by done. rewrite Hoth by done. by apply (iv_in _ _ _ _ _ I t' i' l).
  - intros t1 i1 t2 i2 l Hne H1 H2.
    destruct (pair_dec t i t1 i1) as [E1|N1], (pair_dec t i t2 i2) as [E2|N2].
    + congruence.
    + injection E1 as -> ->. rewrite upd_same in H1. rewrite upd_other in H2 by done.
      apply (HF t2 i2 l N2 H2). apply elem_of_app. by left.
    + injection E2 as -> ->. rewrite upd_same in H2. rewrite upd_other in H1 by done.
      apply (HF t1 i1 l N1 H1). apply elem_of_app. by left.
    + rewrite upd_other in H1, H2 by done. by apply (iv_disj _ _ _ _ _ I t1 i1 t2 i2 l).
  - intros t1 i1 l Hl.
    assert (Hl' : l ∈ K t1 i1 \/ l ∈ lk).
    { destruct (pair_dec t i t1 i1) as [[= -> ->]|N1]; [rewrite upd_same in Hl; by apply elem_of_app|rewrite upd_other in Hl by done; by left]. }
    destruct Hl' as [Hl'|Hl'].
    + destruct (iv_lost _ _ _ _ _ I _ _ _ Hl') as [Hlt HnF]. split; [lia|].
      intros t2 i2. destruct (pair_dec t i t2 i2) as [[= -> ->]|N2]; [rewrite upd_same; by eapply HK|rewrite upd_other by done; apply HnF].
    + split; [by apply Hlk|]. intros t2 i2. destruct (pair_dec t i t2 i2) as [[= -> ->]|N2].
      * rewrite upd_same. by apply Hlk.
      * rewrite upd_other by done. intros Hi. apply (HF t2 i2 l N2 Hi). apply elem_of_app. by right.
  - intros l b Hl. destruct (mv_live _ _ _ _ M _ _ Hl) as [Hi|[Hn Hlt]].
    + exists t, i. rewrite !upd_same. apply elem_of_app in Hi as [Hi|Hi]; [by left|right; apply elem_of_app; by right].
    + rewrite (mv_frame _ _ _ _ M) in Hl by done. destruct (iv_live _ _ _ _ _ I _ _ Hl) as (t1 & i1 & [Hi|Hi]).
      * exists t1, i1. left. rewrite upd_other; [done|]. intros [= -> ->]. done.
      * exists t1, i1. right. destruct (pair_dec t i t1 i1) as [[= -> ->]|N1]; [rewrite upd_same; apply elem_of_app; by left|by rewrite upd_other].
Qed.

(** ** Validators *)
Lemma pre_ok d v h l : (forall e, e ∈ l -> suits d e) -> (v = None -> d_vtype d = VT_FLAG) ->
  exists st ev, run_validators ORDER_PRE l (ArgText v) h = Ok (st, ev).
Proof.
  intros Hl Hv. induction l as [|e l IH]; cbn [run_validators]; [eauto|].
  destruct IH as (st1 & ev1 & E1); [intros x Hx; apply Hl; by right|].
  specialize (Hl e ltac:(left)). unfold suits in Hl. unfold is_order.
  destruct (v_order e); [|eauto].
  assert (exists st ev, run_validator (v_fun e) (ArgText v) h = Ok (st, ev)) as (st & ev & ->).
  { destruct (v_fun e); try done; cbn [run_validator]; [|eauto]. unfold regex_validator.
    destruct (negb regex_enabled); [eauto|]. destruct pattern as [p|]; [|eauto]. destruct v as [s|]; [|eauto].
    destruct (regex_match p s); eauto. }
  cbn [rbind]. destruct (st =? SUCCESS); [|eauto]. rewrite E1. cbn [rbind]. eauto.
Qed.
Lemma post_ok o h l : (forall e, e ∈ l -> suits (decl_of o) e) -> typed o -> is_set o = true ->
  exists st ev, run_validators ORDER_POST l (ArgOption o) h = Ok (st, ev).
Proof.
  intros Hl Ht Hs. induction l as [|e l IH]; cbn [run_validators]; [eauto|].
  destruct IH as (st1 & ev1 & E1); [intros x Hx; apply Hl; by right|].
  specialize (Hl e ltac:(left)). unfold suits in Hl. unfold is_order. unfold typed in Ht.
  destruct (v_order e); [eauto|].
  assert (exists st ev, run_validator (v_fun e) (ArgOption o) h = Ok (st, ev)) as (st & ev & ->).
  { destruct (v_fun e); try done; cbn [run_validator]; rewrite ?Hl in Ht.
    - unfold range_validator. destruct (max <? min); [eauto|]. destruct Ht as [x ->]. cbn [rbind].
      destruct (_ || _); eauto.
    - unfold length_validator. destruct (Ht Hs) as [s ->]. cbn [is_null rbind]. destruct (_ || _); [eauto|]. destruct (max <? min); [eauto|].
      cbn. destruct (_ || _); eauto.
    - unfold count_validator. destruct (_ || _); [eauto|]. destruct (max <? min); [eauto|]. destruct (_ || _); eauto.
    - unfold choices_string_validator. destruct (Ht Hs) as [s ->]. cbn. destruct (existsb _ _); eauto.
    - unfold choices_int_validator. destruct Ht as [x ->]. cbn [rbind]. destruct (existsb _ _); eauto.
    - unfold choices_float_validator. destruct Ht as [x ->]. cbn [rbind]. destruct (existsb _ _); eauto.
    - eauto. }
  cbn [rbind]. destruct (st =? SUCCESS); [|eauto]. rewrite E1. cbn [rbind]. eauto.
Qed.

(** ** One call *)
Lemma exec_inv clean a V F K t i o v : qsort_sorts -> invar clean a V F K -> get_option a t i = Ok o ->
  (exists act, get_active_options a = Ok act) -> (v = None -> d_vtype (decl_of o) = VT_FLAG) ->
  (forall s, v = Some s -> harmless_text (decl_of o) s) ->
  exists st a' F' K', execute_callbacks a t i v = Ok (st, a') /\ invar (clean && (st =? 0)) a' (extend V t i v) F' K'.
Proof.
  intros HQ I Ho [act Hact] Hnone Hharm. unfold execute_callbacks. rewrite Ho. cbn [rbind].
  destruct (d_handler (decl_of o)) as [f|] eqn:Hf.
  2:{ eexists _, _, F, K. split; [done|]. rewrite andb_false_r. eapply invar_weaken, invar_same; [..|exact I]; done. }
  assert (exists st ev, match d_validators (decl_of o) with None => Ok (SUCCESS, [])
     | Some l => run_validators ORDER_PRE l (ArgText v) (a_heap a) end = Ok (st, ev)) as (st & ev & ->).
  { destruct (d_validators (decl_of o)) as [l|] eqn:El; [|eauto]. apply (pre_ok (decl_of o)); [|done].
    intros e He. eapply (ft_validators _ (iv_fits _ _ _ _ _ I _ _ _ Ho)); eassumption. }
  cbn [rbind]. set (a1 := apply_events a ev).
  assert (I1 : invar clean a1 V F K) by (eapply invar_same; [apply apply_events_tabs|apply apply_events_heap|done]).
  change SUCCESS with 0. destruct (Z.eqb_spec st 0) as [->|Hst]; cbn [negb].
  2:{ eexists _, _, F, K. split; [done|]. destruct (Z.eqb_spec st 0); [done|]. rewrite andb_false_r. by eapply invar_weaken. }
  assert (Hact1 : get_active_options a1 = Ok act).
  { rewrite <- Hact. unfold get_active_options, a1. rewrite apply_events_stack, apply_events_root.
    destruct (last (a_stack a)); [|done]. unfold sub_of. by rewrite (get_option_tabs _ a) by apply apply_events_tabs. }
  rewrite Hact1. cbn [rbind].
  assert (Ho1 : get_option a1 t i = Ok o) by (by rewrite (get_option_tabs _ a) by apply apply_events_tabs).
  destruct (handler_inv (default (a_root a1) act) f v clean (a_heap a1) o (V t i) (F t i) (K t i) HQ
    (iv_fits _ _ _ _ _ I _ _ _ Ho) Hf (iv_entry _ _ _ _ _ I1 _ _ _ Ho1) (iv_oom _ _ _ _ _ I1) Hnone Hharm)
    as (st & s & -> & Hd & Hoom & fp' & lk' & M & Hlk & HE). cbn [rbind].
  set (a2 := apply_events _ (h_log s)).
  assert (Ht2 : a_tabs a2 = a_tabs (put_option a1 t i (h_opt s))) by (unfold a2; by rewrite apply_events_tabs).
  assert (Hh2 : a_heap a2 = h_heap s) by (unfold a2; by rewrite apply_events_heap).
  assert (Ho2 : get_option a2 t i = Ok (h_opt s)).
  { rewrite (get_option_tabs _ _ _ _ Ht2). by eapply get_put_same. }
  assert (Hoth2 : forall t' i', (t', i') <> (t, i) -> get_option a2 t' i' = get_option a1 t' i').
  { intros t' i' Hne. rewrite (get_option_tabs _ _ _ _ Ht2). by apply get_put_other. }
  assert (HVo : forall t' i', (t', i') <> (t, i) -> extend V t i v t' i' = V t' i') by (intros; by apply upd_other).
  destruct (Z.eqb_spec st 0) as [->|Hst]; cbn [negb].
  - rewrite Ho2. cbn [rbind]. cbv zeta. fold (finished (h_opt s)).
    assert (Ho3 : get_option (put_option a2 t i (finished (h_opt s))) t i = Ok (finished (h_opt s))) by (by eapply get_put_same).
    assert (Hd3 : decl_of (finished (h_opt s)) = decl_of o).
    { rewrite <- Hd. unfold finished. by destruct (value_count _ =? 0)%nat. }
    assert (HI3 : invar clean (put_option a2 t i (finished (h_opt s))) (extend V t i v) (upd F t i fp') (upd K t i (K t i ++ lk'))).
    { eapply (invar_step clean clean a1); try done.
      - intros t' i' Hne. rewrite get_put_other by done. by apply Hoth2.
      - cbn. by rewrite Hh2.
      - cbn. by rewrite Hh2.
      - cbn. by rewrite Hh2.
      - cbn. rewrite Hh2. unfold extend. rewrite upd_same. by rewrite andb_true_r in HE. }
    destruct (has _ FLAG_EXIT).
    + eexists _, _, _, _. split; [done|]. rewrite andb_false_r. by eapply invar_weaken.
    + eexists _, _, _, _. split; [done|]. rewrite andb_true_r. exact HI3.
  - eexists _, _, _, _. split; [done|]. destruct (Z.eqb_spec st 0) as [|_]; [done|]. rewrite andb_false_r in *.
    eapply (invar_step clean false a1); try done.
    + by rewrite Hh2.
    + by rewrite Hh2.
    + by rewrite Hh2.
    + rewrite Hh2. unfold extend. by rewrite upd_same.
Qed.
End context.
