(** * A parse that succeeds while memory is scarce: flags, handlers, the whole parse *)
From Coq Require Import Lia.
From Verif Require Import Api LibProofs FrameProofs SpecGrammar GrammarProofs GrammarLemmas SpecAfter AfterProofs AfterFacts EnvProofs WholeProofs
  SpecMemory SpecContents SpecSafe HeapProofs ListProofs ArrayProofs SafeProofs SafeContext SafePerform
  SpecStructure StructProofs SpecAccept SpecReuse SingleProofs SpecScarce ScarceProofs.

Section scarce.
Context `{Libc}.

(** ** Flags *)
Lemma map_res_ext {A B} (f g : A -> res B) l : (forall x, f x = g x) -> map_res f l = map_res g l.
Proof. intros E. induction l as [|x l IH]; cbn [map_res]; [done|]. by rewrite E, IH. Qed.
Lemma qsort_prefix_ext {A K} (f g : A -> res K) cmp n cs : (forall x, f x = g x) -> qsort_prefix f cmp n cs = qsort_prefix g cmp n cs.
Proof.
  intros E. unfold qsort_prefix. destruct (_ <? _)%nat; [done|]. rewrite (map_res_ext _ (fun x => let* k := g x in Ok (k, x))); [done|].
  intros x. by rewrite E.
Qed.
Lemma hstore_cases p b s u s' : hstore p b s = Ok (u, s') ->
  hstore p b (am s) = Ok (u, am s') /\ oom (h_heap s') = oom (h_heap s).
Proof.
  unfold hstore. cbn [am h_heap]. destruct (store p b (h_heap s)) as [h'|] eqn:E; [|done]. intros [= <- <-].
  apply store_cases in E as (E1 & -> & _). done.
Qed.
Definition easy {A} (m : HM A) : Prop := forall s r s', m s = Ok (r, s') -> m (am s) = Ok (r, am s') /\ oom (h_heap s') = oom (h_heap s).
Lemma easy_tame {A} G (m : HM A) : easy m -> tame Any G m.
Proof. intros Hm s r s' _ E _. destruct (Hm _ _ _ E) as [E1 E2]. split; [done|]. split; [done|]. rewrite E2. apply none_refl. Qed.
Lemma easy_bind {A B} (m : HM A) (k : A -> HM B) : easy m -> (forall x, easy (k x)) -> easy (hbind m k).
Proof.
  intros Hm Hk s r s' E. unfold hbind in *. destruct (m s) as [[x s1]|] eqn:E1; [|done].
  destruct (Hm _ _ _ E1) as [-> O1]. destruct (Hk _ _ _ _ E) as [-> O2]. split; [done|]. congruence.
Qed.
Lemma easy_ret {A} (x : A) : easy (hret x).
Proof. by intros s r s' [= <- <-]. Qed.
Lemma easy_mod f : easy (mod_opt f).
Proof. by intros s r s' [= <- <-]. Qed.
Lemma easy_get : easy get_opt.
Proof. by intros s r s' [= <- <-]. Qed.
Lemma easy_sort {K} (key : heap -> uval -> res K) cmp : (forall h x, key (amh h) x = key h x) -> easy (sort_array key cmp).
Proof.
  intros Hk. unfold sort_array. apply easy_bind; [apply easy_get|]. intros o. destruct (value_count o <=? 1)%nat; [apply easy_ret|].
  intros s r s' E. unfold hbind, get_heap, hderef_arr, hlift in *. cbn [am h_heap h_opt].
  assert (deref_arr (value o) (amh (h_heap s)) = deref_arr (value o) (h_heap s)) as -> by (by destruct (value o)).
  destruct (deref_arr (value o) (h_heap s)) as [cs|]; [|done]. rewrite (qsort_prefix_ext _ (key (h_heap s))) by auto.
  destruct (qsort_prefix _ _ _ _) as [cs'|]; [|done]. by apply hstore_cases.
Qed.
Lemma easy_sort_map {K} (key : heap -> uval * uval -> res K) cmp : (forall h x, key (amh h) x = key h x) -> easy (sort_map key cmp).
Proof.
  intros Hk. unfold sort_map. apply easy_bind; [apply easy_get|]. intros o. destruct (value_count o <=? 1)%nat; [apply easy_ret|].
  intros s r s' E. unfold hbind, get_heap, hderef_map, hlift in *. cbn [am h_heap h_opt].
  assert (deref_map (value o) (amh (h_heap s)) = deref_map (value o) (h_heap s)) as -> by (by destruct (value o)).
  destruct (deref_map (value o) (h_heap s)) as [cs|]; [|done]. rewrite (qsort_prefix_ext _ (key (h_heap s))) by auto.
  destruct (qsort_prefix _ _ _ _) as [cs'|]; [|done]. by apply hstore_cases.
Qed.
Lemma is_dup_am same h cs x n : (forall h x y, same (amh h) x y = same h x y) ->
  forall j, is_dup same (amh h) cs x j n = is_dup same h cs x j n.
Proof.
  intros Hs. induction n as [|n IH]; intros j; cbn [is_dup]; [done|]. destruct (cell cs j); cbn [rbind]; [|done]. rewrite Hs.
  destruct (same h x _) as [[]|]; cbn [rbind]; [done|apply IH|done].
Qed.
Lemma uniq_am same fd n : (forall h x y, same (amh h) x y = same h x y) -> forall i uc cs h uc' cs' h',
  uniq_loop same fd i uc n cs h = Ok (uc', cs', h') ->
  uniq_loop same fd i uc n cs (amh h) = Ok (uc', cs', amh h') /\ oom h' = oom h.
Proof.
  intros Hs. induction n as [|n IH]; intros i uc cs h uc' cs' h' E; cbn [uniq_loop] in *; [by injection E as <- <- <-|].
  destruct (cell cs i) as [x|]; cbn [rbind] in *; [|done]. rewrite is_dup_am by done.
  destruct (is_dup same h cs x 0 uc) as [[]|]; cbn [rbind] in *; [| |done].
  - destruct fd.
    + destruct (free x h) as [h1|] eqn:Ef; cbn [rbind] in *; [|done]. destruct (free_cases _ _ _ Ef) as (O1 & -> & _). cbn [rbind].
      apply IH in E as [E O2]. split; [done|]. congruence.
    + cbn [rbind] in *. by apply IH in E.
  - destruct (set_cell cs uc x); cbn [rbind] in *; [|done]. by apply IH in E.
Qed.
Lemma easy_unique same fd : (forall h x y, same (amh h) x y = same h x y) -> easy (make_unique same fd).
Proof.
  intros Hs. unfold make_unique. apply easy_bind; [apply easy_get|]. intros o. destruct (value_count o <=? 1)%nat; [apply easy_ret|].
  intros s r s' E. unfold hbind, get_heap, hderef_arr, hlift, put_heap, hret in *. cbn [am h_heap h_opt h_log].
  assert (deref_arr (value o) (amh (h_heap s)) = deref_arr (value o) (h_heap s)) as -> by (by destruct (value o)).
  destruct (deref_arr (value o) (h_heap s)) as [cs|]; [|done].
  destruct (uniq_loop same fd 1 1 (value_count o - 1) cs (h_heap s)) as [[[uc cs'] h']|] eqn:Eu; [|done].
  apply (uniq_am same fd _ Hs) in Eu as [-> O1].
  change (Hst (h_opt s) (amh h') (h_log s)) with (am (Hst (h_opt s) h' (h_log s))).
  destruct (hstore (value o) (BArr cs') (Hst (h_opt s) h' (h_log s))) as [[u s1]|] eqn:E1; [|done].
  apply hstore_cases in E1 as [E1 O2]. unfold am in E1 |- *. cbn [h_opt h_heap h_log] in E1 |- *. rewrite E1. injection E as <- <-.
  split; [done|]. rewrite O2. exact O1.
Qed.
Lemma same_str_am h x y : same_str (amh h) x y = same_str h x y.
Proof. unfold same_str. destruct x as [[]| | |], y as [[]| | |]; try done. Qed.
Lemma easy_array_flags : easy apply_array_flags.
Proof.
  unfold apply_array_flags. apply easy_bind; [apply easy_get|]. intros o. destruct (value_count o <=? 1)%nat; [apply easy_ret|]. cbv zeta.
  apply easy_bind.
  - destruct (has _ _); [|apply easy_ret]. destruct (_ || _); [by apply easy_sort|]. destruct (_ || _); [apply easy_sort, read_str_am|].
    destruct (_ || _); [by apply easy_sort|apply easy_ret].
  - intros _. destruct (has _ _); [|apply easy_ret].
    destruct (_ || _); [apply easy_bind; [by apply easy_unique|intros; apply easy_mod]|].
    destruct (_ || _); [apply easy_bind; [apply easy_unique, same_str_am|intros; apply easy_mod]|].
    destruct (_ || _); [apply easy_bind; [by apply easy_unique|intros; apply easy_mod]|apply easy_ret].
Qed.
Lemma bit13 fl : N.testbit fl 13 = false -> has fl FLAG_UNIQUE_VALUE = false.
Proof.
  intros Hb. unfold has. rewrite negb_false_iff, N.eqb_eq. apply N.bits_inj. intros n. rewrite N.land_spec, N.bits_0.
  change FLAG_UNIQUE_VALUE with (2 ^ 13)%N. rewrite N.pow2_bits_eqb. destruct (N.eqb_spec 13 n) as [<-|]; [by rewrite Hb|apply andb_false_r].
Qed.
(** Flags of maps, when uniqueness of values is not asked for *)
Lemma map_flags_easy s r s' : N.testbit (d_flags (decl_of (h_opt s))) 13 = false -> apply_map_flags s = Ok (r, s') ->
  apply_map_flags (am s) = Ok (r, am s') /\ oom (h_heap s') = oom (h_heap s).
Proof.
  intros Hb. unfold apply_map_flags.
  assert (Hg : forall {B} (k : opt -> HM B) s, hbind get_opt k s = k (h_opt s) s) by done. rewrite !Hg. cbn [am h_opt].
  destruct (value_count (h_opt s) <=? 1)%nat; [by intros [= <- <-]|]. cbv zeta. rewrite (bit13 _ Hb).
  generalize (d_flags (decl_of (h_opt s))) (d_vtype (decl_of (h_opt s))). intros fl ty.
  assert (E : easy (if has fl FLAG_SORTED_KEY then sort_map_by_keys
     else if has fl FLAG_SORTED_VALUE then
       if (ty =? VT_MAP_INT)%N then sort_map_by_int_values
       else if (ty =? VT_MAP_STRING)%N then sort_map_by_string_values
       else if (ty =? VT_MAP_FLOAT)%N then sort_map_by_float_values
       else if (ty =? VT_MAP_BOOL)%N then sort_map_by_bool_values
       else hret tt
     else hret tt)).
  { destruct (has _ _); [apply easy_sort_map; intros; apply read_str_am|]. destruct (has _ _); [|apply easy_ret].
    destruct (_ =? _)%N; [by apply easy_sort_map|]. destruct (_ =? _)%N; [apply easy_sort_map; intros; apply read_str_am|].
    destruct (_ =? _)%N; [by apply easy_sort_map|]. destruct (_ =? _)%N; [by apply easy_sort_map|apply easy_ret]. }
  assert (Hr : forall {B} (k : unit -> HM B) s, hbind (hret tt) k s = k tt s) by done. rewrite !Hr. apply E.
Qed.

(** ** Handlers *)
Definition D0 (d : decl) (s : hst) : Prop := decl_of (h_opt s) = d.
Lemma tame_finish (m : HM unit) : easy m -> tame Any zero (m ;;; mod_opt (fun o => with_allocated o true) ;;; hret SUCCESS).
Proof. intros Hm. apply easy_tame. apply easy_bind; [done|]. intros _. apply easy_bind; [apply easy_mod|]. intros _. apply easy_ret. Qed.
(** [works f]: the handler, on an option whose map values need not be made unique. *)
Definition works (m : HM Z) : Prop := forall s s', N.testbit (d_flags (decl_of (h_opt s))) 13 = false -> I s ->
  m s = Ok (0, s') -> m (am s) = Ok (0, am s') /\ none_failed (oom (h_heap s)) (oom (h_heap s')).
Lemma tame_works m : tame Any zero m -> works m.
Proof. intros Hm s s' _ HI E. destruct (Hm _ _ _ HI E eq_refl) as (E1 & _ & E3). done. Qed.
Lemma list_works one flags v : (forall w, tame I zero (one w)) -> (forall w, keeps (one w)) ->
  (forall s r s', N.testbit (d_flags (decl_of (h_opt s))) 13 = false -> flags s = Ok (r, s') ->
    flags (am s) = Ok (r, am s') /\ oom (h_heap s') = oom (h_heap s)) ->
  works (list_handler one flags v).
Proof.
  intros Ho Hk Hf s s' Hb HI E. unfold list_handler in *. unfold hbind at 1 in E. unfold hbind at 1.
  set (m := match strchr v comma with Some _ => _ | None => _ end) in *.
  assert (Hm : tame I zero m).
  { unfold m. destruct (strchr v comma); [|apply Ho].
    apply (tame_bind I got); [apply tame_split| | |apply got_dec].
    - intros x [p ->]. apply tame_seq; [apply tame_arr|]. intros cells.
      apply (tame_bind I zero); [by apply tame_for_words| | |].
      + intros ? ->. apply tame_seq; [apply tame_free_split|]. intros _. apply tame_ret.
      + intros st s1 y s2 Hx. unfold hbind. destruct (free_split p s1) as [[? ?]|]; [|done]. by intros [= <- _].
      + intros st. unfold zero. lia.
    - intros [l|] s1 y s2 Hx; [by destruct Hx; eexists|]. by intros ->%ends. }
  assert (Km : keeps m).
  { unfold m. destruct (strchr v comma); [|apply Hk]. keeps. }
  clearbody m. destruct (m s) as [[st s1]|] eqn:E1; [|done]. change SUCCESS with 0 in E |- *.
  destruct (Z.eqb_spec st 0) as [->|N]; [|by injection E as ? _].
  destruct (Hm _ _ _ HI E1 eq_refl) as (-> & _ & N1). pose proof (Km _ _ _ E1) as K1.
  unfold hbind in *. destruct (flags s1) as [[u s2]|] eqn:E2; [|done].
  destruct (Hf s1 u s2) as [E3 O2]; [by rewrite K1|done|]. change (0 =? 0) with true. cbv iota beta. rewrite E3. injection E as <-. split; [done|].
  cbn [h_heap]. by rewrite O2.
Qed.
Lemma array_flags_cond s r s' : N.testbit (d_flags (decl_of (h_opt s))) 13 = false -> apply_array_flags s = Ok (r, s') ->
  apply_array_flags (am s) = Ok (r, am s') /\ oom (h_heap s') = oom (h_heap s).
Proof. intros _. apply easy_array_flags. Qed.
Lemma variadic_works (m : HM Z) (k : Z -> HM Z) : tame I zero m -> (forall st s y s', st <> 0 -> k st s = Ok (y, s') -> y <> 0) ->
  works (let! st := m in if st =? SUCCESS then apply_array_flags ;;; mod_opt (fun o => with_allocated o true) ;;; hret SUCCESS else k st).
Proof.
  intros Hm Hk. apply tame_works. apply (tame_bind Any zero); [done| | |].
  - intros ? ->. apply tame_finish, easy_array_flags.
  - intros st s y s' Hx. destruct (Z.eqb_spec st SUCCESS); [done|]. by apply Hk.
  - intros st. unfold zero. lia.
Qed.
Lemma handler_works active f v : works (run_handler active f v).
Proof.
  destruct f; cbn [run_handler].
  18:{ apply tame_works, easy_tame, easy_bind; [apply easy_get|]. intros o. destruct (f _ _) as [st x]. apply easy_bind; [apply easy_mod|intros; apply easy_ret]. }
  1: apply tame_works, easy_tame, easy_bind; [apply easy_mod|intros; apply easy_ret].
  2: apply tame_works, easy_tame, easy_bind; [apply easy_mod|intros; apply easy_ret].
  1: { unfold bool_handler. destruct v as [s|].
       - destruct (string_to_bool s); apply tame_works, easy_tame, easy_bind; try (intros; apply easy_ret); [apply easy_mod|by intros ? ? ? [= <- <-]].
       - apply tame_works, easy_tame, easy_bind; [apply easy_get|]. intros o. apply easy_bind; [by intros ? ? ? [= <- <-]|intros; apply easy_ret]. }
  all: try (destruct v as [v|]; cbn [need]; [|by intros ? ? _ _ ?]).
  1,2: apply tame_works, easy_tame, easy_bind; [apply easy_mod|intros; apply easy_ret].
  1-7: (apply list_works; [intros w; first [apply tame_set_string|apply tame_set_int|apply tame_set_float|apply tame_kv_string|apply tame_scalar]
           |intros w; first [apply keeps_set_value_string|apply keeps_set_value_int|apply keeps_set_value_float|apply keeps_set_kv_string|apply keeps_set_kv_scalar]|first [apply array_flags_cond|apply map_flags_easy]]).
  - unfold variadic_string_handler. apply variadic_works; [apply tame_set_string|]. by intros st s y s' N [= <- _].
  - unfold variadic_int_handler. apply variadic_works; [apply tame_int_value|]. intros st s y s' N. unfold hbind at 1, get_opt. by intros ->%ends.
  - unfold variadic_float_handler. apply variadic_works; [apply tame_float_value|]. intros st s y s' N. unfold hbind at 1, get_opt. by intros ->%ends.
  - apply tame_works, easy_tame, easy_bind; [by intros ? ? ? [= <- <-]|intros; apply easy_ret].
  - apply tame_works, easy_tame, easy_bind; [by intros ? ? ? [= <- <-]|intros; apply easy_ret].
Qed.

(** ** One call *)
Lemma entry_bounded clean h o vs fp lk orc lg : shape_of (decl_of o) <> Plain -> entry_inv clean h o vs fp lk ->
  I (Hst o (Heap (blocks h) orc) lg).
Proof.
  intros Hn HE p Hp. cbn [h_opt h_heap blocks] in *. unfold entry_inv in HE. destruct (shape_of (decl_of o)) as [|k|k]; [done|..].
  - destruct HE as (c & (_ & [(Hv & _)|(p' & cells & Hv & Hb & Hl & _)]) & _); [by rewrite Hv in Hp|].
    rewrite Hv in Hp. injection Hp as ->. split; [by eapply lookup_lt_Some|]. intros b n Hb' Hn'. rewrite Hb in Hb'. injection Hb' as <-.
    injection Hn' as <-. lia.
  - destruct HE as (c & (_ & [(Hv & _)|(p' & cells & Hv & Hb & Hl & _)]) & _); [by rewrite Hv in Hp|].
    rewrite Hv in Hp. injection Hp as ->. split; [by eapply lookup_lt_Some|]. intros b n Hb' Hn'. rewrite Hb in Hb'. injection Hb' as <-.
    injection Hn' as <-. lia.
Qed.
Lemma plain_single f : array_handler f = None -> map_handler f = None -> single_handler f.
Proof. by destruct f. Qed.
Lemma heap_same h orc : oom h = [] -> Heap (blocks (Heap (blocks h) orc)) [] = h.
Proof. destruct h. cbn. by intros ->. Qed.
Lemma handler_scarce active f v clean h o vs fp lk orc s' : d_handler (decl_of o) = Some f ->
  N.testbit (d_flags (decl_of o)) 13 = false -> entry_inv clean h o vs fp lk -> oom h = [] ->
  run_handler active f v (Hst o (Heap (blocks h) orc) []) = Ok (0, s') ->
  run_handler active f v (Hst o h []) = Ok (0, am s') /\ none_failed orc (oom (h_heap s')).
Proof.
  intros Hf Hb HE Ho E. destruct (decide (array_handler f = None /\ map_handler f = None)) as [[H1 H2]|N].
  - pose proof (single_runs orc active f v o h [] (plain_single _ H1 H2)) as R. unfold hw in R. rewrite E in R.
    destruct (run_handler active f v (Hst o h [])) as [[st s]|]; [|done]. destruct R as (R1 & _ & [= <- ->]). split.
    + unfold am. cbn [h_opt h_heap h_log]. unfold amh. rewrite heap_same by done. rewrite <- R1. by destruct s.
    + apply none_refl.
  - assert (Hsh : shape_of (decl_of o) <> Plain) by (rewrite shape_plain; intros X; by destruct N; apply X).
    destruct (handler_works active f v (Hst o (Heap (blocks h) orc) []) s' Hb (entry_bounded _ _ _ _ _ _ orc [] Hsh HE) E) as [E1 N1].
    split; [|exact N1]. unfold am in E1 at 1. cbn [h_opt h_heap h_log] in E1. unfold amh in E1 at 1. by rewrite heap_same in E1.
Qed.
Lemma exec_scarce clean a V F K t i o v orc b : invar clean a V F K -> get_option a t i = Ok o ->
  N.testbit (d_flags (decl_of o)) 13 = false -> execute_callbacks (with_oracle a orc) t i v = Ok (0, b) ->
  execute_callbacks a t i v = Ok (0, with_oracle b []) /\ none_failed orc (oom (a_heap b)).
Proof.
  intros I Ho Hb. pose proof (iv_oom _ _ _ _ _ I) as Hoom. unfold execute_callbacks. change (with_oracle a orc) with (W orc a).
  rewrite W_get, Ho. cbn [rbind]. destruct (d_handler (decl_of o)) as [f|] eqn:Hf; [|done].
  change (a_heap (W orc a)) with (hw orc (a_heap a)).
  assert (Ev : (match d_validators (decl_of o) with
                | None => Ok (SUCCESS, [])
                | Some l => run_validators ORDER_PRE l (ArgText v) (hw orc (a_heap a)) end) =
               (match d_validators (decl_of o) with
                | None => Ok (SUCCESS, [])
                | Some l => run_validators ORDER_PRE l (ArgText v) (a_heap a) end)).
  { destruct (d_validators (decl_of o)); [apply validators_hw|done]. }
  rewrite Ev. clear Ev.
  destruct (match d_validators (decl_of o) with
            | None => Ok (SUCCESS, [])
            | Some l => run_validators ORDER_PRE l (ArgText v) (a_heap a) end) as [[st ev]|]; cbn [rbind]; [|done].
  rewrite W_events. pose proof (events_heap ev a) as Hh. set (a1 := apply_events a ev) in *. clearbody a1.
  change SUCCESS with 0. destruct (Z.eqb_spec st 0) as [->|N]; cbn [negb]; [|by intros [= ? _]].
  change (get_active_options (W orc a1)) with (get_active_options a1).
  destruct (get_active_options a1) as [act|]; cbn [rbind]; [|done].
  change (a_root (W orc a1)) with (a_root a1). change (a_heap (W orc a1)) with (hw orc (a_heap a1)). rewrite Hh.
  destruct (run_handler _ f v (Hst o (hw orc (a_heap a)) [])) as [[st2 s]|] eqn:E; cbn [rbind]; [|done].
  destruct (Z.eqb_spec st2 0) as [->|N]; cbn [negb]; [|by intros [= ? _]].
  destruct (handler_scarce _ f v _ (a_heap a) o _ _ _ orc s Hf Hb (iv_entry _ _ _ _ _ I _ _ _ Ho) Hoom E) as [-> N1]. cbn [rbind negb].
  change (0 =? 0) with true. cbn [negb].
  set (a2 := set_heap (put_option a1 t i (h_opt s)) (amh (h_heap s))).
  change (set_heap (put_option a1 t i (h_opt (am s))) (h_heap (am s))) with a2. change (h_log (am s)) with (h_log s).
  assert (E2 : set_heap (put_option (W orc a1) t i (h_opt s)) (h_heap s) = W (oom (h_heap s)) a2).
  { unfold W, a2, with_oracle, put_option, set_heap, set_tabs. cbn. by destruct (h_heap s). }
  rewrite E2, W_events, W_get.
  pose proof (events_heap (h_log s) a2) as Hh2. set (a3 := apply_events a2 (h_log s)) in *. clearbody a3.
  destruct (get_option a3 t i) as [o2|]; cbn [rbind]; [|done]. cbv zeta. rewrite W_put.
  set (o4 := if (value_count (with_set o2 true) =? 0)%nat then with_count (with_set o2 true) 1 else with_set o2 true). clearbody o4.
  destruct (has _ _); [done|]. intros [= <-]. split; [|exact N1]. f_equal. f_equal. unfold W, with_oracle. cbn.
  unfold put_option, set_heap, set_tabs. cbn. destruct a3. cbn in *. by rewrite Hh2.
Qed.

(** ** The whole parse *)
Definition unflagged (D : list (list decl)) (its : list item) : Prop := forall t i v T d,
  Call t i v ∈ its -> D !! t = Some T -> T !! i = Some d -> N.testbit (d_flags d) 13 = false.
Lemma perform_scarce its : qsort_sorts -> forall clean a V F K orc b, invar clean a V F K -> stack_ok a -> unflagged (decls a) its ->
  (forall x, x ∈ its -> item_ok (decls a) x) -> perform (with_oracle a orc) its = Ok (0, b) ->
  perform a its = Ok (0, with_oracle b []) /\ none_failed orc (oom (a_heap b)).
Proof.
  intros HQ. induction its as [|x its IH]; intros clean a V F K orc b I Hs HU Hx; cbn [perform].
  { intros [= <-]. split; [|apply none_refl]. f_equal. f_equal. pose proof (iv_oom _ _ _ _ _ I) as Ho. destruct a as [? ? ? ? [bl oo] ? ?].
    cbn in Ho. by rewrite Ho. }
  pose proof (Hx x ltac:(left)) as Hx1. assert (Hx2 : forall y, y ∈ its -> item_ok (decls a) y) by (intros; apply Hx; by right).
  assert (HU2 : unflagged (decls a) its) by (intros t i v T d Hi; apply (HU t i v); by right).
  destruct x as [t i v|t i|c m]; cbn [item_ok] in Hx1.
  - destruct Hx1 as (T & d & HT & Hd' & Hnone & Hharm). pose proof (HU _ _ _ _ _ ltac:(left) HT Hd') as Hb.
    destruct (decls_entry _ _ _ _ _ HT Hd') as (o & Ho & <-). apply entry_get in Ho.
    destruct (exec_inv clean a V F K t i o v HQ I Ho (stack_active _ Hs) Hnone Hharm) as (st & a1 & F1 & K1 & E & I1).
    destruct (execute_callbacks (with_oracle a orc) t i v) as [[st' b1]|] eqn:E'; cbn [rbind]; [|done].
    destruct (Z.eqb_spec st' 0) as [->|N]; [|by intros [= ? _]].
    destruct (exec_scarce clean a V F K t i o v orc b1 I Ho Hb E') as [E1 N1]. rewrite E1 in E. injection E as <- <-.
    rewrite E1. cbn [rbind]. change (0 =? 0) with true in *. rewrite andb_true_r in I1. cbv iota.
    pose proof (execute_callbacks_frame _ _ _ _ _ _ E1) as [Fr Fs Fp Fd _].
    assert (Hs1 : stack_ok (with_oracle b1 [])) by (unfold stack_ok; by rewrite Fs, Fd).
    intros E2. rewrite <- Fd in Hx2, HU2.
    assert (Eb : b1 = with_oracle (with_oracle b1 []) (oom (a_heap b1))) by (destruct b1 as [? ? ? ? [? ?] ? ?]; done).
    rewrite Eb in E2. destruct (IH clean _ _ _ _ _ _ I1 Hs1 HU2 Hx2 E2) as [E3 N3]. split; [done|]. by eapply none_trans.
  - destruct Hx1 as (T & d & t' & HT & Hd' & Hh & Ht' & HT'). destruct (decls_entry _ _ _ _ _ HT Hd') as (o & Ho & Ho'). apply entry_get in Ho.
    unfold select. change (get_option (with_oracle a orc) t i) with (get_option a t i). rewrite Ho. cbn [rbind].
    change (a_stack (with_oracle a orc)) with (a_stack a). destruct (_ <? _)%nat; cbn [rbind]; [|done].
    set (a1 := set_stack (put_option a t i (with_set o true)) (a_stack a ++ [(t, i)])).
    change (set_stack (put_option (with_oracle a orc) t i (with_set o true)) (a_stack a ++ [(t, i)])) with (with_oracle a1 orc).
    assert (Fd : decls a1 = decls a) by (eapply decls_put; [exact Ho|done]).
    assert (Hplain : shape_of (decl_of o) = Plain) by (unfold shape_of; by rewrite Ho', Hh).
    assert (I1 : invar clean a1 V (upd F t i (F t i)) (upd K t i (K t i ++ []))).
    { eapply (invar_step clean clean a a1 V V F K t i o (with_set o true) (F t i) []); try done.
      - intros t1 i1 Hne. apply (get_put_other a); done.
      - by apply (get_put_same a t i o).
      - apply (iv_oom _ _ _ _ _ I).
      - rewrite app_nil_r. apply moves_refl.
      - intros l []%elem_of_nil.
      - pose proof (iv_entry _ _ _ _ _ I _ _ _ Ho) as HE. rewrite app_nil_r. unfold entry_inv in *. cbn [with_set decl_of is_allocated].
        rewrite Hplain in *. destruct HE as (E1 & E2 & E3 & E4). split_and!; try done. unfold typed. cbn. by rewrite Ho', Hh. }
    rewrite <- Fd in Hx2, HU2. intros E2. eapply IH; [exact I1| |exact HU2|exact Hx2|exact E2].
    intros r Hr. rewrite Fd. unfold a1 in Hr. cbn [set_stack a_stack] in Hr. apply elem_of_app in Hr as [Hr|Hr]; [by apply Hs|].
    apply elem_of_list_singleton in Hr as ->. exists t'. split; [|done]. unfold subtable. cbn [fst snd]. by rewrite HT, Hd'.
  - by intros [= -> _].
Qed.

Lemma in_order_am h orc T : table_in_order (Heap (blocks h) orc) T -> table_in_order h T.
Proof.
  intros HT i o Hi. destruct (HT i o Hi) as [H1 H2 H3 H4 H5]. by split.
Qed.
Lemma parse_scarce a argv orc b : accepted a -> no_strays (decls a) (a_root a) -> ready a -> qsort_sorts -> harmless_input a argv ->
  no_unique_values a argv -> argus_parse (with_oracle a orc) argv = Ok (Returned 0, b) ->
  argus_parse a argv = Ok (Returned 0, with_oracle b []) /\ none_failed orc (oom (a_heap b)).
Proof.
  intros Ha Hns Hrdy HQ Hh HU E. pose proof (accepted_ready _ Ha Hns) as Hf. pose proof Hf as [Hst Herr HR HS Hac Hnm].
  assert (Hf' : fresh (with_oracle a orc)) by (split; try done; exact Hnm).
  apply parse_ends in E as (its & Hr & D); [|exact Hf']. change (decls (with_oracle a orc)) with (decls a) in Hr.
  change (a_root (with_oracle a orc)) with (a_root a) in Hr.
  destruct D as [(? & _ & [=] & _)|[(c & ? & ? & _ & _ & [= <-] & _)|
      [(? & c & ? & ? & _ & ? & _ & [= <-] & _)|[(? & c & ? & ? & _ & _ & ? & _ & [= <-] & _)|
       (b1 & Hp & He & _ & Hio)]]]]; try done.
  assert (S0 : stack_ok a) by (unfold stack_ok; rewrite Hst; intros r []%elem_of_nil).
  assert (X0 : forall x, x ∈ its -> item_ok (decls a) x) by (by eapply items_ok).
  assert (U0 : unflagged (decls a) its) by (intros t i v T d; apply (HU its); by left).
  destruct (perform_scarce its HQ true a _ _ _ orc b1 (invar_ready _ Hrdy) S0 U0 X0 Hp) as [Hp1 N1].
  destruct (perform_inv its HQ true a _ _ _ (invar_ready _ Hrdy) S0 X0) as (st & a1 & F1 & K1 & Hp' & D1 & R1 & S1 & T1 & I1).
  { rewrite Hst. by eapply accepted_entered. }
  rewrite Hp1 in Hp'. injection Hp' as <- <-. cbn [andb] in I1. change (0 =? 0) with true in I1.
  assert (Eb : b1 = with_oracle (with_oracle b1 []) (oom (a_heap b1))) by (destruct b1 as [? ? ? ? [? ?] ? ?]; done).
  rewrite Eb in He. change (env_items (with_oracle (with_oracle b1 []) (oom (a_heap b1)))) with (env_items (with_oracle b1 [])) in He.
  assert (X1 : forall x, x ∈ env_items (with_oracle b1 []) -> item_ok (decls (with_oracle b1 [])) x).
  { exact (env_items_ok a argv its _ Ha Hns Hh Hr Hp1). }
  assert (U1 : unflagged (decls (with_oracle b1 [])) (env_items (with_oracle b1 []))).
  { intros t i v T d Hi. rewrite D1. apply (HU (its ++ env_items (with_oracle b1 [])) t i v); [right; by exists its, (with_oracle b1 [])|].
    apply elem_of_app. by right. }
  destruct (perform_scarce _ HQ true _ _ _ _ _ b I1 S1 U1 X1 He) as [He1 N2].
  split; [|by eapply none_trans].
  destruct (parse_safe a argv Ha Hns Hrdy HQ Hh) as (out & a' & E & _ & _). rewrite E.
  apply parse_ends in E as (its' & Hr' & D); [|done]. assert (its' = its) as -> by (by eapply reads_unique). rewrite Hp1 in D.
  destruct D as [(? & [=] & _)|[(c & ? & ? & _ & [= <- <-] & _)|
      [(? & c & ? & ? & [= <-] & ? & E3 & _)|[(? & c & a3 & ? & [= <-] & E3 & ? & Hfp & _)|
       (? & [= <-] & E3 & -> & _)]]]]; try done.
  - rewrite E3 in He1. injection He1 as -> _. done.
  - rewrite E3 in He1. injection He1 as ->. exfalso.
    apply first_problem_not_in_order in Hfp as (t & Ht & Hn). destruct (Hio t Ht) as (T & HT & Hio'). apply (Hn T HT).
    eapply (in_order_am (a_heap (with_oracle b [])) (oom (a_heap b))). cbn. by destruct (a_heap b).
  - rewrite E3 in He1. by injection He1 as ->.
Qed.
End scarce.
