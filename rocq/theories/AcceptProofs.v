(** * When a command line is accepted: proofs *)
From Coq Require Import Lia.
From Verif Require Import Api LibProofs FrameProofs Display SpecDisplay ChoiceProofs SpecValues ValueProofs.
From Verif Require Import SpecGrammar GrammarProofs GrammarLemmas SpecAfter AfterProofs EnvProofs WholeProofs AfterFacts SpecStructure StructProofs CallProofs SpecTold ToldProofs Messages SpecMessages MessageProofs.
From Verif Require Import SpecMemory SpecContents SpecSafe HeapProofs SplitProofs ListProofs OrderProofs ArrayProofs FlagProofs ArrayHandlers MapProofs
  MapHandlers MapFlags MapWhole SafeProofs SafeContext SafePerform SpecRefused RefusedProofs SpecAccept.

Section libc.
Context `{Libc}.
Let pcre : cstr -> cstr := fun _ => [].

(** A value that is taken gives 0, or 1 for an option that asks to leave. *)
Lemma execute_exact clean a V F K t i o f v st a' : invar clean a V F K -> get_option a t i = Ok o ->
  (v = None -> d_vtype (decl_of o) = VT_FLAG) -> (forall s, v = Some s -> harmless_text (decl_of o) s) ->
  d_handler (decl_of o) = Some f -> library_entry (decl_of o) -> is_Some (d_name (decl_of o)) ->
  execute_callbacks a t i v = Ok (st, a') ->
  st = 0 <-> value_taken (decl_of o) v /\ N.testbit (d_flags (decl_of o)) 5 = false.
Proof.
  intros I Ho Hnone Hharm Hf Hlib Hn E.
  pose proof (execute_outcome pcre _ _ _ _ _ _ _ _ _ _ _ _ I Ho Hnone Hharm Hf Hlib Hn E) as HO. split.
  - intros ->. destruct HO as [[_ Ht]|(? & _)]; [|done]. split; [done|].
    apply call_ok in E as (o' & f' & act & s & Ho' & _ & _ & _ & _ & _ & _ & _ & Hx & _).
    assert (o' = o) as -> by congruence. apply not_true_iff_false. exact Hx.
  - intros [Ht Hx]. destruct HO as [[[->| ->] _]|(_ & m & tx & _ & _ & Hs)]; [done| |by apply said_not_taken in Hs].
    exfalso. revert E. destruct Hlib as [Hl1 Hl2].
    unfold execute_callbacks. rewrite Ho. cbn [rbind]. rewrite Hf. intros E.
    apply rbind_Ok in E as ([st1 ev] & Hv & E). cbv beta iota in E.
    assert (Hv' : (st1 = 0 /\ ev = []) \/ exists m t, ev = [EDiag st1 m] /\ value_said pcre (decl_of o) v st1 t).
    { destruct (d_validators (decl_of o)) as [l|] eqn:El.
      - unfold validators in Hl2. rewrite El in Hl2. cbn in Hl2.
        apply (refused_texts pcre) in Hv as [(-> & -> & _)|(N & m & t0 & l1 & e & l2 & X1 & X2 & X3 & X4 & X5 & X6)]; [by left| |exact Hl2].
        right. exists m, t0. split; [done|]. eapply vs_validator; try done. unfold validators. by rewrite El.
      - injection Hv as <- <-. by left. }
    change SUCCESS with 0 in E. destruct Hv' as [[-> ->]|(m & t0 & -> & Hs')]; [|by apply said_not_taken in Hs'].
    change (negb (0 =? 0)) with false in E. cbv iota in E.
    apply rbind_Ok in E as (act & _ & E). apply rbind_Ok in E as ([st2 s] & Er & E). cbv beta iota in E. cbn [apply_events fold_left] in *.
    pose proof (iv_entry _ _ _ _ _ I _ _ _ Ho) as HE.
    pose proof (handler_said pcre (default (a_root a) act) f v clean (a_heap a) o (V t i) (F t i) (K t i) st2 s (iv_fits _ _ _ _ _ I _ _ _ Ho) Hf) as HS.
    specialize (HS ltac:(intros g ->; by eapply Hl1) Hn HE (iv_oom _ _ _ _ _ I) Hnone Hharm (proj1 Ht) Er).
    destruct HS as [(-> & _)|(N & m & t0 & L & R & Hs')]; [|by apply said_not_taken in Hs'].
    change (negb (0 =? 0)) with false in E. cbv iota in E.
    pose proof (keeps_run_handler _ _ _ _ _ _ Er) as Hk. cbn [h_opt] in Hk.
    assert (Hg2 : get_option (apply_events (set_heap (put_option a t i (h_opt s)) (h_heap s)) (h_log s)) t i = Ok (h_opt s)).
    { rewrite (get_option_tabs _ (put_option a t i (h_opt s))); [by eapply get_put_same|]. rewrite apply_events_tabs. done. }
    rewrite Hg2 in E. cbn [rbind] in E.
    replace (d_flags (decl_of (if (value_count (with_set (h_opt s) true) =? 0)%nat then with_count (with_set (h_opt s) true) 1
      else with_set (h_opt s) true))) with (d_flags (decl_of o)) in E by (destruct (_ =? 0)%nat; cbn; congruence).
    change FLAG_EXIT with (2 ^ 5)%N in E. destruct (has _ _) eqn:Eh; [|done]. apply has_bit in Eh. congruence.
Qed.

(** ** Item by item *)
Section line.
Context (a : argus) (argv : list cstr) (HS : starts a) (Ha : accepted a) (Hns : no_strays (decls a) (a_root a)) (Hrdy : ready a)
  (HQ : qsort_sorts) (Hh : harmless_input a argv).
Definition follows (its : list item) (x : item) (its2 : list item) : Prop :=
  reads (decls a) (a_root a) 0 false argv (its ++ x :: its2) \/
  exists itsc ac e1, its = itsc ++ e1 /\ reads (decls a) (a_root a) 0 false argv itsc /\ perform a itsc = Ok (0, ac) /\
     env_items ac = e1 ++ x :: its2.
Lemma call_step its t i v its2 a1 : follows its (Call t i v) its2 -> perform a its = Ok (0, a1) ->
  (exists a2, perform a1 [Call t i v] = Ok (0, a2)) <-> item_taken (decls a) (Call t i v).
Proof using HS Ha Hns Hrdy HQ Hh.
  intros Hw Hp. destruct HS as (Hst & Hlog & Hlib).
  assert (Hx : exists T d, decls a !! t = Some T /\ T !! i = Some d).
  { assert (callable (decls a) t i) as (T & d & ? & ? & _); [|by exists T, d].
    destruct Hw as [Hr|(itsc & ac & e1 & -> & Hr & Hpc & He)].
    - eapply (reads_calls _ _ _ _ _ _ Hr t i v). apply elem_of_app. right. left.
    - eapply (assigned_calls a argv (itsc ++ env_items ac)); [by apply accepted_ready|by exists itsc, ac|].
      rewrite He. apply elem_of_app. right. apply elem_of_app. right. left. }
  destruct Hx as (T & d & HT & Hd).
  destruct (call_reached pcre a argv its t i v its2 T d a1 Ha Hns Hrdy Hlib HQ Hh Hst Hw Hp HT Hd)
    as (o & f & V & F & K & I1 & Ho & <- & S1 & Hnone & Hharm & Hf & Hlb & Hname & D1 & R1 & T1 & Hn & Hi).
  destruct (exec_inv true a1 V F K t i o v HQ I1 Ho (stack_active _ S1) Hnone Hharm) as (st & a2 & F' & K' & E & _).
  pose proof (execute_exact _ _ _ _ _ _ _ _ _ _ _ _ I1 Ho Hnone Hharm Hf Hlb Hname E) as HE.
  cbn [perform]. rewrite E. cbn [rbind]. split.
  - intros (a3 & E3). exists T, (decl_of o). split; [done|]. split; [done|]. apply HE.
    destruct (Z.eqb_spec st 0); [done|]. by injection E3.
  - intros (T' & d' & HT' & Hd' & Hok). assert (T' = T) as -> by congruence. assert (d' = decl_of o) as -> by congruence.
    apply HE in Hok as ->. by exists a2.
Qed.
Lemma line_step its1 its2 : reads (decls a) (a_root a) 0 false argv (its1 ++ its2) ->
  (exists a1, perform a its1 = Ok (0, a1)) <-> Forall (item_taken (decls a)) its1.
Proof using HS Ha Hns Hrdy HQ Hh.
  revert its2. induction its1 as [|x its1 IH] using rev_ind; intros its2 Hr.
  { split; [constructor|]. intros _. by exists a. }
  rewrite <- app_assoc in Hr. cbn [app] in Hr. specialize (IH _ Hr). rewrite Forall_app, Forall_singleton, <- IH.
  assert (Hcodes : forall c m, Reject c m ∈ its1 ++ x :: its2 -> c <> 0).
  { intros c m Hy. destruct (reads_codes _ _ _ _ _ _ _ _ Hr Hy) as [->|[->| ->]]; done. }
  assert (Happ : forall a1, perform a its1 = Ok (0, a1) -> perform a (its1 ++ [x]) = perform a1 [x]).
  { intros a1 Hp. rewrite perform_app, Hp; [done|]. eapply perform_no_reject; [|exact Hp]. intros c m Hy.
    apply (Hcodes c m), elem_of_app. by left. }
  assert (Hsplit : (exists a1, perform a (its1 ++ [x]) = Ok (0, a1)) -> exists a1, perform a its1 = Ok (0, a1)).
  { intros [a2 E]. assert (Hn : forall c m, Reject c m ∉ its1 ++ [x]).
    { eapply perform_no_reject; [|exact E]. intros c m Hy. apply (Hcodes c m). apply elem_of_app in Hy as [Hy|Hy]; apply elem_of_app; [by left|].
      apply elem_of_list_singleton in Hy as ->. right. left. }
    rewrite perform_app in E by (intros c m Hy; apply (Hn c m), elem_of_app; by left).
    apply rbind_Ok in E as ([st a1] & Hp & E). cbv beta iota in E. destruct (Z.eqb_spec st 0) as [->|]; [by exists a1|].
    injection E as -> _. done. }
  assert (Hx : forall a1, perform a its1 = Ok (0, a1) -> (exists a2, perform a1 [x] = Ok (0, a2)) <-> item_taken (decls a) x).
  { intros a1 Hp. destruct x as [t i v|t i|c m].
    - eapply call_step; [left; exact Hr|exact Hp].
    - split; [done|]. intros _.
      destruct HS as (Hst & _ & _). pose proof (accepted_ready _ Ha Hns) as [_ _ HR HSb _ _].
      destruct (perform_inv (its1 ++ [Enter t i]) HQ true a _ _ _ (invar_ready _ Hrdy)) as (st & a2 & _ & _ & E & _).
      { unfold stack_ok. rewrite Hst. intros r []%elem_of_nil. }
      { intros y Hy. eapply items_ok; [exact Ha|exact Hns|exact Hh|exact Hr|]. apply elem_of_app in Hy as [Hy|Hy]; apply elem_of_app; [by left|].
        apply elem_of_list_singleton in Hy as ->. right. left. }
      { rewrite Hst. pose proof (accepted_entered _ _ _ Ha Hns Hr) as Hle.
        change (Enter t i :: its2) with ([Enter t i] ++ its2) in Hle. rewrite app_assoc, entered_app, app_length in Hle. cbn. lia. }
      rewrite (Happ _ Hp) in E. cbn [perform] in *. destruct (select a1 t i) as [a3|]; [|done]. cbn [rbind] in *. by exists a3.
    - cbn [perform item_taken]. split; [|done]. intros (a2 & E). injection E as -> _.
      apply (Hcodes 0 m); [|done]. apply elem_of_app. right. left. }
  split.
  - intros HE. pose proof (Hsplit HE) as [a1 Hp]. split; [by exists a1|]. apply (Hx a1 Hp). by rewrite <- (Happ _ Hp).
  - intros [[a1 Hp] Ht]. rewrite (Happ _ Hp). by apply (Hx a1 Hp).
Qed.
Lemma env_step its a1 e1 e2 : reads (decls a) (a_root a) 0 false argv its -> perform a its = Ok (0, a1) ->
  env_items a1 = e1 ++ e2 -> (exists a2, perform a1 e1 = Ok (0, a2)) <-> Forall (item_taken (decls a)) e1.
Proof using HS Ha Hns Hrdy HQ Hh.
  intros Hr Hp1. revert e2. induction e1 as [|x e1 IH] using rev_ind; intros e2 He.
  { split; [constructor|]. intros _. by exists a1. }
  rewrite <- app_assoc in He. cbn [app] in He. specialize (IH _ He). rewrite Forall_app, Forall_singleton, <- IH.
  assert (Hn : forall c m, Reject c m ∉ e1 ++ x :: e2).
  { rewrite <- He. intros c m Hy. apply env_of_calls in Hy as (? & ? & ? & [=]). }
  assert (Hx : exists t i v, x = Call t i v).
  { assert (Hy : x ∈ env_items a1) by (rewrite He; apply elem_of_app; right; left). by apply env_of_calls in Hy. }
  destruct Hx as (t & i & v & ->).
  assert (Happ : forall a2, perform a1 e1 = Ok (0, a2) -> perform a1 (e1 ++ [Call t i v]) = perform a2 [Call t i v]).
  { intros a2 Hp. rewrite perform_app, Hp; [done|]. intros c m Hy. apply (Hn c m), elem_of_app. by left. }
  assert (Hpp : forall a2, perform a1 e1 = Ok (0, a2) -> perform a (its ++ e1) = Ok (0, a2)).
  { intros a2 Hp. rewrite perform_app, Hp1; [exact Hp|]. eapply perform_no_reject; [|exact Hp1]. intros c' m' Hy.
    destruct (reads_codes _ _ _ _ _ _ _ _ Hr Hy) as [->|[->| ->]]; done. }
  assert (Hx : forall a2, perform a1 e1 = Ok (0, a2) ->
    (exists a3, perform a2 [Call t i v] = Ok (0, a3)) <-> item_taken (decls a) (Call t i v)).
  { intros a2 Hp. eapply call_step; [right; by exists its, a1, e1|by apply Hpp]. }
  split.
  - intros [a3 E]. assert (exists a2, perform a1 e1 = Ok (0, a2)) as [a2 Hp].
    { rewrite perform_app in E by (intros c m Hy; apply (Hn c m), elem_of_app; by left).
      apply rbind_Ok in E as ([st a2] & Hp & E). cbv beta iota in E. destruct (Z.eqb_spec st 0) as [->|]; [by exists a2|].
      injection E as -> _. done. }
    split; [by exists a2|]. apply (Hx a2 Hp). rewrite <- (Happ _ Hp). by exists a3.
  - intros [[a2 Hp] Ht]. rewrite (Happ _ Hp). by apply (Hx a2 Hp).
Qed.

Lemma call_verdict its t i v its2 a1 (pc : cstr -> cstr) : follows its (Call t i v) its2 -> perform a its = Ok (0, a1) ->
  ~ item_taken (decls a) (Call t i v) ->
  exists c a2, verdict pc (decls a) (Call t i v) c /\ c <> 0 /\ perform a1 [Call t i v] = Ok (c, a2).
Proof using HS Ha Hns Hrdy HQ Hh.
  intros Hw Hp Hnt. destruct HS as (Hst & Hlog & Hlib).
  assert (Hx : exists T d, decls a !! t = Some T /\ T !! i = Some d).
  { assert (callable (decls a) t i) as (T & d & ? & ? & _); [|by exists T, d].
    destruct Hw as [Hr|(itsc & ac & e1 & -> & Hr & Hpc & He)].
    - eapply (reads_calls _ _ _ _ _ _ Hr t i v). apply elem_of_app. right. left.
    - eapply (assigned_calls a argv (itsc ++ env_items ac)); [by apply accepted_ready|by exists itsc, ac|].
      rewrite He. apply elem_of_app. right. apply elem_of_app. right. left. }
  destruct Hx as (T & d & HT & Hd).
  destruct (call_reached pcre a argv its t i v its2 T d a1 Ha Hns Hrdy Hlib HQ Hh Hst Hw Hp HT Hd)
    as (o & f & V & F & K & I1 & Ho & <- & S1 & Hnone & Hharm & Hf & Hlb & Hname & D1 & R1 & T1 & Hn & Hi).
  destruct (exec_inv true a1 V F K t i o v HQ I1 Ho (stack_active _ S1) Hnone Hharm) as (st & a2 & F' & K' & E & _).
  pose proof (execute_exact _ _ _ _ _ _ _ _ _ _ _ _ I1 Ho Hnone Hharm Hf Hlb Hname E) as HE.
  pose proof (execute_outcome pc _ _ _ _ _ _ _ _ _ _ _ _ I1 Ho Hnone Hharm Hf Hlb Hname E) as HO.
  exists st, a2. assert (st <> 0) as Hnz.
  { intros ->. apply Hnt. exists T, (decl_of o). split; [done|]. split; [done|]. by apply HE. }
  split; [|split; [done|]].
  - destruct HO as [[Hs Ht]|(_ & m & tx & _ & _ & Hs)]; [|by eapply vd_refused].
    destruct Hs as [->| ->]; [done|]. eapply vd_leaves; try done. destruct (N.testbit _ _) eqn:Eb; [done|].
    by destruct Hnz; apply HE.
  - cbn [perform]. rewrite E. cbn [rbind]. destruct (Z.eqb_spec st 0); done.
Qed.
(** The first item of the command line that is not taken decides. *)
Lemma first_decides its x its2 (pc : cstr -> cstr) : reads (decls a) (a_root a) 0 false argv (its ++ x :: its2) ->
  Forall (item_taken (decls a)) its -> ~ item_taken (decls a) x ->
  exists c a', verdict pc (decls a) x c /\ c <> 0 /\
    argus_parse a argv = Ok (if c =? 1 then Exited 0 else Returned c, a').
Proof using HS Ha Hns Hrdy HQ Hh.
  intros Hr Ht Hx. pose proof (accepted_ready _ Ha Hns) as Hf. apply (line_step its (x :: its2) Hr) in Ht as [a1 Hp].
  assert (Hcodes : forall c m, Reject c m ∈ its ++ x :: its2 -> c = 12 \/ c = 13 \/ c = 23 \/ (c <> 0 /\ c <> 1)).
  { intros c m Hy. destruct (reads_codes _ _ _ _ _ _ _ _ Hr Hy) as [->|[->| ->]]; right; right; right; done. }
  assert (exists c a2, verdict pc (decls a) x c /\ c <> 0 /\ perform a1 [x] = Ok (c, a2)) as (c & a2 & Hv & Hc & E).
  { destruct x as [t i v|t i|c m]; [by eapply call_verdict; [left|..]|done|].
    exists c. eexists. split; [constructor|]. split; [|reflexivity].
    assert (Hy : Reject c m ∈ its ++ Reject c m :: its2) by (apply elem_of_app; right; left).
    destruct (reads_codes _ _ _ _ _ _ _ _ Hr Hy) as [->|[->| ->]]; done. }
  assert (Hall : perform a (its ++ x :: its2) = Ok (c, a2)).
  { rewrite perform_app, Hp.
    - cbn [rbind]. change (0 =? 0) with true. cbv iota. destruct x as [t i v|t i|c0 m]; [|done|exact E].
      cbn [perform] in *. destruct (execute_callbacks a1 t i v) as [[st a3]|]; [|done]. cbn [rbind] in *.
      destruct (Z.eqb_spec st 0); [|done]. by injection E as <-.
    - eapply perform_no_reject; [|exact Hp]. intros c' m' Hy.
      assert (Hy' : Reject c' m' ∈ its ++ x :: its2) by (apply elem_of_app; by left).
      destruct (reads_codes _ _ _ _ _ _ _ _ Hr Hy') as [->|[->| ->]]; done. }
  destruct (parse_safe a argv Ha Hns Hrdy HQ Hh) as (out & a' & Er & _ & _). exists c, a'. split; [done|]. split; [done|]. rewrite Er.
  apply parse_ends in Er as (its' & Hr' & D); [|done]. assert (its' = its ++ x :: its2) as -> by (by eapply reads_unique). rewrite Hall in D.
  destruct D as [(? & [= -> <-] & -> & _)|[(c' & ? & ? & ? & [= <- <-] & -> & _)|
    [(? & c' & ? & ? & [= -> <-] & _)|[(? & c' & a3 & ? & [= -> <-] & _)|(? & [= -> <-] & _)]]]]; try done.
  by destruct (Z.eqb_spec c 1).
Qed.
Lemma first_decides_env its a1 e1 x e2 (pc : cstr -> cstr) : reads (decls a) (a_root a) 0 false argv its ->
  Forall (item_taken (decls a)) its -> perform a its = Ok (0, a1) -> env_items a1 = e1 ++ x :: e2 ->
  Forall (item_taken (decls a)) e1 -> ~ item_taken (decls a) x ->
  exists c a', verdict pc (decls a) x c /\ c <> 0 /\ argus_parse a argv = Ok (Returned c, a').
Proof using HS Ha Hns Hrdy HQ Hh.
  intros Hr _ Hp He Ht Hx. pose proof (accepted_ready _ Ha Hns) as Hf. apply (env_step its a1 e1 (x :: e2) Hr Hp He) in Ht as [a2 Hp2].
  assert (Hn : forall c m, Reject c m ∉ e1 ++ x :: e2).
  { rewrite <- He. intros c m Hy. apply env_of_calls in Hy as (? & ? & ? & [=]). }
  assert (Hxc : exists t i v, x = Call t i v).
  { assert (Hy : x ∈ env_items a1) by (rewrite He; apply elem_of_app; right; left). by apply env_of_calls in Hy. }
  destruct Hxc as (t & i & v & ->).
  assert (Hpp : perform a (its ++ e1) = Ok (0, a2)).
  { rewrite perform_app, Hp; [exact Hp2|]. eapply perform_no_reject; [|exact Hp]. intros c' m' Hy.
    destruct (reads_codes _ _ _ _ _ _ _ _ Hr Hy) as [->|[->| ->]]; done. }
  destruct (call_verdict (its ++ e1) t i v e2 a2 pc) as (c & a3 & Hv & Hc & E); [right; by exists its, a1, e1|done|done|].
  assert (Hall : perform a1 (env_items a1) = Ok (c, a3)).
  { rewrite He, perform_app, Hp2 by (intros c' m' Hy; apply (Hn c' m'), elem_of_app; by left).
    cbn [rbind]. change (0 =? 0) with true. cbv iota. cbn [perform] in *.
    destruct (execute_callbacks a2 t i v) as [[st a4]|]; [|done]. cbn [rbind] in *.
    destruct (Z.eqb_spec st 0); [|done]. by injection E as <-. }
  destruct (parse_safe a argv Ha Hns Hrdy HQ Hh) as (out & a' & Er & _ & _). exists c, a'. split; [done|]. split; [done|]. rewrite Er.
  apply parse_ends in Er as (its' & Hr' & D); [|done]. assert (its' = its) as -> by (by eapply reads_unique). rewrite Hp in D.
  destruct D as [(? & [=] & _)|[(c' & ? & ? & ? & [= <- <-] & _)|
    [(? & c' & ? & ? & [= <-] & ? & E3 & -> & _)|[(? & c' & a5 & ? & [= <-] & E3 & _)|(? & [= <-] & E3 & _)]]]]; try done.
  - rewrite E3 in Hall. by injection Hall as ->.
  - rewrite E3 in Hall. injection Hall as <- _. done.
  - rewrite E3 in Hall. injection Hall as <- _. done.
Qed.

Lemma line_taken its : reads (decls a) (a_root a) 0 false argv its ->
  (exists a1, perform a its = Ok (0, a1)) <-> Forall (item_taken (decls a)) its.
Proof using HS Ha Hns Hrdy HQ Hh. intros Hr. apply (line_step its []). by rewrite app_nil_r. Qed.
Lemma parse_accepts : (exists a', argus_parse a argv = Ok (Returned 0, a')) <->
  exists its a1 a2, reads (decls a) (a_root a) 0 false argv its /\ Forall (item_taken (decls a)) its /\
    perform a its = Ok (0, a1) /\ Forall (item_taken (decls a)) (env_items a1) /\
    perform a1 (env_items a1) = Ok (0, a2) /\ all_in_order a2.
Proof using HS Ha Hns Hrdy HQ Hh.
  pose proof (accepted_ready _ Ha Hns) as Hf. split.
  - intros (a' & E). apply parse_ends in E as (its & Hr & D); [|done].
    destruct D as [(? & _ & [=] & _)|[(c & ? & ? & _ & _ & [= <-] & _)|
      [(? & c & ? & ? & _ & ? & _ & [= <-] & _)|[(? & c & ? & ? & _ & _ & ? & _ & [= <-] & _)|
       (a1 & Hp & He & _ & Hio)]]]]; try done.
    exists its, a1, a'. split; [done|]. split; [apply (line_taken its Hr); by exists a1|]. split; [done|].
    split; [|done]. apply (env_step its a1 _ [] Hr Hp); [by rewrite app_nil_r|by exists a'].
  - intros (its & a1 & a2 & Hr & _ & Hp & _ & He & Hio).
    destruct (parse_safe a argv Ha Hns Hrdy HQ Hh) as (out & a' & E & _ & _). exists a'. rewrite E.
    apply parse_ends in E as (its' & Hr' & D); [|done]. assert (its' = its) as -> by (by eapply reads_unique). rewrite Hp in D.
    destruct D as [(? & [=] & _)|[(c & ? & ? & _ & [= <- <-] & _)|
      [(? & c & ? & ? & [= <-] & ? & E3 & _)|[(? & c & a3 & ? & [= <-] & E3 & ? & Hfp & _)|
       (? & [= <-] & E3 & -> & _)]]]]; try done.
    + rewrite E3 in He. injection He as -> _. done.
    + rewrite E3 in He. injection He as ->. exfalso.
      apply first_problem_not_in_order in Hfp as (t & Ht & Hn). destruct (Hio t Ht) as (T & HT & Hio'). by apply (Hn T HT).
Qed.
End line.
Lemma permuted_taken a argv argv' its its' : starts a -> accepted a -> no_strays (decls a) (a_root a) -> ready a ->
  qsort_sorts -> harmless_input a argv -> harmless_input a argv' ->
  reads (decls a) (a_root a) 0 false argv its -> reads (decls a) (a_root a) 0 false argv' its' -> Permutation its its' ->
  (exists a1, perform a its = Ok (0, a1)) <-> (exists a1, perform a its' = Ok (0, a1)).
Proof.
  intros HS Ha Hns Hrdy HQ Hh Hh' Hr Hr' HP. rewrite (line_taken a argv), (line_taken a argv') by done.
  split; apply Forall_Permutation; auto; by symmetry.
Qed.
Lemma verdict_one (pc : cstr -> cstr) D x c : verdict pc D x c ->
  ~ item_taken D x /\ forall c', verdict pc D x c' -> c' = c.
Proof.
  intros [c0 m|t i v T d HT Hd Hv Hb|t i v T d c0 tx HT Hd Hs]; split.
  - intros [].
  - intros c' Hc. by inversion Hc.
  - intros (T' & d' & HT' & Hd' & _ & Hb'). congruence.
  - intros c' Hc. inversion Hc as [|? ? ? T' d'|? ? ? T' d' ? ? HT' Hd' Hs']; subst; [done|].
    assert (d' = d) as -> by congruence. by apply said_not_taken in Hs'.
  - intros (T' & d' & HT' & Hd' & Hv & _). assert (d' = d) as -> by congruence. by apply said_not_taken in Hs.
  - intros c' Hc. inversion Hc as [|? ? ? T' d' HT' Hd' Hv'|? ? ? T' d' ? tx' HT' Hd' Hs']; subst;
      assert (d' = d) as -> by congruence; [by apply said_not_taken in Hs|]. by eapply said_fun.
Qed.
End libc.
