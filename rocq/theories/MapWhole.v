(** * The map handlers as a whole *)
From Coq Require Import Lia.
From stdpp Require Import sets.
From Verif Require Import Api LibProofs FrameProofs SpecGrammar GrammarProofs SpecAfter SpecMemory SpecContents HeapProofs SplitProofs
  ListProofs OrderProofs ArrayProofs FlagProofs MapProofs MapHandlers MapFlags.

Section handlers.
Context `{Libc}.
Variable D : decl.

Definition mgood (k : ekind) (c : list (cstr * elem)) : Prop :=
  pairs_of k c /\ (N.testbit (d_flags D) 11 = true -> Forall (fun p => sortable k (snd p)) c).
Lemma map_value_kind f k v e : map_handler f = Some k -> map_value f v = Some e -> of_kind k e.
Proof.
  intros Hf He. assert (forall z, 0 <= z mod two64 < 2 ^ 64) as H64 by (intros z; apply (Z.mod_pos_bound z two64); done).
  destruct f; try discriminate; injection Hf as <-; simpl in He.
  - by injection He as <-.
  - case_bool_decide; [|done]. injection He as <-. apply H64.
  - case_bool_decide; [|done]. injection He as <-. apply H64.
  - destruct (string_to_bool v) as [b|]; [|done]. injection He as <-. destruct b; simpl; auto.
Qed.
Lemma assign_Forall (P : cstr * elem -> Prop) k e c : P (k, e) -> Forall P c -> Forall P (assign k e c).
Proof.
  intros HP HF. induction HF as [|p c Hp HF IH]; simpl; [by repeat constructor|]. case_bool_decide; by constructor.
Qed.
Lemma assign_nonempty k e c : assign k e c <> [].
Proof. destruct c as [|p c]; simpl; [done|]. by case_bool_decide. Qed.
Lemma map_flagged_Forall k fl c c' (P : cstr * elem -> Prop) : map_flagged k fl c c' -> Forall P c -> Forall P c'.
Proof.
  unfold map_flagged. intros HF HP.
  assert (HP1 : Forall P (if N.testbit fl 13 then firsts (fun p q => alike k (snd q) (snd p)) [] c else c)).
  { destruct (N.testbit fl 13); [|done].
    generalize (@nil (cstr * elem)). clear -HP. induction HP as [|x l Hx HP IH]; intros kept; simpl; [constructor|].
    destruct (existsb _ kept); [done|by constructor]. }
  destruct (N.testbit fl 12); [destruct HF as [HF _]; by rewrite <- HF|].
  destruct (N.testbit fl 11); [destruct HF as [HF _]; by rewrite <- HF|by subst].
Qed.
Lemma map_flagged_nonempty k fl c c' : map_flagged k fl c c' -> c <> [] -> c' <> [].
Proof.
  unfold map_flagged. intros HF Hc.
  assert (HP1 : (if N.testbit fl 13 then firsts (fun p q => alike k (snd q) (snd p)) [] c else c) <> []).
  { destruct (N.testbit fl 13); [|done]. by destruct c. }
  destruct (N.testbit fl 12); [destruct HF as [HF _]|destruct (N.testbit fl 11); [destruct HF as [HF _]|by subst]];
    intros ->; symmetry in HF; by apply Permutation_nil in HF.
Qed.

Lemma kv_fun w k v k' v' : key_value w k v -> key_value w k' v' -> k = k' /\ v = v'.
Proof.
  intros [-> Hn] [E Hn']. revert k' E Hn'. induction k as [|x k IH]; intros [|y k'] E Hn'; simpl in E.
  - by injection E as <-.
  - injection E as <- E. destruct Hn'. left.
  - injection E as -> E. destruct Hn. left.
  - injection E as <- E. destruct (IH) with (k' := k') as [-> ->]; [|done| |done].
    + intros Hi. apply Hn. by right.
    + intros Hi. apply Hn'. by right.
Qed.
Lemma adds_fun f ws : forall c c1 n1 c2 n2, adds f ws c c1 n1 -> adds f ws c c2 n2 -> c1 = c2 /\ n1 = n2.
Proof.
  induction ws as [|w ws IH]; intros c c1 n1 c2 n2 H1 H2; inversion H1; inversion H2; subst; [done|].
  match goal with A : key_value w ?k ?v, B : key_value w ?k' ?v' |- _ => destruct (kv_fun _ _ _ _ _ A B) as [-> ->] end.
  match goal with A : map_value f ?v = Some ?e, B : map_value f ?v = Some ?e' |- _ => rewrite A in B; injection B as -> end.
  match goal with A : adds f ws _ c1 _, B : adds f ws _ c2 _ |- _ => destruct (IH _ _ _ _ _ A B) as [-> ->] end. done.
Qed.

(** Pairs one after the other. *)
Lemma posts_pairs f c ws st c' lk : posts (map_post (map_value f)) c ws st c' lk ->
  (st = 0 /\ adds f ws c c' (length lk)) \/
  (st <> 0 /\ (forall c1 n, ~ adds f ws c c1 n) /\ exists ws1 n, (forall w, w ∈ ws1 -> w ∈ ws) /\ adds f ws1 c c' n).
Proof.
  induction 1 as [c|c w ws st c' lk HP Hst|c w ws c1 lk1 st c2 lk2 HP HPs IH].
  - left. split; [done|constructor].
  - right. split; [done|]. destruct HP as [(k & v & e & _ & _ & _ & -> & _)|(_ & -> & HB)]; [done|]. split.
    + intros c1 n HA. inversion HA as [|? ? k v e ? ? ? [Hw Hk] Hv HA']; subst. destruct HB as [HB|(k' & v' & HB1 & HB2 & HB3)].
      * apply HB. rewrite elem_of_app. right. left.
      * destruct (kv_fun (k ++ "="%char :: v) k v k' v') as [-> ->]; [by split|by split|congruence].
    + exists [], O. split; [intros w' []%elem_of_nil|constructor].
  - destruct HP as [(k & v & e & Hw & Hk & Hv & _ & -> & Hl)|(Hz & _)]; [|done].
    destruct IH as [[-> HA]|(Hst & Hno & ws1 & n & Hsub & HA)].
    + left. split; [done|].
      replace (length (lk1 ++ lk2)) with (if bool_decide (k ∈ map fst c) then S (length lk2) else length lk2).
      * by eapply adds_pair.
      * rewrite app_length, Hl. by case_bool_decide.
    + right. split; [done|]. split.
      * intros c1 n1 HA1. inversion HA1 as [|? ? k' v' e' ? ? ? HK' Hv' HA']; subst.
        destruct (kv_fun _ _ _ _ _ (conj eq_refl Hk) HK') as [-> ->]. rewrite Hv in Hv'. injection Hv' as <-. by eapply Hno.
      * exists (w :: ws1), (if bool_decide (k ∈ map fst c) then S n else n). split.
        -- intros w' Hw'. apply elem_of_cons in Hw' as [->|Hw']; [left|right; auto].
        -- by eapply adds_pair.
Qed.
Lemma adds_good f k ws c c' n : map_handler f = Some k ->
  (N.testbit (d_flags D) 11 = true -> forall w key t e ek, w ∈ ws -> key_value w key t -> map_value f t = Some e ->
       map_handler f = Some ek -> sortable ek e) ->
  adds f ws c c' n -> mgood k c -> mgood k c'.
Proof.
  intros Hf HS HA. induction HA as [c|w ws key v e c c' n HK Hv HA IH]; [done|]. intros [HG1 HG2]. apply IH.
  - intros Hb w' k' t e' ek Hi. apply HS; [done|by right].
  - split.
    + apply assign_Forall; [|done]. by eapply map_value_kind.
    + intros Hb. apply assign_Forall; [|auto]. simpl. eapply HS; try done. left.
Qed.
Lemma adds_nonempty f ws c c' n : adds f ws c c' n -> ws <> [] \/ c <> [] -> c' <> [].
Proof.
  induction 1 as [c|w ws key v e c c' n HK Hv HA IH]; intros Hn; [by destruct Hn|]. apply IH. right. apply assign_nonempty.
Qed.

(** The outcome of handing [v] to the handler [f] of a map option. *)
Definition map_outcome (f : handler) (k : ekind) (v : cstr) (c : list (cstr * elem)) (fp : list nat) (s : hst) (st : Z) (s' : hst) : Prop :=
  exists c' fp' lk, map_at D c' fp' s' /\ moves fp (h_heap s) (fp' ++ lk) (h_heap s') /\
    (forall l, l ∈ lk -> l ∉ fp' /\ (l < length (bl (h_heap s')))%nat) /\
    is_set (h_opt s') = is_set (h_opt s) /\ mgood k c' /\
    ((st = 0 /\ is_allocated (h_opt s') = true /\ c' <> [] /\ exists c1, map_yields f v c c1 (length lk) /\ map_flagged k (d_flags D) c1 c') \/
     (st <> 0 /\ is_allocated (h_opt s') = is_allocated (h_opt s) /\ (is_allocated (h_opt s) = true -> c <> [] -> c' <> []) /\
        forall c1 n, ~ map_yields f v c c1 n)).

Lemma list_map_spec f k one v c fp s :
  qsort_sorts -> map_handler f = Some k -> map_kind (d_vtype D) = Some k ->
  handles BMap own_pair (kpair k) D one (map_post (map_value f)) (fun _ => True) ->
  map_at D c fp s -> mgood k c -> map_harmless D f v ->
  runs (list_handler one apply_map_flags v) s (map_outcome f k v c fp s).
Proof.
  intros HQ Hf Hk Hone HA HG HH. unfold list_handler.
  assert (exists ws, elements v ws) as [ws Hws].
  { unfold elements. case_bool_decide; [|by eexists]. destruct (cut_total [","%char] v) as [ws Hc]. exists ws.
    eapply cut_ext; [|exact Hc]. intros ch. unfold sepr. rewrite elem_of_list_singleton. naive_solver. }
  assert (Hfun : forall ws', elements v ws' -> ws' = ws).
  { intros ws' Hw'. unfold elements in *. destruct (bool_decide (","%char ∈ v)); [|congruence]. eapply cut_fun; eassumption. }
  destruct (HH _ Hws) as [Hne HW].
  assert (HA' : kmap_at k D c fp s) by (apply kmap_at_iff; split; [done|by destruct HG]).
  apply runs_bind. eapply runs_mono; [eapply (list_words_spec BMap own_pair (kpair k) (kpair_ext k) (kpair_live k) D one _ _ (fun _ _ _ _ => True));
    [done|exact Hone|exact HA'|exact Hws|by apply Forall_true]|].
  intros st s1 (c1 & fp1 & lk & G & HP & _). apply posts_pairs in HP as [(-> & HA1)|(Hst & Hno & ws1 & n & Hsub & HA1)].
  - change SUCCESS with 0. change (0 =? 0) with true. cbv iota.
    assert (HG1 : mgood k c1) by (by eapply adds_good).
    apply runs_bind. eapply runs_mono; [apply (map_flags_goes D k c1 fp1 s1 HQ); [by destruct G|done|by destruct HG1]|].
    intros _ s2 (c2 & fp2 & G2 & HF). apply runs_bind, runs_mod, runs_ret.
    destruct (goes_trans BMap own_pair (kpair k) _ _ _ _ _ _ _ _ _ _ _ G G2) as (HAt & M & (_ & _ & Hs) & Hlk). rewrite app_nil_r in *.
    apply kmap_at_iff in HAt as [HAt HK2].
    exists c2, fp2, lk. split; [|split; [|split; [|split; [|split]]]].
    + destruct HAt as (HC & Ho & HD). split; [|split; [done|by destruct (h_opt s2)]]. eapply coll_same; [| | |exact HC]; by destruct (h_opt s2).
    + done.
    + exact Hlk.
    + simpl. by destruct (h_opt s2).
    + split; [done|]. intros Hb. eapply map_flagged_Forall; [exact HF|]. destruct HG1 as [_ HG1]. auto.
    + left. split; [done|]. split; [by destruct (h_opt s2)|]. split.
      * eapply map_flagged_nonempty; [exact HF|]. eapply adds_nonempty; [exact HA1|by left].
      * exists c1. split; [by exists ws|done].
  - change SUCCESS with 0. rewrite (proj2 (Z.eqb_neq st 0)) by done. apply runs_ret.
    destruct G as (HAt & M & (_ & Ha & Hs) & Hlk). apply kmap_at_iff in HAt as [HAt HK1].
    exists c1, fp1, lk. do 4 (split; [done|]). split.
    + eapply adds_good; [done| |exact HA1|done]. intros Hb w key t e ek Hi. apply HW; auto.
    + right. split; [done|]. split; [done|]. split.
      * intros _ Hc. eapply adds_nonempty; [exact HA1|by right].
      * intros c2 n2 (ws' & Hw' & HA2). apply Hfun in Hw' as ->. by eapply Hno.
Qed.

Lemma map_int_handles n e : handles BMap own_pair (kpair ELong) D (set_kv_scalar n e conv_int) (map_post (map_value HMapInt)) (fun _ => True).
Proof.
  apply scalar_handles; [done|]. intros t. simpl. unfold conv_int. destruct (strtoll t) as [x rest]. simpl.
  case_bool_decide as Hb.
  - destruct Hb as [Hb1 ->]. split; [apply (Z.mod_pos_bound _ two64); done|]. destruct t; [done|]. simpl. eexists. by split.
  - destruct t as [|ch t]; [done|]. destruct rest as [|ch' rest]; [|done]. by destruct Hb.
Qed.
Lemma map_float_handles n e : handles BMap own_pair (kpair EFloat) D (set_kv_scalar n e conv_float) (map_post (map_value HMapFloat)) (fun _ => True).
Proof.
  apply scalar_handles; [done|]. intros t. simpl. unfold conv_float. destruct (strtod t) as [x k]. simpl.
  case_bool_decide as Hb.
  - destruct Hb as [Hb1 Hb2]. split; [apply (Z.mod_pos_bound _ two64); done|]. destruct t as [|ch t]; [done|].
    destruct (Nat.ltb_spec k (length (ch :: t))); [lia|]. simpl. eexists. by split.
  - destruct t as [|ch t]; [done|]. destruct (Nat.ltb_spec k (length (ch :: t))); [done|]. destruct Hb. split; [done|lia].
Qed.
Lemma map_bool_handles n e : handles BMap own_pair (kpair EBool) D (set_kv_scalar n e conv_bool) (map_post (map_value HMapBool)) (fun _ => True).
Proof.
  apply scalar_handles; [done|]. intros t. simpl. unfold conv_bool. destruct (string_to_bool t) as [b|]; [|done].
  split; [destruct b; simpl; auto|]. eexists. split; [done|]. by destruct b.
Qed.
Lemma map_handler_spec act f k v c fp s :
  qsort_sorts -> map_handler f = Some k -> map_kind (d_vtype D) = Some k ->
  map_at D c fp s -> mgood k c -> map_harmless D f v ->
  runs (run_handler act f (Some v)) s (map_outcome f k v c fp s).
Proof.
  intros HQ Hf Hk HA HG HH.
  destruct f; try discriminate; injection Hf as <-; cbn [run_handler need]; eapply list_map_spec; try done.
  - apply text_handles.
  - apply map_int_handles.
  - apply map_float_handles.
  - apply map_bool_handles.
Qed.
End handlers.
