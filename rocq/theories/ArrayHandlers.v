(** * The array and variadic handlers as a whole *)
From Coq Require Import Lia.
From stdpp Require Import sets.
From Verif Require Import Api LibProofs FrameProofs SpecGrammar SpecAfter SpecMemory SpecContents HeapProofs SplitProofs ListProofs
  OrderProofs ArrayProofs FlagProofs.

Section handlers.
Context `{Libc}.
Variable D : decl.

(** ** Pieces one after the other *)
Lemma posts_pieces sem c ws st c' lk : posts (post_of sem) c ws st c' lk ->
  lk = [] /\ ((st = 0 /\ exists ess, Forall2 (fun w es => sem w = Some es) ws ess /\ c' = c ++ concat ess) \/
    (st <> 0 /\ (exists w, w ∈ ws /\ sem w = None) /\ exists ws1 ess, Forall2 (fun w es => sem w = Some es) ws1 ess /\
       (forall w, w ∈ ws1 -> w ∈ ws) /\ c' = c ++ concat ess)).
Proof.
  induction 1 as [c|c w ws st c' lk (-> & HP) Hst|c w ws c1 lk1 st c2 lk2 (-> & HP) HPs IH].
  - split; [done|]. left. split; [done|]. exists []. split; [constructor|by rewrite app_nil_r].
  - split; [done|]. destruct HP as [(-> & _)|(_ & Hn & ->)]; [done|]. right. split; [done|]. split.
    + exists w. split; [left|done].
    + exists [], []. split; [constructor|]. split; [intros w' []%elem_of_nil|by rewrite app_nil_r].
  - destruct IH as [-> HQ]. split; [done|]. destruct HP as [(_ & es & He & ->)|(Hz & _)]; [|done].
    destruct HQ as [(-> & ess & HF & ->)|(Hst & (w' & Hi & Hn) & ws1 & ess & HF & Hs & ->)].
    + left. split; [done|]. exists (es :: ess). split; [by constructor|]. simpl. by rewrite app_assoc.
    + right. split; [done|]. split; [exists w'; split; [by right|done]|].
      exists (w :: ws1), (es :: ess). split; [by constructor|]. split; [|simpl; by rewrite app_assoc].
      intros x Hx. apply elem_of_cons in Hx as [->|Hx]; [left|right; auto].
Qed.

Lemma piece_kind f b k w es : array_handler f = Some (b, k) -> piece f w = Some es -> Forall (of_kind k) es.
Proof.
  intros Hf He.
  assert (forall z, 0 <= z mod two32 < 2 ^ 32) as H32 by (intros z; apply (Z.mod_pos_bound z two32); done).
  assert (forall z, 0 <= z mod two64 < 2 ^ 64) as H64 by (intros z; apply (Z.mod_pos_bound z two64); done).
  destruct f; try discriminate; injection Hf as <- <-; simpl in He.
  - injection He as <-. by repeat constructor.
  - destruct (parse_int_range w) as [[x y]|]; [|done]. injection He as <-. unfold int_elems.
    apply Forall_forall. intros e Hi. apply elem_of_list_In, in_map_iff in Hi as (i & <- & _). simpl. apply H32.
  - injection He as <-. repeat constructor; apply H64.
  - injection He as <-. by repeat constructor.
  - case_bool_decide; [|done]. injection He as <-. repeat constructor; apply H64.
  - case_bool_decide; [|done]. injection He as <-. repeat constructor; apply H64.
Qed.
Lemma piece_nonempty f w es : piece f w = Some es -> es <> [].
Proof.
  intros He. destruct f; simpl in He; try discriminate; try (injection He as <-; done).
  - destruct (parse_int_range w) as [[x y]|] eqn:E; [|done]. injection He as <-.
    pose proof (parse_int_range_le _ _ _ E). unfold int_elems. destruct (Z.to_nat (y - x + 1)) eqn:Ez; [lia|done].
  - case_bool_decide; [|done]. by injection He as <-.
  - case_bool_decide; [|done]. by injection He as <-.
Qed.

Definition good (k : ekind) (c : list elem) : Prop :=
  Forall (of_kind k) c /\ (N.testbit (d_flags D) 9 = true -> Forall (sortable k) c).
Lemma good_app k c es : good k c -> good k es -> good k (c ++ es).
Proof. intros [A1 A2] [B1 B2]. split; [by apply Forall_app|]. intros Hb. apply Forall_app. auto. Qed.
Lemma flagged_good k c c' : flagged k (d_flags D) c c' -> good k c -> good k c'.
Proof.
  intros HF [H1 H2]. split; [by eapply flagged_kind|]. intros Hb. specialize (H2 Hb).
  destruct HF as (c1 & HP & ->). rewrite Hb in HP. destruct HP as [HP _].
  assert (HS : Forall (sortable k) c1) by (by rewrite <- HP).
  destruct (N.testbit (d_flags D) 10); [|done].
  clear -HS. generalize (@nil elem). induction HS as [|x l Hx HS IH]; intros kept; simpl; [constructor|].
  destruct (existsb (alike k x) kept); [done|by constructor].
Qed.
Lemma pieces_good f b k ws ess : array_handler f = Some (b, k) -> Forall (harmless_piece D f) ws ->
  Forall2 (fun w es => piece f w = Some es) ws ess -> good k (concat ess).
Proof.
  intros Hf HW HF. induction HF as [|w es ws ess He HF IH]; simpl; [split; [constructor|intros; constructor]|].
  apply Forall_cons in HW as [Hw HW]. apply good_app; [|by apply IH]. split; [by eapply piece_kind|].
  intros Hb. destruct Hw as [_ Hw]. by eapply Hw.
Qed.

(** ** The handlers *)
(** The outcome of handing [v] to the handler [f] of an array option. *)
Definition array_outcome (f : handler) (k : ekind) (v : cstr) (c : list elem) (fp : list nat) (s : hst) (st : Z) (s' : hst) : Prop :=
  exists c' fp', arr_at D c' fp' s' /\ moves fp (h_heap s) fp' (h_heap s') /\ is_set (h_opt s') = is_set (h_opt s) /\ good k c' /\
    ((st = 0 /\ is_allocated (h_opt s') = true /\ c' <> [] /\ exists es, yields f v es /\ flagged k (d_flags D) (c ++ es) c') \/
     (st <> 0 /\ is_allocated (h_opt s') = is_allocated (h_opt s) /\ (is_allocated (h_opt s) = true -> c <> [] -> c' <> []) /\
        forall es, ~ yields f v es)).

Lemma finish k f v c0 fp0 s0 c fp s es : qsort_sorts -> array_kind (d_vtype D) = Some k ->
  arr_goes D fp0 s0 c fp [] s -> good k c -> yields f v es -> c = c0 ++ es -> es <> [] ->
  runs (apply_array_flags ;;; mod_opt (fun o => with_allocated o true) ;;; hret SUCCESS) s
    (array_outcome f k v c0 fp0 s0).
Proof.
  intros HQ Hk G HG HY -> Hne. apply runs_bind. destruct HG as [HG1 HG2].
  eapply runs_mono; [apply (array_flags_goes D k (c0 ++ es) fp s HQ); [by destruct G|done|done|done]|].
  intros _ s1 (c1 & fp1 & G1 & HF). apply runs_bind, runs_mod, runs_ret.
  pose proof (goes_then _ _ _ D _ _ _ _ _ _ _ _ _ G G1) as ((HC & Ho & HD) & M & (_ & _ & Hs) & _). rewrite app_nil_r in M.
  exists c1, fp1. split; [|split; [|split; [|split]]].
  - split; [|done]. eapply coll_same; [| | |exact HC]; by destruct (h_opt s1).
  - done.
  - simpl. by destruct (h_opt s1).
  - by eapply flagged_good; [|split].
  - left. split; [done|]. split; [by destruct (h_opt s1)|]. split; [|by exists es].
    eapply flagged_nonempty; [exact HF|]. by destruct c0.
Qed.
Lemma fails k f v c0 fp0 s0 c fp s st more : arr_goes D fp0 s0 c fp [] s -> good k c -> st <> 0 ->
  c = c0 ++ more -> (forall es, ~ yields f v es) -> array_outcome f k v c0 fp0 s0 st s.
Proof.
  intros (HA & M & (_ & Ha & Hs) & _) HG Hst -> HN. rewrite app_nil_r in M. exists (c0 ++ more), fp.
  do 4 (split; [done|]). right. split; [done|]. split; [done|]. split; [|done]. intros _ Hc. by destruct c0.
Qed.

Lemma list_array_spec f k one v c fp s :
  qsort_sorts -> array_handler f = Some (true, k) -> array_kind (d_vtype D) = Some k ->
  handles BArr own holds D one (post_of (piece f)) (harmless_piece D f) ->
  arr_at D c fp s -> good k c -> harmless D f v ->
  runs (list_handler one apply_array_flags v) s (array_outcome f k v c fp s).
Proof.
  intros HQ Hf Hk Hone HA HG HH. unfold list_handler.
  assert (exists ws, elements v ws) as [ws Hws].
  { unfold elements. case_bool_decide; [|by eexists]. destruct (cut_total [","%char] v) as [ws Hc]. exists ws.
    eapply cut_ext; [|exact Hc]. intros ch. unfold sepr. rewrite elem_of_list_singleton. naive_solver. }
  assert (Hpc : pieces f v ws) by (unfold pieces; by rewrite Hf).
  destruct (HH _ Hpc) as [Hne HW].
  apply runs_bind. eapply runs_mono; [eapply (list_words_spec BArr own holds holds_ext holds_live D one _ _ (fun _ _ _ _ => True)); [done|exact Hone|exact HA|exact Hws|exact HW]|].
  intros st s1 (c1 & fp1 & lk & G & HP & _). apply posts_pieces in HP as [-> [(-> & ess & HF & ->)|(Hst & (w & Hi & Hn) & ws1 & ess & HF & Hs & ->)]].
  - simpl. eapply finish; try done.
    + apply good_app; [done|]. by eapply pieces_good.
    + by exists ws, ess.
    + destruct HF as [|w es ws' ess' He HF']; [done|]. simpl. apply piece_nonempty in He. by destruct es.
  - change SUCCESS with 0. rewrite (proj2 (Z.eqb_neq st 0)) by done. apply runs_ret. eapply fails; try done.
    + apply good_app; [done|]. eapply pieces_good; [done| |exact HF]. apply Forall_forall. intros w' Hw'.
      rewrite Forall_forall in HW. auto.
    + intros es (ws' & ess' & Hp' & HF' & _). assert (ws' = ws) as ->.
      { unfold pieces, elements in *. rewrite Hf in *. destruct (bool_decide (","%char ∈ v)); [|congruence].
        eapply cut_fun; eassumption. }
      apply elem_of_list_lookup in Hi as (i & Hi). destruct (Forall2_lookup_l _ _ _ _ _ HF' Hi) as (e & _ & He).
      cbv beta in He. congruence.
Qed.

Lemma handles_impl (one : cstr -> HM Z) post (okw okw' : cstr -> Prop) : (forall w, okw' w -> okw w) ->
  handles BArr own holds D one post okw -> handles BArr own holds D one post okw'.
Proof. intros Hi Hh s c fp w HA Hw. apply Hh; auto. Qed.

(** One element per argument. *)
Lemma one_array_spec f k (m : HM Z) (note : HM unit) v c fp s :
  qsort_sorts -> array_handler f = Some (false, k) -> array_kind (d_vtype D) = Some k ->
  runs m s (fun st s' => exists c' fp' lk, arr_goes D fp s c' fp' lk s' /\ post_of (piece f) c v st c' lk) ->
  (forall s, runs note s (fun _ s' => h_opt s' = h_opt s /\ h_heap s' = h_heap s)) ->
  good k c -> harmless D f v ->
  runs (let! st := m in
        if st =? SUCCESS then apply_array_flags ;;; mod_opt (fun o => with_allocated o true) ;;; hret SUCCESS
        else note ;;; hret st) s (array_outcome f k v c fp s).
Proof.
  intros HQ Hf Hk Hm Hnote HG HH. apply runs_bind. eapply runs_mono; [exact Hm|].
  assert (Hpc : forall ws, pieces f v ws <-> ws = [v]) by (intros ws; unfold pieces; by rewrite Hf).
  destruct (HH [v]) as [_ HW]; [by apply Hpc|]. apply Forall_cons in HW as [HW _].
  intros st s1 (c1 & fp1 & lk & G & -> & [(-> & es & He & ->)|(Hst & Hn & ->)]).
  - simpl. assert (HY : yields f v es).
    { exists [v], [es]. split; [by apply Hpc|]. split; [by repeat constructor|]. simpl. by rewrite app_nil_r. }
    eapply finish; try done.
    + apply good_app; [done|]. split; [by eapply piece_kind|]. intros Hb. destruct HW as [_ HW]. by eapply HW.
    + by eapply piece_nonempty.
  - change SUCCESS with 0. rewrite (proj2 (Z.eqb_neq st 0)) by done. apply runs_bind. eapply runs_mono; [apply Hnote|].
    intros _ s2 [Ho Hh]. apply runs_ret. eapply (fails k f v c fp s c fp1 s2 st []); try done.
    + unfold goes, at_state in *. by rewrite Ho, Hh.
    + by rewrite app_nil_r.
    + intros es (ws & ess & Hp & HF & _). apply Hpc in Hp as ->. inversion HF as [|? e ? ? He HF']; subst. cbv beta in He. congruence.
Qed.

Lemma number_post f v (r : option elem) (k : HM Z) c fp s : arr_at D c fp s -> piece f v = option_map (fun e => [e]) r ->
  match r with
  | Some (Num w z) => k = (push_value (Raw w z) ;;; hret SUCCESS)
  | Some (Text _) => False
  | None => k = hret E_INVALID_VALUE
  end ->
  runs (adjust_array_size ;;; let! o := get_opt in if (value_capacity o =? 0)%nat then hret E_MEMORY else k) s
    (fun st s' => exists c' fp' lk, arr_goes D fp s c' fp' lk s' /\ post_of (piece f) c v st c' lk).
Proof.
  intros HA Hp Hk. apply runs_bind. eapply runs_mono; [by apply adjust_goes|].
  intros _ s1 (fp1 & G1 & Hroom & p & Hv). apply runs_bind, runs_get_opt.
  destruct (Nat.eqb_spec (value_capacity (h_opt s1)) 0) as [|_]; [lia|].
  destruct r as [[t|w z]|]; [done| |]; subst k.
  - apply runs_bind. pose proof G1 as (HA1 & _).
    eapply runs_mono; [apply (push_goes D (Raw w z) (Num w z) c fp1 s1 p); try done; intros l []%elem_of_nil|].
    intros u2 s2 G2. cbv beta in G2. simpl in G2. rewrite app_nil_r in G2. apply runs_ret.
    exists (c ++ [Num w z]), fp1, []. split; [by eapply goes_then|]. split; [done|]. left. split; [done|]. by exists [Num w z].
  - apply runs_ret. exists c, fp1, []. split; [done|]. split; [done|]. by right.
Qed.

Lemma array_handler_spec act f b k v c fp s :
  qsort_sorts -> array_handler f = Some (b, k) -> array_kind (d_vtype D) = Some k ->
  arr_at D c fp s -> good k c -> harmless D f v ->
  runs (run_handler act f (Some v)) s (array_outcome f k v c fp s).
Proof.
  intros HQ Hf Hk HA HG HH.
  assert (Hnote : forall e s, runs (emit e) s (fun _ s' => h_opt s' = h_opt s /\ h_heap s' = h_heap s)).
  { intros e s'. by apply runs_emit. }
  destruct f; try discriminate; injection Hf as <- <-; cbn [run_handler need].
  - eapply list_array_spec; try done. eapply handles_impl; [|apply string_handles]. done.
  - eapply list_array_spec; try done. eapply handles_impl; [|apply int_handles]. intros w [Hw _]. exact (Hw eq_refl).
  - eapply list_array_spec; try done. eapply handles_impl; [|apply float_handles]. done.
  - unfold variadic_string_handler.
    enough (runs (let! st := set_value_string v in
        if st =? SUCCESS then apply_array_flags ;;; mod_opt (fun o => with_allocated o true) ;;; hret SUCCESS
        else hret tt ;;; hret st) s (array_outcome HVariadicString EText v c fp s)) as HX by exact HX.
    eapply one_array_spec; try done.
    + by apply string_handles.
    + intros s'. by apply runs_ret.
  - unfold variadic_int_handler.
    enough (HX : runs (let! st := set_int_value v in
        if st =? SUCCESS then apply_array_flags ;;; mod_opt (fun o => with_allocated o true) ;;; hret SUCCESS
        else (let! o := get_opt in emit (EDiag E_INVALID_VALUE [MText $"Invalid integer value '"; MStr (Some v);
          MText $"' for positional argument '"; MStr (d_name (decl_of o)); MText $"'"])) ;;; hret st) s
        (array_outcome HVariadicInt ELong v c fp s)).
    { exact HX. }
    eapply one_array_spec; try done.
    2:{ intros s'. apply runs_bind, runs_get_opt. by apply runs_emit. }
    unfold set_int_value. destruct (strtoll v) as [x rest] eqn:E. 
    eapply (number_post HVariadicInt v (if bool_decide (v <> [] /\ snd (strtoll v) = []) then Some (Num W8 (fst (strtoll v) mod two64)) else None)); [done| |].
    + simpl. by case_bool_decide.
    + rewrite E. simpl. destruct rest as [|ch rest].
      * destruct v as [|ch v]; simpl.
        -- done.
        -- done.
      * case_bool_decide as Hb; [by destruct Hb|done].
  - unfold variadic_float_handler.
    enough (HX : runs (let! st := set_float_value v in
        if st =? SUCCESS then apply_array_flags ;;; mod_opt (fun o => with_allocated o true) ;;; hret SUCCESS
        else (let! o := get_opt in emit (EDiag E_INVALID_VALUE [MText $"Invalid float value '"; MStr (Some v);
          MText $"' for positional argument '"; MStr (d_name (decl_of o)); MText $"'"])) ;;; hret st) s
        (array_outcome HVariadicFloat EFloat v c fp s)).
    { exact HX. }
    eapply one_array_spec; try done.
    2:{ intros s'. apply runs_bind, runs_get_opt. by apply runs_emit. }
    unfold set_float_value. destruct (strtod v) as [x n] eqn:E.
    eapply (number_post HVariadicFloat v (if bool_decide (snd (strtod v) <> 0%nat /\ (length v <= snd (strtod v))%nat) then Some (Num W8 (fst (strtod v) mod two64)) else None)); [done| |].
    + simpl. by case_bool_decide.
    + rewrite E. simpl. destruct (Nat.ltb_spec n (length v)) as [Hlt|Hge]; simpl.
      * rewrite bool_decide_eq_false_2; [done|]. lia.
      * destruct (Nat.eqb_spec n 0) as [->|Hn].
        -- rewrite bool_decide_eq_false_2; [done|]. intros [Hv _]. done.
        -- by rewrite bool_decide_eq_true_2.
Qed.
End handlers.
