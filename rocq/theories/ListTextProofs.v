(** * Proofs about the texts of lists *)
From Coq Require Import Lia.
From Verif Require Import Api LibProofs SpecGrammar SpecAfter SpecStructure SpecValues SpecMemory SpecContents SpecSafe SpecCollections
  SpecMessages SpecRefused SplitProofs MapWhole CollProofs CollFacts RangeProofs ValueProofs SpecListText.

(** ** Joining and cutting *)
Lemma free_not w : comma_free w -> Forall (fun c => ~ ","%char = c) w.
Proof. intros Hw. apply Forall_forall. intros c Hc <-. done. Qed.
Lemma cut_joined ws : Forall plain_element ws -> forall g, Forall (eq ","%char) g -> cut (eq ","%char) (g ++ joined ws) ws.
Proof.
  induction 1 as [|w ws [Hne Hf] Hws IH]; intros g Hg; [rewrite app_nil_r; by apply cut_end|].
  destruct ws as [|w' ws].
  - cbn [joined]. rewrite <- (app_nil_r w) at 1. apply cut_word; [done|done|by apply free_not|done|by apply cut_end].
  - change (joined (w :: w' :: ws)) with (w ++ [","%char] ++ joined (w' :: ws)).
    apply cut_word; [done|done|by apply free_not|done|]. apply IH. by constructor.
Qed.
Lemma joined_comma w w' ws : ","%char ∈ joined (w :: w' :: ws).
Proof. cbn [joined]. apply elem_of_app. right. left. Qed.
Lemma elements_joined ws : ws <> [] -> Forall plain_element ws -> elements (joined ws) ws.
Proof.
  intros Hne Hws. unfold elements. destruct ws as [|w [|w' ws]]; [done| |].
  - apply Forall_cons in Hws as [[_ Hf] _]. by rewrite bool_decide_eq_false_2.
  - rewrite bool_decide_eq_true_2 by apply joined_comma. by apply (cut_joined _ Hws []).
Qed.
Lemma elements_single w : comma_free w -> elements w [w].
Proof. intros Hw. unfold elements. by rewrite bool_decide_eq_false_2. Qed.
Lemma cut_plain s ws : cut (eq ","%char) s ws -> Forall plain_element ws.
Proof.
  induction 1 as [|g w rest ws Hg Hne Hw Hr Hc IH]; [done|]. constructor; [|done]. split; [done|].
  intros Hx. rewrite Forall_forall in Hw. by eapply Hw.
Qed.
Lemma elements_plain v ws : elements v ws -> (exists w, ws = [w] /\ comma_free w) \/ Forall plain_element ws.
Proof.
  unfold elements. case_bool_decide as Hc.
  - intros Hx. right. exact (cut_plain _ _ Hx).
  - intros ->. left. by exists v.
Qed.
Lemma one_text ws : (exists v, elements v ws) <-> (exists w, ws = [w] /\ comma_free w) \/ Forall plain_element ws.
Proof.
  split; [intros [v Hv]; exact (elements_plain v ws Hv)|]. intros [(w & -> & Hw)|Hws].
  - exists w. by apply elements_single.
  - destruct ws as [|w ws]; [|exists (joined (w :: ws)); by apply elements_joined].
    exists [","%char]. unfold elements. rewrite bool_decide_eq_true_2 by (by apply elem_of_list_singleton). apply cut_end. by constructor.
Qed.
Lemma some_texts ws : (exists vs wss, Forall2 elements vs wss /\ concat wss = ws) <-> Forall comma_free ws.
Proof.
  split.
  - intros (vs & wss & Hf & <-). induction Hf as [|v ws vs wss Hv Hf IH]; [constructor|]. cbn [concat]. apply Forall_app. split; [|done].
    apply elements_plain in Hv as [(w & -> & Hw)|Hw]; [by constructor|]. eapply Forall_impl; [exact Hw|]. by intros w [_ ?].
  - intros Hws. exists ws, (map (fun w => [w]) ws). split.
    + induction Hws; constructor; [by apply elements_single|done].
    + clear. induction ws as [|w ws IH]; [done|]. cbn [map concat app]. by f_equal.
Qed.

(** ** Numbers *)
Lemma digits_free s ds : SpecValues.written s ds -> comma_free s.
Proof.
  intros Hw Hx. induction Hw as [|c d s ds Hc Hw IH]; [by apply elem_of_nil in Hx|].
  apply elem_of_cons in Hx as [<-|Hx]; [|done]. clear -Hc. do 10 (destruct d as [|d]; [discriminate Hc|]). discriminate Hc.
Qed.
Lemma decimal_plain n : plain_element (decimal_text n).
Proof.
  split; [destruct (number_start n) as (c & r & -> & _); done|].
  destruct (decimal_written n) as (neg & s & ds & Hw & _ & -> & _). apply digits_free in Hw.
  intros Hx. apply elem_of_app in Hx as [Hx|Hx]; [|done]. destruct neg; [|by apply elem_of_nil in Hx].
  apply elem_of_list_singleton in Hx. discriminate Hx.
Qed.
Lemma int_texts_joined ns : ns <> [] -> Forall in_32_bits ns -> int_texts (joined (map decimal_text ns)) ns.
Proof.
  intros Hne Hns. exists (map decimal_text ns), (map (fun n => [n]) ns). split_and!.
  - apply elements_joined; [by destruct ns|]. apply Forall_fmap, Forall_forall. intros n _. apply decimal_plain.
  - induction Hns as [|n ns Hn Hns IH]; [constructor|]. constructor; [by apply ip_number|].
    destruct ns; [constructor|by apply IH].
  - clear. induction ns as [|n ns IH]; [done|]. cbn [map concat app]. by f_equal.
Qed.

(** ** Pairs *)
Lemma pair_element p : plain_pair p -> plain_element (pair_written p).
Proof.
  intros (Hk & _ & Hv). unfold pair_written. split; [by destruct (fst p)|]. intros Hx.
  apply elem_of_app in Hx as [Hx|Hx]; [done|]. apply elem_of_cons in Hx as [Hx|Hx]; [discriminate Hx|done].
Qed.
Section Maps.
Context `{Libc}.
Lemma pairs_joined f kvs es : kvs <> [] -> Forall plain_pair kvs ->
  Forall2 (fun kv e => map_value f (snd kv) = Some e) kvs es ->
  pairs_text f (joined (map pair_written kvs)) (zip (map fst kvs) es).
Proof.
  intros Hne Hp Hes. exists (map pair_written kvs). split.
  - apply elements_joined; [by destruct kvs|]. apply Forall_fmap. eapply Forall_impl; [exact Hp|]. apply pair_element.
  - clear Hne. induction Hes as [|kv e kvs es He Hes IH]; [constructor|]. apply Forall_cons in Hp as [(Hk1 & Hk2 & Hv) Hp].
    cbn [map zip_with]. constructor; [|by apply IH]. exists (snd kv). done.
Qed.
Lemma pairs_fun f v ps qs : pairs_text f v ps -> pairs_text f v qs -> ps = qs.
Proof.
  intros (ws & Hw & Hp) (ws' & Hw' & Hq). assert (ws = ws') as <-.
  { unfold elements in *. case_bool_decide; [by eapply cut_fun|congruence]. }
  clear Hw Hw'. revert qs Hq. induction Hp as [|w p ws ps (x & Hx & Hx3) Hp IH]; intros qs Hq; inversion Hq as [|? q ? qs' Hq1 Hq2]; subst; [done|].
  f_equal; [|by apply IH]. destruct Hq1 as (y & Hy & Hy3). destruct p as [k e], q as [k' e']; cbn [fst snd] in *.
  destruct (MapWhole.kv_fun _ _ _ _ _ Hx Hy) as [-> ->]. congruence.
Qed.
Lemma last_value_cons k p (ps : list (cstr * elem)) :
  last_value k (p :: ps) = if bool_decide (fst p = k) then Some (default (snd p) (last_value k ps)) else last_value k ps.
Proof.
  unfold last_value. set (F := fun p : cstr * elem => if bool_decide (fst p = k) then Some (snd p) else None).
  change (omap F (p :: ps)) with (match F p with Some y => y :: omap F ps | None => omap F ps end).
  unfold F at 1. case_bool_decide; [|done]. rewrite last_cons. by destruct (last (omap F ps)).
Qed.
Lemma last_value_none k (ps : list (cstr * elem)) : k ∉ map fst ps -> last_value k ps = None.
Proof.
  induction ps as [|p ps IH]; intros Hk; [done|]. cbn [map] in Hk. apply not_elem_of_cons in Hk as [Hk1 Hk].
  rewrite last_value_cons, bool_decide_eq_false_2 by done. by apply IH.
Qed.
Lemma last_value_in (ps : list (cstr * elem)) : NoDup (map fst ps) -> forall k e, last_value k ps = Some e <-> (k, e) ∈ ps.
Proof.
  intros Hn k e. induction ps as [|[k' e'] ps IH]; [split; [done|intros Hx; by apply elem_of_nil in Hx]|].
  cbn [map fst] in Hn. apply NoDup_cons in Hn as [Hk Hn]. rewrite last_value_cons. cbn [fst snd]. case_bool_decide as E.
  - subst k'. rewrite (last_value_none k ps Hk). cbn [default]. rewrite elem_of_cons. split.
    + intros [= ->]. by left.
    + intros [[= ->]|Hx]; [done|]. exfalso. apply Hk. apply (elem_of_list_fmap_1 fst) in Hx. exact Hx.
  - rewrite elem_of_cons, <- (IH Hn). split; [by right|]. intros [[= -> ->]|Hx]; done.
Qed.
Lemma map_written a argv its a' p t i d f k kvs es : parsed a argv its a' -> shows a a' p t i d f -> map_handler f = Some k ->
  N.testbit (d_flags d) 13 = false ->
  texts t i its = [joined (map pair_written kvs)] -> kvs <> [] -> Forall plain_pair kvs -> NoDup (map fst kvs) ->
  Forall2 (fun kv e => map_value f (snd kv) = Some e) kvs es ->
  map_reads a' p (zip (map fst kvs) es).
Proof.
  intros HP HS Hk H13 Ht Hne Hp Hnd Hes.
  destruct (finite_map a argv its a' HP p t i d f HS k Hk H13) as (pss & c & Hpss & [Hr1 [Hr2 Hr3]] & Hc & Hin & _).
  rewrite Ht in Hpss. inversion Hpss as [|? ps ? pss' H1 H2]; subst. inversion H2; subst.
  pose proof (pairs_joined f kvs es Hne Hp Hes) as Hj. pose proof (pairs_fun _ _ _ _ H1 Hj) as ->.
  cbn [concat] in Hin. rewrite app_nil_r in Hin.
  assert (Hlen : length kvs = length es) by (by eapply Forall2_length).
  assert (Ef : map fst (zip (map fst kvs) es) = map fst kvs).
  { change (map fst (zip (map fst kvs) es)) with ((zip (map fst kvs) es).*1). rewrite fst_zip; [done|]. rewrite map_length. lia. }
  assert (Hq : forall x, x ∈ c <-> x ∈ zip (map fst kvs) es).
  { intros [k0 e0]. rewrite Hin. apply last_value_in. by rewrite Ef. }
  assert (HP2 : c ≡ₚ zip (map fst kvs) es).
  { apply NoDup_Permutation; [by eapply NoDup_fmap_1|eapply (NoDup_fmap_1 fst); by setoid_rewrite Ef|done]. }
  split_and!.
  - rewrite <- HP2. done.
  - intros k0 e0 Hx. apply Hr2. by rewrite HP2.
  - intros k0 Hx. apply Hr3. intros Hy. apply Hx. apply elem_of_list_fmap in Hy as (x & -> & Hx'). apply elem_of_list_fmap.
    exists x. split; [done|]. by rewrite <- HP2.
Qed.
End Maps.

(** ** Which pairs and which texts *)
Section Taken.
Context `{Libc}.
Lemma pair_of_text v ps k x : pairs_text HMapString v ps -> (k, Text x) ∈ ps -> plain_pair (k, x).
Proof.
  intros (ws & Hw & Hp) Hx. apply elem_of_list_lookup in Hx as [j Hj].
  destruct (Forall2_lookup_r _ _ _ _ _ Hp Hj) as (w & Hwj & y & [Hkv1 Hkv2] & Hy). cbn [fst snd map_value] in *. injection Hy as ->.
  assert (Hf : comma_free w).
  { apply elements_plain in Hw as [(w' & -> & Hw')|Hw].
    - destruct j; [|done]. by injection Hwj as <-.
    - rewrite Forall_forall in Hw. apply (Hw w). by eapply elem_of_list_lookup_2. }
  subst w. unfold plain_pair, comma_free in *. cbn [fst snd]. rewrite elem_of_app, elem_of_cons in Hf. tauto.
Qed.
Lemma which_pairs k x : (exists v ps, pairs_text HMapString v ps /\ (k, Text x) ∈ ps) <-> plain_pair (k, x).
Proof.
  split; [intros (v & ps & Hp & Hx); exact (pair_of_text v ps k x Hp Hx)|]. intros Hp.
  exists (joined (map pair_written [(k, x)])), (zip (map fst [(k, x)]) [Text x]). split.
  - apply pairs_joined; [done|by constructor|]. constructor; [done|constructor].
  - cbn. left.
Qed.
Lemma elements_one v ws ws' : elements v ws -> elements v ws' -> ws = ws'.
Proof. unfold elements. case_bool_decide; [intros H1 H2; exact (cut_fun _ _ _ H1 _ H2)|congruence]. Qed.
Lemma taken_texts d v : d_handler d = Some HArrayString -> passes d (Some v) -> value_taken d (Some v).
Proof. intros Hh Hp. split; [done|]. rewrite Hh. intros valid n e ws Hv. inversion Hv. Qed.
Lemma taken_ints d ns : d_handler d = Some HArrayInt -> ns <> [] -> Forall in_32_bits ns ->
  passes d (Some (joined (map decimal_text ns))) -> value_taken d (Some (joined (map decimal_text ns))).
Proof.
  intros Hh Hne Hns Hp. split; [done|]. rewrite Hh. intros ws Hws.
  assert (ws = map decimal_text ns) as ->.
  { eapply elements_one; [exact Hws|]. apply elements_joined; [by destruct ns|].
    apply Forall_fmap, Forall_forall. intros n _. apply decimal_plain. }
  apply Forall_fmap, Forall_forall. intros n _. right. pose proof (strtoll_decimal n [] I) as E. rewrite app_nil_r in E.
  cbn. by rewrite E.
Qed.
Lemma taken_pairs d f valid n e kvs : d_handler d = Some f -> values_of f valid n e -> kvs <> [] -> Forall plain_pair kvs ->
  Forall (fun kv => valid (snd kv)) kvs ->
  passes d (Some (joined (map pair_written kvs))) -> value_taken d (Some (joined (map pair_written kvs))).
Proof.
  intros Hh Hvo Hne Hp Hv Hpass. split; [done|]. rewrite Hh.
  assert (Hws : forall ws, elements (joined (map pair_written kvs)) ws -> ws = map pair_written kvs).
  { intros ws Hws. eapply elements_one; [exact Hws|]. apply elements_joined; [by destruct kvs|].
    apply Forall_fmap. eapply Forall_impl; [exact Hp|]. apply pair_element. }
  assert (Hall : forall ws, elements (joined (map pair_written kvs)) ws -> Forall (pair_of valid) ws).
  { intros ws Hx. rewrite (Hws ws Hx). apply Forall_fmap. apply Forall_forall. intros kv Hkv.
    rewrite Forall_forall in Hp. destruct (Hp kv Hkv) as (_ & Hk & _). rewrite Forall_forall in Hv.
    exists (fst kv), (snd kv). split; [done|by apply Hv]. }
  inversion Hvo; subst; intros valid' n' e' ws Hvo' Hw; inversion Hvo'; subst; by apply Hall.
Qed.
End Taken.
