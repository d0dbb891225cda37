(** * Concrete tables, runs and checkers for the examples about arrays, maps and memory *)
From Coq Require Import Lia.
From stdpp Require Import sets.
From Verif Require Import Validate Api LibProofs FrameProofs SpecGrammar GrammarProofs SpecAfter SpecStructure StructProofs SpecValues
  SpecMemory SplitProofs SpecContents SpecSafe SpecCollections CollProofs SpecMacros MacroProofs MoreFacts ExLib ExGrammar ExAfter ExStructure.

(** ** The example library sorts *)
Lemma insert_perm {A} (cmp : A -> A -> Z) x l : Permutation (x :: l) (insert_sorted cmp x l).
Proof.
  induction l as [|y l IH]; cbn [insert_sorted]; [done|]. destruct (cmp x y <=? 0); [done|].
  rewrite Permutation_swap. by rewrite IH.
Qed.
Lemma sort_perm {A} (cmp : A -> A -> Z) l : Permutation l (insertion_sort cmp l).
Proof. induction l as [|x l IH]; [done|]. cbn. rewrite <- insert_perm. by rewrite <- IH. Qed.
Definition ordered {A} (cmp : A -> A -> Z) (l : list A) : Prop :=
  forall i j a b, (i < j)%nat -> l !! i = Some a -> l !! j = Some b -> cmp a b <= 0.
Lemma ordered_cons {A} (cmp : A -> A -> Z) x l : ordered cmp (x :: l) <-> (forall y, y ∈ l -> cmp x y <= 0) /\ ordered cmp l.
Proof.
  split.
  - intros Ho. split.
    + intros y [j Hj]%elem_of_list_lookup. apply (Ho 0%nat (S j)); [lia|done|done].
    + intros i j a b Hij Ha Hb. apply (Ho (S i) (S j)); [lia|done|done].
  - intros [Hx Ho] i j a b Hij Ha Hb. destruct j as [|j]; [lia|]. destruct i as [|i].
    + injection Ha as <-. apply Hx. by eapply elem_of_list_lookup_2.
    + apply (Ho i j); [lia|done|done].
Qed.
Lemma insert_ordered {A} (cmp : A -> A -> Z) x l : consistent cmp (x :: l) -> ordered cmp l -> ordered cmp (insert_sorted cmp x l).
Proof.
  intros [Hs Ht]. induction l as [|y l IH]; intros Ho; cbn [insert_sorted].
  - apply ordered_cons. split; [|done]. intros z Hz. by apply elem_of_nil in Hz.
  - apply ordered_cons in Ho as [Hy Ho]. destruct (Z.leb_spec (cmp x y) 0) as [Hle|Hgt].
    + apply ordered_cons. split; [|by apply ordered_cons]. intros z [->|Hz]%elem_of_cons; [done|].
      apply (Ht x y z); [left|right; left|by do 2 right|done|by apply Hy].
    + assert (cmp y x <= 0). { specialize (Hs x y ltac:(left) ltac:(right; left)). lia. }
      apply ordered_cons. split.
      * intros z Hz. rewrite <- insert_perm in Hz. apply elem_of_cons in Hz as [->|Hz]; [done|by apply Hy].
      * apply IH; [| |done].
        -- intros a b Ha Hb. apply Hs; set_solver.
        -- intros a b c Ha Hb Hc. apply Ht; set_solver.
Qed.
Lemma consistent_perm {A} (cmp : A -> A -> Z) l l' : (forall x, x ∈ l' -> x ∈ l) -> consistent cmp l -> consistent cmp l'.
Proof. intros Hp [Hs Ht]. split; [intros a b ? ?; apply Hs; auto|intros a b c ? ? ?; apply Ht; auto]. Qed.
Lemma sort_ordered {A} (cmp : A -> A -> Z) l : consistent cmp l -> ordered cmp (insertion_sort cmp l).
Proof.
  induction l as [|x l IH]; intros Hc; [by intros i j a b _ Ha|]. cbn. apply insert_ordered.
  - eapply consistent_perm; [|exact Hc]. intros y [->|Hy]%elem_of_cons; [left|right]. by rewrite (sort_perm cmp l).
  - apply IH. eapply consistent_perm; [|exact Hc]. intros y Hy. by right.
Qed.
Lemma env_sorts env : qsort_sorts (H := libc_env env).
Proof. intros A cmp l Hc. split; [apply sort_perm|]. exact (sort_ordered cmp l Hc). Qed.

(** ** Cutting at commas *)
Fixpoint runs_of (cur s : cstr) : list cstr :=
  match s with
  | [] => match cur with [] => [] | _ :: _ => [cur] end
  | c :: s' =>
      if Ascii.eqb c "," then match cur with [] => runs_of [] s' | _ :: _ => cur :: runs_of [] s' end
      else runs_of (cur ++ [c]) s'
  end.
Definition words_of (v : cstr) : list cstr := if bool_decide (","%char ∈ v) then runs_of [] v else [v].
Lemma cut_gap (sep : ascii -> Prop) c s ws : sep c -> cut sep s ws -> cut sep (c :: s) ws.
Proof. intros Hc Hs. inversion Hs; subst; [constructor; by constructor|]. rewrite app_comm_cons. constructor; [by constructor|done..]. Qed.
Lemma runs_cut s : forall cur, Forall (fun c => ~ ","%char = c) cur -> cut (eq ","%char) (cur ++ s) (runs_of cur s).
Proof.
  induction s as [|c s IH]; intros cur Hcur; cbn [runs_of].
  - destruct cur as [|x cur]; [constructor; constructor|]. apply (cut_word _ [] (x :: cur) []); try done; constructor; constructor.
  - destruct (Ascii.eqb_spec c ","%char) as [->|Hn].
    + destruct cur as [|x cur]; [apply cut_gap; [done|by apply (IH [])]|].
      apply (cut_word _ [] (x :: cur) (","%char :: s)); try done. apply cut_gap; [done|by apply (IH [])].
    + specialize (IH (cur ++ [c])). rewrite <- app_assoc in IH. apply IH. apply Forall_app. split; [done|]. repeat constructor. congruence.
Qed.
Lemma words_elements v : elements v (words_of v).
Proof. unfold elements, words_of. case_bool_decide; [by apply (runs_cut v [])|done]. Qed.
Lemma elements_words v ws : elements v ws -> ws = words_of v.
Proof. unfold elements, words_of. case_bool_decide; [|done]. intros Hc. eapply cut_fun; [exact Hc|]. by apply (runs_cut v []). Qed.

(** ** Checkers *)
Section check.
Context (L : Libc).
Definition sortableb (k : ekind) (e : elem) : bool := match k with EFloat => feq (bits_of e) (bits_of e) | _ => true end.
Lemma sortableb_ok k e : sortableb k e = true -> sortable k e.
Proof. unfold sortable, sortableb. by destruct k. Qed.
Definition harmlessb (d : decl) (v : cstr) : bool :=
  match d_handler d with
  | None => true
  | Some f =>
      match array_handler f with
      | None => true
      | Some (b, k) =>
          let ws := if b then words_of v else [v] in
          match ws with [] => false | _ => true end &&
          forallb (fun w =>
            match f with
            | HArrayInt => match parse_int_range w with Some (_, e) => e <? INT_MAX | None => true end
            | _ => true
            end &&
            (negb (N.testbit (d_flags d) 9) ||
             match piece (H := L) f w with Some es => forallb (sortableb k) es | None => true end)) ws
      end &&
      match map_handler f with
      | None => true
      | Some k =>
          match words_of v with [] => false | _ => true end &&
          (negb (N.testbit (d_flags d) 11) || match k with EFloat => false | _ => true end)
      end
  end.
Lemma harmlessb_ok d v : harmlessb d v = true -> harmless_text (H := L) d v.
Proof.
  unfold harmlessb, harmless_text. intros E f Hf. rewrite Hf in E. apply andb_true_iff in E as [E1 E2]. split.
  - intros Ha. destruct (array_handler f) as [[b k]|] eqn:Hk; [|done]. apply andb_true_iff in E1 as [E1 E3].
    intros ws Hws. assert (ws = if b then words_of v else [v]) as ->.
    { unfold pieces in Hws. rewrite Hk in Hws. destruct b; [by apply elements_words|done]. }
    split; [by destruct (if b then _ else _)|]. apply Forall_forall. intros w Hw. rewrite forallb_forall in E3.
    specialize (E3 w ltac:(by apply elem_of_list_In)). apply andb_true_iff in E3 as [E3 E4]. split.
    + intros -> x y Hxy. rewrite Hxy in E3. by apply Z.ltb_lt.
    + intros H9 es k' b' Hp Hk'. rewrite Hk in Hk'. injection Hk' as <- <-. rewrite H9, Hp in E4. cbn in E4.
      apply Forall_forall. intros e He. rewrite forallb_forall in E4. apply sortableb_ok, E4. by apply elem_of_list_In.
  - intros Ha. destruct (map_handler f) as [k|] eqn:Hk; [|done]. apply andb_true_iff in E2 as [E2 E3].
    intros ws Hws. apply elements_words in Hws as ->. split; [by destruct (words_of v)|].
    intros H11 w key t e ek _ _ _ Hek. rewrite Hk in Hek. injection Hek as <-. rewrite H11 in E3. cbn in E3.
    unfold sortable. intros ->. done.
Qed.
Definition item_harmlessb (a : argus) (x : item) : bool :=
  match x with
  | Call t i (Some v) => match decls a !! t with
      | Some T => match T !! i with Some d => harmlessb d v | None => true end
      | None => true end
  | _ => true
  end.
Lemma items_harmlessb a its : forallb (item_harmlessb a) its = true -> harmless_items (H := L) a its.
Proof.
  intros E t i v T d Hin HT Hi. rewrite forallb_forall in E. specialize (E _ ltac:(by apply elem_of_list_In)). cbn in E.
  rewrite HT, Hi in E. by apply harmlessb_ok.
Qed.
Lemma check_harmless a argv : fresh a -> perform (H := L) a (plan_of a argv) = Ok (0, mid L a argv) ->
  forallb (item_harmlessb a) (all_items L a argv) = true -> harmless_input (H := L) a argv.
Proof.
  intros Hf Hp E its [Hr|Ha].
  - assert (its = plan_of a argv) as ->. { destruct Hf. eapply reads_unique; [exact Hr|]. by apply plan_reads. }
    apply items_harmlessb. unfold all_items in E. rewrite forallb_app in E. by apply andb_true_iff in E as [E _].
  - assert (its = all_items L a argv) as ->. { eapply assigned_unique; [exact Ha|]. by apply all_assigned. }
    by apply items_harmlessb.
Qed.
End check.
(** When the command line alone already fails. *)
Lemma check_harmless_failed (L : Libc) a argv c : fresh a -> c <> 0 ->
  perform (H := L) a (plan_of a argv) = Ok (c, mid L a argv) ->
  forallb (item_harmlessb L a) (plan_of a argv) = true -> harmless_input (H := L) a argv.
Proof.
  intros Hf Hc Hp E its [Hr|Ha].
  - assert (its = plan_of a argv) as ->. { destruct Hf. eapply reads_unique; [exact Hr|]. by apply plan_reads. }
    by apply items_harmlessb.
  - destruct Ha as (its0 & am & Hr & Hp' & _).
    assert (its0 = plan_of a argv) as ->. { destruct Hf. eapply reads_unique; [exact Hr|]. by apply plan_reads. }
    congruence.
Qed.

(** ** Tables with arrays and maps *)
Definition ex_lists : list (list opt) :=
  [[HELP_OPTION;                                                         (* 0 *)
    OPTION_ARRAY_STRING "t" (Some ($"tags")) [hlp];                      (* 1 *)
    OPTION_ARRAY_STRING "s" (Some ($"sorted")) [hlp; FLAGS FLAG_SORTED]; (* 2 *)
    OPTION_ARRAY_INT "r" (Some ($"ranges")) [hlp];                       (* 3 *)
    OPTION_ARRAY_INT "u" (Some ($"unique")) [hlp; FLAGS FLAG_UNIQUE];    (* 4 *)
    OPTION_ARRAY_INT "b" (Some ($"both")) [hlp; FLAGS (N.lor FLAG_SORTED FLAG_UNIQUE)]; (* 5 *)
    OPTION_ARRAY_FLOAT "f" (Some ($"floats")) [hlp; FLAGS FLAG_SORTED];  (* 6 *)
    OPTION_MAP_STRING "D" (Some ($"define")) [hlp];                      (* 7 *)
    OPTION_MAP_INT "k" (Some ($"keys")) [hlp; FLAGS FLAG_SORTED_KEY];    (* 8 *)
    OPTION_MAP_INT "v" (Some ($"values")) [hlp; FLAGS FLAG_UNIQUE_VALUE];(* 9 *)
    OPTION_MAP_INT "w" (Some ($"weights")) [hlp; FLAGS FLAG_SORTED_VALUE]; (* 10 *)
    OPTION_MAP_BOOL "e" (Some ($"enable")) [hlp];                        (* 11 *)
    OPTION_STRING "o" (Some ($"output")) [hlp; DEFAULT (DString ($"out"))]; (* 12 *)
    OPTION_ARRAY_STRING "p" (Some ($"paths")) [hlp; ENV_VAR ($"PATHS")]; (* 13 *)
    OPTION_ARRAY_FLOAT "g" (Some ($"gauges")) [hlp; FLAGS FLAG_UNIQUE];  (* 14 *)
    POSITIONAL_MANY_STRING ($"files") [hlp]]].                           (* 15 *)
Definition lists_ctx : argus := make_argus ex_lists 0 None.
Lemma lists_accepted env : accepted (H := libc_env env) lists_ctx.
Proof. exists 3%nat, ex_lists, 0%nat, None. split; [vm_compute; reflexivity|done]. Qed.
Lemma lists_strays : no_strays (decls lists_ctx) 0.
Proof. apply straysb_ok. vm_compute. reflexivity. Qed.
Lemma lists_fresh : fresh lists_ctx.
Proof. apply freshb_ok. vm_compute. reflexivity. Qed.
Ltac builds :=
  repeat (apply Forall_cons_2); try apply Forall_nil_2;
  lazymatch goal with
  | |- built HELP_OPTION => exact b_help
  | |- built VERSION_OPTION => exact b_version
  | |- built GROUP_END => exact b_group_end
  | |- built _ => constructor; repeat constructor; cbn; try done; try (by eexists)
  end.
Lemma lists_built : built_tables ex_lists.
Proof. builds. Qed.
Lemma lists_ready : ready lists_ctx.
Proof. exact (built_ready _ _ _ lists_built). Qed.

(** Everything but the run itself. *)
Lemma lists_parsed env argv a' :
  perform (H := libc_env env) lists_ctx (plan_of lists_ctx argv) = Ok (0, mid (libc_env env) lists_ctx argv) ->
  forallb (item_harmlessb (libc_env env) lists_ctx) (all_items (libc_env env) lists_ctx argv) = true ->
  argus_parse (H := libc_env env) lists_ctx argv = Ok (Returned 0, a') ->
  parsed (H := libc_env env) lists_ctx argv (all_items (libc_env env) lists_ctx argv) a'.
Proof.
  intros Hp Hh Hr. constructor.
  - apply lists_accepted.
  - exact lists_strays.
  - exact lists_ready.
  - apply env_sorts.
  - apply check_harmless; [exact lists_fresh|done|done].
  - done.
  - apply all_assigned; [exact lists_fresh|done].
Qed.

(** ** Keys *)
Fixpoint key_of (w : cstr) : cstr :=
  match w with [] => [] | c :: w' => if Ascii.eqb c "=" then [] else c :: key_of w' end.
Lemma key_value_of w k v : key_value w k v -> key_of w = k.
Proof.
  intros [-> Hk]. induction k as [|c k IH]; [done|]. cbn. destruct (Ascii.eqb_spec c "="%char) as [->|Hn].
  - destruct Hk. left.
  - f_equal. apply IH. intros Hi. apply Hk. by right.
Qed.
Lemma pairs_keys (L : Libc) f vs pss : Forall2 (pairs_text (H := L) f) vs pss ->
  map fst (concat pss) = concat (map (fun v => map key_of (words_of v)) vs).
Proof.
  induction 1 as [|v ps vs pss (ws & He & Hp) _ IH]; [done|]. cbn [concat map]. rewrite map_app, IH. f_equal.
  apply elements_words in He as ->. clear IH. induction Hp as [|w q ws ps (x & Hq & _) _ IH]; [done|].
  cbn [map]. rewrite IH. f_equal. symmetry. by eapply key_value_of.
Qed.
Definition keys_onceb (a : argus) (its : list item) : bool :=
  forallb (fun t => forallb (fun i => bool_decide (NoDup (concat (map (fun v => map key_of (words_of v)) (texts t i its)))) ||
      match get_option a t i with Ok o => match d_handler (decl_of o) with Some f => match map_handler f with Some _ => false | None => true end | None => true end | UB _ => true end)
    (seq 0 (length (default [] (a_tabs a !! t))))) (seq 0 (length (a_tabs a))).
Lemma keys_onceb_ok (L : Libc) a its : keys_onceb a its = true -> keys_once (H := L) a its.
Proof.
  intros E t i o f k pss (T & HT & Ho) Hf Hk Hp. unfold keys_onceb in E. rewrite forallb_forall in E.
  specialize (E t ltac:(apply in_seq; apply lookup_lt_Some in HT; lia)). rewrite HT in E. cbn [default id] in E. rewrite forallb_forall in E.
  specialize (E i ltac:(apply in_seq; apply lookup_lt_Some in Ho; change (default [] (Some T)) with T; lia)).
  rewrite (pairs_keys L f _ _ Hp). apply orb_true_iff in E as [E|E]; [by apply bool_decide_eq_true in E|].
  assert (Hg : get_option a t i = Ok o) by (apply AfterFacts.entry_get; by exists T). rewrite Hg in E. by rewrite Hf, Hk in E.
Qed.
