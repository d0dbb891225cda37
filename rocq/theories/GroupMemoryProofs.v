(** * Proofs about the memory that the help screen asks for *)
From stdpp Require Import sets.
From Coq Require Import Lia.
From Verif Require Export SpecGroupMemory HelpProofs.

Definition refused (l oom : list bool) : Prop := exists k, l !! k = Some true /\ oom !! k = Some true.
Lemma refused_nil oom : ~ refused [] oom.
Proof. by intros (k & K & _). Qed.
Lemma refused_cell l oom : refused (false :: l) oom <-> refused l (tail oom).
Proof.
  split.
  - intros ([|k] & K1 & K2); [done|]. exists k. split; [done|]. by destruct oom.
  - intros (k & K1 & K2). exists (S k). split; [done|]. by destruct oom.
Qed.
Lemma refused_record l oom : refused (true :: l) oom <-> head oom = Some true \/ refused l (tail oom).
Proof.
  split.
  - intros ([|k] & K1 & K2).
    + left. by destruct oom.
    + right. exists k. split; [done|]. by destruct oom.
  - intros [K|(k & K1 & K2)].
    + exists O. split; [done|]. by destruct oom.
    + exists (S k). split; [done|]. by destruct oom.
Qed.

Lemma malloc_runs B E out h (x : block) : owned B E h -> exists p h',
  dmalloc x (Dst out h) = Shown (p, Dst out h') /\ oom h' = tail (oom h) /\
  ((p = None /\ head (oom h) = Some true /\ owned B E h') \/
   (exists a, p = Some a /\ head (oom h) <> Some true /\ owned B ((a, x) :: E) h')).
Proof.
  intros O. unfold dmalloc, malloc. cbn [s_heap s_out]. destruct (oom h) as [|[] o] eqn:EO; eexists _, _; (split; [done|]);
    (split; [done|]).
  - right. exists (length (blocks h)). split; [done|]. split; [done|]. by apply owned_malloc.
  - left. split; [done|]. split; [done|]. by apply owned_oom.
  - right. exists (length (blocks h)). split; [done|]. split; [done|]. by apply owned_malloc.
Qed.
Lemma add_list_runs B E out h l i : owned B E h -> exists l' E' h',
  add_option_to_list l i (Dst out h) = Shown (l', Dst out h') /\ oom h' = tail (oom h) /\ owned B E' h' /\
  ((l' = l /\ E' = E) \/ exists a, l' = l ++ [(a, i)] /\ E' = tmp a :: E).
Proof.
  intros O. unfold add_option_to_list, dbind.
  destruct (malloc_runs B E out h BTmp O) as (p & h' & -> & EO & [(-> & _ & W)|(a & -> & _ & W)]).
  - exists l, E, h'. cbn. split_and!; try done. by left.
  - exists (l ++ [(a, i)]), (tmp a :: E), h'. cbn. split_and!; try done. right. by exists a.
Qed.

(** What holds after the entries [P] of table [T] have been treated. *)
Record kept (T P : list opt) (current : option cstr) (cached : option nat) (D : help_data) : Prop := {
  kp_sane : sane T D;
  kp_current : current = group_at P (length P);
  kp_cached : forall k, cached = Some k -> exists G, hd_groups D !! k = Some G /\ current = Some (g_name G);
  kp_names : forall n, n ∈ map g_name (hd_groups D) <-> positions (in_group P (Some n)) P <> [];
}.
Lemma kept_more P o n (gs : list group) :
  (visible o = true -> group_at P (length P) = None) ->
  (n ∈ map g_name gs <-> positions (in_group P (Some n)) P <> []) ->
  n ∈ map g_name gs <-> positions (in_group (P ++ [o]) (Some n)) (P ++ [o]) <> [].
Proof.
  intros V K. rewrite group_positions. destruct (visible o).
  - rewrite V by done. cbn. by rewrite app_nil_r.
  - cbn. by rewrite app_nil_r.
Qed.
Definition later (T P : list opt) (rest : list opt) : list bool :=
  concat (map (requests_at T) (seq (length P) (length rest))).
Lemma later_cons T P o rest : later T P (o :: rest) = requests_at T (length P) ++ later T (P ++ [o]) rest.
Proof. unfold later. cbn [length seq map concat]. rewrite app_length. cbn [length]. by rewrite Nat.add_1_r. Qed.

Lemma organize_runs T B out rest : forall P current cached D E h,
  T = P ++ rest -> kept T P current cached D -> Permutation E (data_cells D) -> owned B E h ->
  (refused (later T P rest) (oom h) /\
     organize_from rest (length P) current cached D (Dst out h) = Fault NullDeref) \/
  (~ refused (later T P rest) (oom h) /\ exists D' E' h',
     organize_from rest (length P) current cached D (Dst out h) = Shown (D', Dst out h') /\
     owned B E' h' /\ Permutation E' (data_cells D') /\ sane T D').
Proof.
  induction rest as [|o rest IH]; intros P current cached D E h ET KP PE OW.
  { right. split; [apply refused_nil|]. exists D, E, h. split_and!; try done. apply KP. }
  assert (ET' : T = (P ++ [o]) ++ rest) by (by rewrite <- app_assoc).
  assert (LP : length (P ++ [o]) = S (length P)) by (rewrite app_length; cbn; lia).
  assert (TO : T !! length P = Some o).
  { rewrite ET. rewrite lookup_app_r, Nat.sub_diag by lia. done. }
  assert (GA : group_at T (length P) = group_at P (length P)).
  { rewrite ET. unfold group_at. by rewrite take_app, take_ge by lia. }
  assert (TK : take (length P) T = P) by (rewrite ET; apply take_app).
  rewrite later_cons. unfold requests_at. rewrite TO, GA. unfold first_of_group. rewrite TK.
  pose proof KP as [S C K N].
  cbn [organize_from]. rewrite <- LP.
  destruct (d_type (decl_of o)) eqn:Ety.
  - (* option *)
    assert (NG : is_group o = false) by (unfold is_group; by rewrite Ety).
    assert (NE : entry_is TPositional o || entry_is TSubcommand o = false) by (unfold entry_is; by rewrite Ety).
    destruct (has (d_flags (decl_of o)) FLAG_HIDDEN) eqn:Eh.
    + assert (V : visible o = false) by (rewrite visible_of by done; by rewrite Eh).
      rewrite V, NE. cbn [app]. apply (IH _ _ _ _ E); try done. split; try done.
      * by rewrite next_group.
      * intros n. apply kept_more; [congruence|apply N].
    + assert (V : visible o = true) by (rewrite visible_of by done; by rewrite Eh).
      assert (KO : forall a, of_kind_at TOption T (a, length P)).
      { intros a. exists o. split; [done|]. unfold entry_is. by rewrite Ety. }
      rewrite V, <- C. destruct current as [n|].
      * (* in a group *)
        assert (ADD : forall D1 k G E1 h1,
          hd_groups D1 !! k = Some G -> g_name G = n -> sane T D1 -> Permutation E1 (data_cells D1) -> owned B E1 h1 ->
          (forall m, m ∈ map g_name (hd_groups D1) <-> m = n \/ m ∈ map g_name (hd_groups D)) ->
          let m := (let^ D' := add_to_group D1 (Some k) (length P) in
                    organize_from rest (length (P ++ [o])) (Some n) (Some k) D') (Dst out h1) in
          (refused (later T (P ++ [o]) rest) (tail (oom h1)) /\ m = Fault NullDeref) \/
          (~ refused (later T (P ++ [o]) rest) (tail (oom h1)) /\ exists D' E' h',
             m = Shown (D', Dst out h') /\ owned B E' h' /\ Permutation E' (data_cells D') /\ sane T D')).
        { intros D1 k G E1 h1 EG EN S1 PE1 O1 NM m.
          assert (exists l' E2 h2, m = organize_from rest (length (P ++ [o])) (Some n) (Some k)
                    (HelpData (<[k := Group (g_cell G) (g_name G) l']> (hd_groups D1)) (hd_ungrouped D1) (hd_positionals D1) (hd_subcommands D1))
                    (Dst out h2) /\ oom h2 = tail (oom h1) /\ owned B E2 h2 /\
                    ((l' = g_options G /\ E2 = E1) \/ exists a, l' = g_options G ++ [(a, length P)] /\ E2 = tmp a :: E1)) as
            (l' & E2 & h2 & -> & EO & O2 & HL).
          { destruct (add_list_runs B E1 out h1 (g_options G) (length P) O1) as (l' & E2 & h2 & EL & R).
            exists l', E2, h2. split; [|done]. unfold m, add_to_group, dbind, dlift, cell. rewrite EG. by rewrite EL. }
          rewrite <- EO. pose proof (lookup_lt_Some _ _ _ EG) as Lk. apply (IH _ _ _ _ E2); try done.
          - split; cbn [hd_groups hd_ungrouped hd_positionals hd_subcommands].
            + destruct S1 as [T1 T2 T3 T4]. split; try done. cbn. apply Forall_insert; [done|]. cbn.
              rewrite Forall_forall in T1. pose proof (T1 G ltac:(by eapply elem_of_list_lookup_2)) as TG.
              destruct HL as [(-> & _)|(a & -> & _)]; [done|]. apply Forall_app. split; [done|]. by repeat constructor.
            + by rewrite next_group.
            + intros k' [= <-]. eexists. rewrite list_lookup_insert by done. split; [done|]. cbn. by rewrite EN.
            + intros m'.
              assert (map g_name (<[k := Group (g_cell G) (g_name G) l']> (hd_groups D1)) = map g_name (hd_groups D1)) as ->.
              { change (map g_name ?x) with (g_name <$> x). rewrite list_fmap_insert. apply list_insert_id.
                by rewrite list_lookup_fmap, EG. }
              rewrite NM, N, group_positions, V, <- C. cbn [andb].
              destruct (decide (m' = n)) as [->|NE'].
              * rewrite bool_decide_true by done. split; [|by left]. intros _ Z. by apply app_eq_nil in Z as [_ Z].
              * rewrite bool_decide_false by congruence. rewrite app_nil_r. split; [by intros [?|?]|by right].
          - unfold data_cells. cbn [hd_groups hd_ungrouped hd_positionals hd_subcommands].
            destruct HL as [(-> & ->)|(a & -> & ->)].
            + rewrite list_insert_id; [done|]. rewrite EG. by destruct G.
            + rewrite (concat_alter _ k G _ (tmp a) EG).
              * rewrite PE1. done.
              * unfold group_cells. cbn [g_options g_cell]. rewrite list_cells_snoc, <- app_assoc.
                cbn. symmetry. apply Permutation_middle. }
        assert (OLD : forall k G, hd_groups D !! k = Some G -> g_name G = n ->
          forall x, bool_decide (positions (in_group P (Some n)) P = []) = x -> x = false /\
          forall m, m ∈ map g_name (hd_groups D) <-> m = n \/ m ∈ map g_name (hd_groups D)).
        { intros k G EG EN x <-. assert (n ∈ map g_name (hd_groups D)) as IN.
          { rewrite <- EN. apply elem_of_list_fmap_1. by eapply elem_of_list_lookup_2. }
          split; [apply bool_decide_false; by apply N|]. intros m. split; [by right|]. by intros [->|?]. }
        assert (SEEN : forall k G, hd_groups D !! k = Some G -> g_name G = n ->
          let m := (let^ D' := add_to_group D (Some k) (length P) in
                    organize_from rest (length (P ++ [o])) (Some n) (Some k) D') (Dst out h) in
          let l := (if bool_decide (positions (in_group P (Some n)) P = []) then [true; false] else [false]) ++ later T (P ++ [o]) rest in
          (refused l (oom h) /\ m = Fault NullDeref) \/
          (~ refused l (oom h) /\ exists D' E' h',
             m = Shown (D', Dst out h') /\ owned B E' h' /\ Permutation E' (data_cells D') /\ sane T D')).
        { intros k G EG EN m l. destruct (OLD k G EG EN _ eq_refl) as [F NM].
          destruct (ADD D k G E h EG EN S PE OW NM) as [[R Em]|[R Em]]; unfold l; rewrite F; cbn [app].
          - left. split; [by apply refused_cell|done].
          - right. split; [by rewrite refused_cell|done]. }
        destruct cached as [k|].
        { destruct (K k eq_refl) as (G & EG & [= EN]). exact (SEEN k G EG (eq_sym EN)). }
        unfold find_or_create_group. destruct (find_group (hd_groups D) n) as [k|] eqn:EF.
        { apply find_group_Some in EF as (G & EG & EN). exact (SEEN k G EG EN). }
        apply find_group_None in EF.
        rewrite bool_decide_true.
        2: { destruct (decide (positions (in_group P (Some n)) P = [])) as [|Z]; [done|]. by apply N in Z. }
        cbn [app]. rewrite refused_record, refused_cell.
        destruct (malloc_runs B E out h BTmp OW) as (p & h1 & EM & EO & [(-> & HD & W)|(a & -> & HD & W)]).
        -- left. split; [by left|]. unfold dbind. by rewrite EM.
        -- set (D1 := HelpData (hd_groups D ++ [Group a n []]) (hd_ungrouped D) (hd_positionals D) (hd_subcommands D)).
           destruct (ADD D1 (length (hd_groups D)) (Group a n []) ((a, BTmp) :: E) h1) as [[R Em]|[R Em]].
           ++ cbn. by rewrite lookup_app_r, Nat.sub_diag by lia.
           ++ done.
           ++ destruct S as [S1 S2 S3 S4]. split; try done. cbn. apply Forall_app. split; [done|]. by repeat constructor.
           ++ unfold data_cells. cbn [D1 hd_groups hd_ungrouped hd_positionals hd_subcommands].
              rewrite map_app, concat_app, PE. unfold data_cells. cbn. rewrite <- app_assoc. cbn.
              apply Permutation_middle.
           ++ done.
           ++ intros m. cbn. rewrite map_app, elem_of_app. cbn. rewrite elem_of_list_singleton. tauto.
           ++ left. rewrite EO in R. split; [by right|]. unfold dbind in *. rewrite EM. cbn. exact Em.
           ++ right. rewrite EO in R. split; [by intros [?|?]|].
              destruct Em as (D' & E' & h' & Em & R'). exists D', E', h'. split; [|done].
              unfold dbind in *. rewrite EM. cbn. exact Em.
      * (* without a group *)
        destruct (add_list_runs B E out h (hd_ungrouped D) (length P) OW) as (l' & E' & h' & EL & EO & O' & HL).
        cbn [app]. rewrite refused_cell, <- EO. unfold dbind. rewrite EL. apply (IH _ _ _ _ E'); try done.
        -- split; cbn [hd_groups hd_ungrouped hd_positionals hd_subcommands]; try done.
           ++ destruct S as [S1 S2 S3 S4]. split; try done. cbn.
              destruct HL as [(-> & _)|(a & -> & _)]; [done|]. apply Forall_app. split; [done|]. by repeat constructor.
           ++ by rewrite next_group.
           ++ intros n. apply kept_more; [done|apply N].
        -- unfold data_cells in *. cbn [hd_groups hd_ungrouped hd_positionals hd_subcommands].
           destruct HL as [(-> & ->)|(a & -> & ->)]; [done|].
           rewrite list_cells_snoc, PE. rewrite <- !app_assoc. cbn.
           rewrite !app_assoc. rewrite <- !app_assoc.
           rewrite (app_assoc _ (list_cells (hd_ungrouped D)) (tmp a :: _)), <- Permutation_middle.
           by rewrite <- app_assoc.
  - (* group *)
    assert (V : visible o = false) by (apply not_visible; congruence).
    assert (NE : entry_is TPositional o || entry_is TSubcommand o = false) by (unfold entry_is; by rewrite Ety).
    rewrite V, NE. cbn [app]. apply (IH _ _ _ _ E); try done. split; try done.
    + rewrite LP, group_at_end. unfold is_group. by rewrite Ety.
    + intros n. apply kept_more; [congruence|apply N].
  - (* positional *)
    assert (V : visible o = false) by (apply not_visible; congruence).
    assert (NG : is_group o = false) by (unfold is_group; by rewrite Ety).
    assert (NE : entry_is TPositional o || entry_is TSubcommand o = true) by (unfold entry_is; by rewrite Ety).
    destruct (add_list_runs B E out h (hd_positionals D) (length P) OW) as (l' & E' & h' & EL & EO & O' & HL).
    rewrite V, NE. cbn [app]. rewrite refused_cell, <- EO. unfold dbind. rewrite EL. apply (IH _ _ _ _ E'); try done.
    + split; cbn [hd_groups hd_ungrouped hd_positionals hd_subcommands]; try done.
      * destruct S as [S1 S2 S3 S4]. split; try done. cbn.
        destruct HL as [(-> & _)|(a & -> & _)]; [done|]. apply Forall_app. split; [done|].
        repeat constructor. exists o. split; [done|]. unfold entry_is. by rewrite Ety.
      * by rewrite next_group.
      * intros n. apply kept_more; [congruence|apply N].
    + unfold data_cells in *. cbn [hd_groups hd_ungrouped hd_positionals hd_subcommands].
      destruct HL as [(-> & ->)|(a & -> & ->)]; [done|].
      rewrite list_cells_snoc, PE. rewrite <- !app_assoc. cbn.
      rewrite !app_assoc. by rewrite <- Permutation_middle, <- !app_assoc.
  - (* subcommand *)
    assert (V : visible o = false) by (apply not_visible; congruence).
    assert (NG : is_group o = false) by (unfold is_group; by rewrite Ety).
    assert (NE : entry_is TPositional o || entry_is TSubcommand o = true) by (unfold entry_is; by rewrite Ety).
    destruct (add_list_runs B E out h (hd_subcommands D) (length P) OW) as (l' & E' & h' & EL & EO & O' & HL).
    rewrite V, NE. cbn [app]. rewrite refused_cell, <- EO. unfold dbind. rewrite EL. apply (IH _ _ _ _ E'); try done.
    + split; cbn [hd_groups hd_ungrouped hd_positionals hd_subcommands]; try done.
      * destruct S as [S1 S2 S3 S4]. split; try done. cbn.
        destruct HL as [(-> & _)|(a & -> & _)]; [done|]. apply Forall_app. split; [done|].
        repeat constructor. exists o. split; [done|]. unfold entry_is. by rewrite Ety.
      * by rewrite next_group.
      * intros n. apply kept_more; [congruence|apply N].
    + unfold data_cells in *. cbn [hd_groups hd_ungrouped hd_positionals hd_subcommands].
      destruct HL as [(-> & ->)|(a & -> & ->)]; [done|].
      rewrite list_cells_snoc, PE. rewrite !app_assoc. cbn.
      by rewrite <- Permutation_cons_append.
Qed.

Lemma organize_exact T B out h : owned B [] h ->
  (record_refused T (oom h) /\ organize_options T (Dst out h) = Fault NullDeref) \/
  (~ record_refused T (oom h) /\ exists D' E' h',
     organize_options T (Dst out h) = Shown (D', Dst out h') /\
     owned B E' h' /\ Permutation E' (data_cells D') /\ sane T D').
Proof.
  intros O. apply (organize_runs T B out T [] None None (HelpData [] [] [] []) [] h); try done.
  split; try done.
  - split; constructor.
  - intros n. cbn. split; [intros X; by apply elem_of_nil in X|done].
Qed.

Section exact.
Context `{Libc, Printf}.
Lemma help_memory p a command t T names s :
  printf_ok -> endable (p_config p) -> showable_table (a_prefix a) T -> selected a names ->
  match command with Some c => Some c = t | None => get_active_options a = Ok t end ->
  table_ptr t a = Ok T ->
  (record_refused T (oom (s_heap s)) -> display_help p a command s = Fault NullDeref) /\
  (~ record_refused T (oom (s_heap s)) ->
   exists u h', display_help p a command s = Shown (tt, Dst (s_out s ++ u) h') /\ released (s_heap s) h').
Proof.
  intros PO EC ST Sel Ht HT. destruct s as [out h]. cbn [s_heap s_out].
  set (rest D := print_help_sections (p_config p) (a_prefix a) p a T D ;;^ free_help_data D ;;^ put [newline]).
  assert (HH : display_help p a command (Dst out h) =
     match organize_options T (Dst out h) with
     | Shown (D, s') => rest D s' | Fault u => Fault u | Endless => Endless end).
  { unfold display_help, dbind at 1. destruct command as [c|].
    - cbn [dret]. subst t. unfold dbind at 1, dlift. by rewrite HT.
    - unfold dlift at 1. rewrite Ht. unfold dbind at 1, dlift. by rewrite HT. }
  rewrite HH.
  destruct (organize_exact T (blocks h) out h (owned_start _)) as [[R ->]|[R (D & E & h1 & -> & O1 & PE & SD)]].
  { by split. }
  split; [done|]. intros _.
  assert (TR : triple false E (rest D) (fun _ u E' => E' = [])).
  { unfold rest. eapply t_bind; [by apply (t_sections (p_config p) (a_prefix a) T PO EC ST p a names D)|].
    intros [] u E' [-> _].
    eapply t_bind; [apply (t_free_data D E []); by rewrite app_nil_r|]. intros [] v E' [-> ->].
    eapply t_conseq; [apply t_put|]. by intros [] w E' [-> ->]. }
  destruct (TR (blocks h) [] (Dst out h1)) as ([] & v & E' & h' & -> & O2 & _ & ->); [done|by rewrite app_nil_r|].
  cbn [s_out]. exists v, h'. split; [done|]. split.
  - apply O2.
  - intros i x L K. apply (own_live _ _ _ O2) in K; [|done]. by apply elem_of_nil in K.
Qed.
End exact.
