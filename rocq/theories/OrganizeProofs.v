(** * Proofs about the organiser of the help screen *)
From stdpp Require Import sets.
From Coq Require Import Lia Sorting.Sorted.
From Verif Require Export ShowLogic SpecDisplay LibProofs.
From Verif Require Import GrammarProofs.

(** ** Positions *)
Lemma positions_snoc f g P o :
  (forall i x, P !! i = Some x -> f i x = g i x) ->
  positions f (P ++ [o]) = positions g P ++ (if f (length P) o then [length P] else []).
Proof.
  intros E. unfold positions. rewrite app_length. cbn [length]. rewrite Nat.add_1_r, seq_S, List.filter_app.
  f_equal.
  - apply List.filter_ext_in. intros i Hi. apply in_seq in Hi. cbn in Hi.
    rewrite lookup_app_l by lia. destruct (P !! i) as [x|] eqn:Ex; [by apply E|done].
  - cbn [List.filter Nat.add]. rewrite lookup_app_r, Nat.sub_diag by lia. cbn.
    by destruct (f (length P) o).
Qed.
Lemma group_at_snoc P o i : (i <= length P)%nat -> group_at (P ++ [o]) i = group_at P i.
Proof. intros L. unfold group_at. by rewrite take_app_le by done. Qed.
Lemma group_at_end P o :
  group_at (P ++ [o]) (S (length P)) = if is_group o then d_name (decl_of o) else group_at P (length P).
Proof.
  unfold group_at. rewrite take_ge by (rewrite app_length; cbn; lia).
  rewrite (take_ge P) by lia. rewrite List.filter_app. cbn [List.filter].
  destruct (is_group o).
  - by rewrite last_snoc.
  - by rewrite app_nil_r.
Qed.
Lemma positions_In f T i : i ∈ positions f T <-> exists o, T !! i = Some o /\ f i o = true.
Proof.
  unfold positions. rewrite elem_of_list_In, filter_In, in_seq. split.
  - intros [_ H]. destruct (T !! i) as [o|]; [|done]. by exists o.
  - intros (o & E & H). rewrite E. split; [|done]. apply lookup_lt_Some in E. lia.
Qed.
Lemma in_group_snoc P o n i x :
  (i < length P)%nat -> in_group (P ++ [o]) n i x = in_group P n i x.
Proof. intros L. unfold in_group. by rewrite group_at_snoc by lia. Qed.
Lemma in_group_end P o n :
  in_group (P ++ [o]) n (length P) o = visible o && bool_decide (group_at P (length P) = n).
Proof. unfold in_group. by rewrite group_at_snoc. Qed.
Lemma group_positions P o n :
  positions (in_group (P ++ [o]) n) (P ++ [o]) =
  positions (in_group P n) P ++
    (if visible o && bool_decide (group_at P (length P) = n) then [length P] else []).
Proof.
  rewrite (positions_snoc _ (in_group P n)).
  - by rewrite in_group_end.
  - intros i x Hx. apply in_group_snoc. by apply lookup_lt_Some in Hx.
Qed.

(** ** Groups *)
Record groups_ok (T : list opt) (gs : list group) : Prop := {
  go_group : forall g, g ∈ gs ->
    map snd (g_options g) = positions (in_group T (Some (g_name g))) T /\ g_options g <> [];
  go_names : NoDup (map g_name gs);
  go_all : forall i o n, T !! i = Some o -> visible o = true -> group_at T i = Some n ->
    n ∈ map g_name gs;
  go_order : StronglySorted (fun g g' => (first_index g < first_index g')%nat) gs;
}.
Lemma groups_keep P o gs :
  (visible o = true -> group_at P (length P) = None) -> groups_ok P gs -> groups_ok (P ++ [o]) gs.
Proof.
  intros N [H1 H2 H3 H4]. split; try done.
  - intros g Hg. rewrite group_positions. destruct (H1 g Hg) as [E1 E2]. split; [|done].
    rewrite E1. destruct (visible o); [|by rewrite app_nil_r].
    rewrite N by done. cbn. by rewrite app_nil_r.
  - intros i x n Hx V G. apply lookup_app_Some in Hx as [Hx|[L Hx]].
    + apply (H3 i x n); try done. rewrite group_at_snoc in G; [done|]. apply lookup_lt_Some in Hx. lia.
    + destruct (i - length P)%nat as [|k] eqn:K; [|by destruct k].
      injection Hx as ->. assert (i = length P) as -> by lia.
      rewrite group_at_snoc in G by done. rewrite (N V) in G. done.
Qed.
Lemma first_lt P gs g : groups_ok P gs -> g ∈ gs -> (first_index g < length P)%nat.
Proof.
  intros [H1 _ _ _] Hg. destruct (H1 g Hg) as [E N]. unfold first_index.
  destruct (g_options g) as [|[a i] l]; [done|]. cbn in E.
  assert (I : i ∈ positions (in_group P (Some (g_name g))) P) by (rewrite <- E; left).
  apply positions_In in I as (o & I & _). by apply lookup_lt_Some in I.
Qed.
Lemma groups_new P o gs n a a' :
  visible o = true -> group_at P (length P) = Some n -> n ∉ map g_name gs -> groups_ok P gs ->
  groups_ok (P ++ [o]) (gs ++ [Group a n [(a', length P)]]).
Proof.
  intros V G NI O. pose proof O as [H1 H2 H3 H4]. split.
  - intros g Hg. rewrite group_positions, V, G. apply elem_of_app in Hg as [Hg|Hg].
    + destruct (H1 g Hg) as [E1 E2]. split; [|done]. rewrite E1. cbn.
      rewrite bool_decide_false; [by rewrite app_nil_r|]. intros [= E]. apply NI. rewrite E.
      by apply elem_of_list_fmap_1.
    + apply elem_of_list_singleton in Hg as ->. cbn. split; [|done].
      rewrite bool_decide_true by done.
      assert (positions (in_group P (Some n)) P = []) as ->; [|done].
      destruct (positions (in_group P (Some n)) P) as [|i l] eqn:E; [done|exfalso].
      assert (I : i ∈ positions (in_group P (Some n)) P) by (rewrite E; left).
      apply positions_In in I as (x & I & K). unfold in_group in K.
      apply andb_true_iff in K as [K1 K2]. apply bool_decide_eq_true in K2.
      apply NI. by apply (H3 i x n).
  - rewrite map_app. apply NoDup_app. split; [done|]. split.
    + intros x Hx Hy. apply elem_of_list_singleton in Hy as ->. done.
    + apply NoDup_singleton.
  - intros i x m Hx Vx Gx. rewrite map_app. apply elem_of_app.
    apply lookup_app_Some in Hx as [Hx|[L Hx]].
    + left. apply (H3 i x m); try done. rewrite group_at_snoc in Gx; [done|]. apply lookup_lt_Some in Hx. lia.
    + destruct (i - length P)%nat as [|k] eqn:K; [|by destruct k].
      injection Hx as ->. assert (i = length P) as -> by lia.
      rewrite group_at_snoc in Gx by done. right. rewrite G in Gx. injection Gx as ->. left.
  - assert (F : Forall (fun g => (first_index g < length P)%nat) gs).
    { apply Forall_forall. intros g Hg. by apply (first_lt _ _ _ O). }
    clear - H4 F. induction H4 as [|g gs S IH Hg]; cbn.
    + repeat constructor.
    + apply Forall_cons in F as [F1 F2]. constructor; [by apply IH|].
      apply Forall_app. split; [done|]. constructor; [|constructor]. exact F1.
Qed.
Lemma sorted_alter (R : group -> group -> Prop) gs k G G' :
  (forall g, R g G -> R g G') -> (forall g, R G g -> R G' g) ->
  gs !! k = Some G -> StronglySorted R gs -> StronglySorted R (<[k := G']> gs).
Proof.
  intros R1 R2. revert k. induction gs as [|g gs IH]; intros k E S; [done|].
  inversion S as [|? ? S1 S2]; subst. destruct k as [|k]; cbn in *.
  - injection E as ->. constructor; [done|]. eapply Forall_impl; [exact S2|]. done.
  - constructor; [by apply IH|]. apply Forall_insert; [done|]. apply R1.
    rewrite Forall_forall in S2. apply S2. by eapply elem_of_list_lookup_2.
Qed.
Lemma groups_add P o gs n k G a :
  visible o = true -> group_at P (length P) = Some n -> gs !! k = Some G -> g_name G = n ->
  groups_ok P gs ->
  groups_ok (P ++ [o]) (<[k := Group (g_cell G) (g_name G) (g_options G ++ [(a, length P)])]> gs).
Proof.
  intros V GA EG En O. pose proof O as [H1 H2 H3 H4].
  set (G' := Group _ _ _).
  assert (NM : map g_name (<[k := G']> gs) = map g_name gs).
  { change (map g_name (<[k:=G']> gs)) with (g_name <$> <[k:=G']> gs).
    rewrite list_fmap_insert. cbn. apply list_insert_id. by rewrite list_lookup_fmap, EG. }
  pose proof (elem_of_list_lookup_2 _ _ _ EG) as IG. destruct (H1 G IG) as [EG1 EG2].
  split.
  - intros g Hg. rewrite group_positions, V, GA. cbn [andb].
    apply elem_of_list_lookup in Hg as [j Hj]. destruct (decide (j = k)) as [->|Nj].
    + rewrite list_lookup_insert in Hj by (by apply lookup_lt_Some in EG). injection Hj as <-.
      cbn [g_options g_name G']. split; [|by destruct (g_options G)].
      rewrite map_app, EG1, En, bool_decide_true by done. done.
    + rewrite list_lookup_insert_ne in Hj by done.
      destruct (H1 g (elem_of_list_lookup_2 _ _ _ Hj)) as [E1 E2]. split; [|done]. rewrite E1.
      rewrite bool_decide_false; [by rewrite app_nil_r|]. intros [= E]. apply Nj.
      eapply (NoDup_lookup (map g_name gs)); [done| |];
        change (map g_name gs) with (g_name <$> gs); rewrite list_lookup_fmap.
      * rewrite Hj. done.
      * rewrite EG. cbn. congruence.
  - by rewrite NM.
  - intros i x m Hx Vx Gx. rewrite NM. apply lookup_app_Some in Hx as [Hx|[L Hx]].
    + apply (H3 i x m); try done. rewrite group_at_snoc in Gx; [done|]. apply lookup_lt_Some in Hx. lia.
    + destruct (i - length P)%nat as [|j] eqn:K; [|by destruct j].
      injection Hx as ->. assert (i = length P) as -> by lia.
      rewrite group_at_snoc in Gx by done. rewrite GA in Gx. injection Gx as <-.
      rewrite <- En. by apply elem_of_list_fmap_1.
  - assert (FI : first_index G' = first_index G).
    { unfold first_index. cbn. by destruct (g_options G) as [|[? ?] ?]. }
    eapply sorted_alter; [| |exact EG|done]; intros g; by rewrite FI.
Qed.

(** ** Names of groups *)
Lemma find_group_Some gs n k :
  find_group gs n = Some k -> exists G, gs !! k = Some G /\ g_name G = n.
Proof.
  revert k. induction gs as [|g gs IH]; intros k; cbn; [done|].
  destruct (Z.eqb_spec (strcmp (g_name g) n) 0) as [E|E].
  - intros [= <-]. exists g. split; [done|]. by apply strcmp_0.
  - destruct (find_group gs n) as [m|]; [|done]. intros [= <-]. by apply IH.
Qed.
Lemma find_group_None gs n : find_group gs n = None -> n ∉ map g_name gs.
Proof.
  induction gs as [|g gs IH]; cbn; [intros _; apply not_elem_of_nil|].
  destruct (Z.eqb_spec (strcmp (g_name g) n) 0) as [E|E]; [done|].
  destruct (find_group gs n) as [m|]; [done|]. intros _ K. apply elem_of_cons in K as [K|K].
  - apply E. rewrite K. apply strcmp_refl.
  - by apply IH.
Qed.

(** ** Memory of the lists *)
Definition tmp (a : nat) : nat * block := (a, BTmp).
Definition list_cells (l : entries) : cells := map (fun e => tmp (fst e)) l.
Definition group_cells (g : group) : cells := list_cells (g_options g) ++ [tmp (g_cell g)].
Definition data_cells (D : help_data) : cells :=
  concat (map group_cells (hd_groups D)) ++ list_cells (hd_ungrouped D) ++
  list_cells (hd_positionals D) ++ list_cells (hd_subcommands D).

(** Every entry of the lists is an entry of the table, of the right kind. *)
Definition of_kind_at (ty : optype) (T : list opt) (e : nat * nat) : Prop :=
  exists o, T !! snd e = Some o /\ entry_is ty o = true.
Record sane (T : list opt) (D : help_data) : Prop := {
  sn_groups : Forall (fun g => Forall (of_kind_at TOption T) (g_options g)) (hd_groups D);
  sn_ungrouped : Forall (of_kind_at TOption T) (hd_ungrouped D);
  sn_positionals : Forall (of_kind_at TPositional T) (hd_positionals D);
  sn_subcommands : Forall (of_kind_at TSubcommand T) (hd_subcommands D);
}.

Section org.
Context {b : bool}.
Notation tr := (triple b).

Lemma t_add_list E l i :
  tr E (add_option_to_list l i) (fun l' u E' => u = [] /\
    ((b = false /\ l' = l /\ E' = E) \/ exists a, l' = l ++ [(a, i)] /\ E' = tmp a :: E)).
Proof.
  unfold add_option_to_list. eapply t_bind; [apply t_malloc|].
  intros p u E' [-> [(Eb & -> & ->)|(a & -> & ->)]]; apply t_ret; (split; [done|]); [by left|right].
  by exists a.
Qed.
Lemma list_cells_snoc l a i : list_cells (l ++ [(a, i)]) = list_cells l ++ [tmp a].
Proof. unfold list_cells. by rewrite map_app. Qed.

Lemma concat_alter gs k G G' x :
  gs !! k = Some G -> Permutation (group_cells G') (x :: group_cells G) ->
  Permutation (concat (map group_cells (<[k := G']> gs))) (x :: concat (map group_cells gs)).
Proof.
  revert k. induction gs as [|g gs IH]; intros k E P; [done|]. destruct k as [|k]; cbn in *.
  - injection E as ->. rewrite P. done.
  - rewrite (IH k E P). symmetry. apply Permutation_middle.
Qed.

(** What holds after the entries [P] of table [T] have been treated. *)
Record state_ok (T P : list opt) (current : option cstr) (cached : option nat) (D : help_data) : Prop := {
  so_sane : sane T D;
  so_current : current = group_at P (length P);
  so_cached : forall k, cached = Some k -> exists G n, hd_groups D !! k = Some G /\ current = Some n /\ g_name G = n;
  so_exact : b = true ->
    map snd (hd_positionals D) = positions (fun _ => entry_is TPositional) P /\
    map snd (hd_subcommands D) = positions (fun _ => entry_is TSubcommand) P /\
    map snd (hd_ungrouped D) = positions (in_group P None) P /\
    groups_ok P (hd_groups D);
}.
Lemma same_positions f P o : f o = false ->
  positions (fun _ => f) (P ++ [o]) = positions (fun _ => f) P.
Proof. intros E. rewrite (positions_snoc _ (fun _ => f)) by done. by rewrite E, app_nil_r. Qed.
Lemma more_positions f P o : f o = true ->
  positions (fun _ => f) (P ++ [o]) = positions (fun _ => f) P ++ [length P].
Proof. intros E. rewrite (positions_snoc _ (fun _ => f)) by done. by rewrite E. Qed.
Lemma hidden_group P o n : visible o = false ->
  positions (in_group (P ++ [o]) n) (P ++ [o]) = positions (in_group P n) P.
Proof. intros V. by rewrite group_positions, V, app_nil_r. Qed.
Lemma next_group P o : is_group o = false -> group_at (P ++ [o]) (length (P ++ [o])) = group_at P (length P).
Proof. intros G. rewrite app_length. cbn. rewrite Nat.add_1_r, group_at_end, G. done. Qed.

Lemma visible_of o : d_type (decl_of o) = TOption ->
  visible o = negb (has (d_flags (decl_of o)) FLAG_HIDDEN).
Proof.
  intros E. unfold visible, entry_is. rewrite E. cbn. f_equal.
  apply eq_true_iff_eq. change FLAG_HIDDEN with (2 ^ 1)%N. by rewrite has_bit.
Qed.
Lemma not_visible o : d_type (decl_of o) <> TOption -> visible o = false.
Proof. intros N. unfold visible, entry_is. by destruct (d_type (decl_of o)). Qed.

Definition org_post (T : list opt) (D : help_data) (u : cstr) (E : cells) : Prop :=
  u = [] /\ Permutation E (data_cells D) /\ sane T D /\ (b = true -> organized T D).

Lemma t_organize T rest : forall P current cached D E,
  T = P ++ rest -> (b = true \/ Forall (fun o => is_group o = false) T) ->
  state_ok T P current cached D -> Permutation E (data_cells D) ->
  tr E (organize_from rest (length P) current cached D) (org_post T).
Proof.
  induction rest as [|o rest IH]; intros P current cached D E ET SAFE SO PE.
  { cbn. apply t_ret. rewrite app_nil_r in ET. subst P. destruct SO as [S C K X]. split_and!; try done.
    intros Eb. destruct (X Eb) as (X1 & X2 & X3 & [Y1 Y2 Y3 Y4]). by split. }
  assert (ET' : T = (P ++ [o]) ++ rest) by (by rewrite <- app_assoc).
  assert (LP : length (P ++ [o]) = S (length P)) by (rewrite app_length; cbn; lia).
  assert (TO : T !! length P = Some o).
  { rewrite ET. rewrite lookup_app_r, Nat.sub_diag by lia. done. }
  pose proof SO as [S C K X].
  cbn [organize_from]. rewrite <- LP.
  destruct (d_type (decl_of o)) eqn:Ety.
  - (* option *)
    assert (NG : is_group o = false) by (unfold is_group; by rewrite Ety).
    destruct (has (d_flags (decl_of o)) FLAG_HIDDEN) eqn:Eh.
    + assert (V : visible o = false) by (rewrite visible_of by done; by rewrite Eh).
      apply IH; try done. split; try done.
      * by rewrite next_group.
      * intros Eb. destruct (X Eb) as (X1 & X2 & X3 & X4).
        rewrite !same_positions by (unfold entry_is; by rewrite Ety).
        rewrite hidden_group by done. split_and!; try done. apply groups_keep; [congruence|done].
    + assert (V : visible o = true) by (rewrite visible_of by done; by rewrite Eh).
      assert (KO : forall a, of_kind_at TOption T (a, length P)).
      { intros a. exists o. split; [done|]. unfold entry_is. by rewrite Ety. }
      destruct current as [n|].
      * (* in a group *)
        assert (b = true) as Eb.
        { destruct SAFE as [?|F]; [done|exfalso]. 
          assert (N : Forall (fun o => is_group o = false) P).
          { rewrite ET in F. by apply Forall_app in F as [F _]. }
          unfold group_at in C. rewrite take_ge in C by lia.
          assert (List.filter is_group P = []) as Z.
          { clear - N. induction N as [|x l Hx N IHN]; [done|]. cbn. by rewrite Hx. }
          rewrite Z in C. done. }
        destruct (X Eb) as (X1 & X2 & X3 & X4).
        assert (FIND : tr E (match cached with
                           | Some k => dret (Some k, D)
                           | None => find_or_create_group D n
                           end)
          (fun r u E' => u = [] /\ exists k D', r = (Some k, D') /\ 
             ((D' = D /\ E' = E /\ exists G, hd_groups D !! k = Some G /\ g_name G = n) \/
              (exists a, n ∉ map g_name (hd_groups D) /\ k = length (hd_groups D) /\
                 E' = tmp a :: E /\
                 D' = HelpData (hd_groups D ++ [Group a n []]) (hd_ungrouped D) (hd_positionals D)
                        (hd_subcommands D))))).
        { destruct cached as [k|].
          - apply t_ret. split; [done|]. exists k, D. split; [done|]. left. split_and!; try done.
            destruct (K k eq_refl) as (G & m & EG & [= <-] & EN). by exists G.
          - unfold find_or_create_group. destruct (find_group (hd_groups D) n) as [k|] eqn:EF.
            + apply t_ret. split; [done|]. exists k, D. split; [done|]. left. split_and!; try done.
              by apply find_group_Some.
            + eapply t_bind; [apply t_malloc|]. intros p u E' [-> [(Eb' & _)|(a & -> & ->)]]; [congruence|].
              apply t_ret. split; [done|]. eexists _, _. split; [done|]. right. exists a.
              split_and!; try done. by apply find_group_None. }
        eapply t_bind; [exact FIND|]. clear FIND.
        intros r u E' [-> (k & D1 & -> & HD1)]. cbn [fst snd app].
        assert (ADD : exists G, hd_groups D1 !! k = Some G /\ g_name G = n /\ 
          hd_ungrouped D1 = hd_ungrouped D /\ hd_positionals D1 = hd_positionals D /\
          hd_subcommands D1 = hd_subcommands D /\ Permutation E' (data_cells D1) /\
          Forall (fun g => Forall (of_kind_at TOption T) (g_options g)) (hd_groups D1) /\
          (k < length (hd_groups D1))%nat /\
          forall a, groups_ok (P ++ [o])
            (<[k := Group (g_cell G) (g_name G) (g_options G ++ [(a, length P)])]> (hd_groups D1))).
        { destruct HD1 as [(-> & -> & G & EG & EN)|(a & NI & -> & -> & ->)].
          - exists G. split_and!; try done; [apply S|by apply lookup_lt_Some in EG|].
            intros a. by apply (groups_add P o _ n).
          - exists (Group a n []). cbn [hd_groups hd_ungrouped hd_positionals hd_subcommands].
            rewrite lookup_app_r, Nat.sub_diag, app_length by lia. split_and!; try done.
            + unfold data_cells. cbn [hd_groups hd_ungrouped hd_positionals hd_subcommands].
              rewrite map_app, concat_app, PE. unfold data_cells. cbn. rewrite <- app_assoc. cbn.
              apply Permutation_middle.
            + apply Forall_app. split; [apply S|]. constructor; [constructor|constructor].
            + cbn. lia.
            + intros a'. cbn [g_cell g_name g_options app].
              rewrite insert_app_r_alt, Nat.sub_diag by lia. cbn [insert list_insert].
              by apply groups_new. }
        destruct ADD as (G & EG & EN & U1 & U2 & U3 & PE1 & SG & Lk & GO).
        unfold add_to_group.
        eapply t_bind with (Q := fun D2 u E2 => u = [] /\ exists a, E2 = tmp a :: E' /\
               D2 = HelpData (<[k := Group (g_cell G) (g_name G) (g_options G ++ [(a, length P)])]> (hd_groups D1))
                      (hd_ungrouped D1) (hd_positionals D1) (hd_subcommands D1)).
        { eapply t_bind with (Q := fun x u E2 => x = G /\ u = [] /\ E2 = E').
          - apply t_lift. unfold cell. by rewrite EG.
          - intros ? u E2 (-> & -> & ->). eapply t_bind; [apply t_add_list|].
            intros l' u E2 [-> [(Eb' & _)|(a & -> & ->)]]; [congruence|].
            apply t_ret. split; [done|]. by exists a. }
        intros D2 u E2 [-> (a & -> & ->)].
        apply IH; try done.
        -- split; cbn [hd_groups hd_ungrouped hd_positionals hd_subcommands].
           ++ split; cbn [hd_groups hd_ungrouped hd_positionals hd_subcommands].
              ** apply Forall_insert; [done|]. cbn. apply Forall_app. split; [|by repeat constructor].
                 rewrite Forall_forall in SG. apply SG. by eapply elem_of_list_lookup_2.
              ** rewrite U1. apply S.
              ** rewrite U2. apply S.
              ** rewrite U3. apply S.
           ++ by rewrite next_group.
           ++ intros k' [= <-]. eexists _, n. rewrite list_lookup_insert by done. done.
           ++ intros _. rewrite U1, U2, U3.
              rewrite !same_positions by (unfold entry_is; by rewrite Ety).
              rewrite group_positions, V, <- C. cbn. rewrite app_nil_r. done.
        -- unfold data_cells. cbn [hd_groups hd_ungrouped hd_positionals hd_subcommands].
           rewrite (concat_alter _ k G _ (tmp a) EG).
           ++ rewrite PE1. done.
           ++ unfold group_cells. cbn [g_options g_cell]. rewrite list_cells_snoc, <- app_assoc.
              cbn. symmetry. apply Permutation_middle.
      * (* without a group *)
        eapply t_bind; [apply t_add_list|]. intros l' u E' [-> HL].
        assert (S' : sane T (HelpData (hd_groups D) l' (hd_positionals D) (hd_subcommands D))).
        { destruct S as [S1 S2 S3 S4]. split; try done. cbn.
          destruct HL as [(_ & -> & _)|(a & -> & _)]; [done|]. apply Forall_app. split; [done|]. by repeat constructor. }
        apply IH; try done.
        -- split; cbn [hd_groups hd_ungrouped hd_positionals hd_subcommands]; try done.
           ++ by rewrite next_group.
           ++ intros Eb. destruct (X Eb) as (X1 & X2 & X3 & X4).
              rewrite !same_positions by (unfold entry_is; by rewrite Ety).
              rewrite group_positions, V, <- C. cbn.
              destruct HL as [(Eb' & _)|(a & -> & _)]; [congruence|].
              rewrite map_app, X3. split_and!; try done. by apply groups_keep.
        -- unfold data_cells in *. cbn [hd_groups hd_ungrouped hd_positionals hd_subcommands].
           destruct HL as [(_ & -> & ->)|(a & -> & ->)]; [done|].
           rewrite list_cells_snoc, PE. rewrite <- !app_assoc. cbn.
           rewrite !app_assoc. rewrite <- !app_assoc.
           rewrite (app_assoc _ (list_cells (hd_ungrouped D)) (tmp a :: _)), <- Permutation_middle.
           by rewrite <- app_assoc.
  - (* group *)
    assert (V : visible o = false) by (apply not_visible; congruence).
    apply IH; try done. split; try done.
    + rewrite LP, group_at_end. unfold is_group. by rewrite Ety.
    + intros Eb. destruct (X Eb) as (X1 & X2 & X3 & X4).
      rewrite !same_positions by (unfold entry_is; by rewrite Ety).
      rewrite hidden_group by done. split_and!; try done. apply groups_keep; [congruence|done].
  - (* positional *)
    assert (V : visible o = false) by (apply not_visible; congruence).
    assert (NG : is_group o = false) by (unfold is_group; by rewrite Ety).
    eapply t_bind; [apply t_add_list|]. intros l' u E' [-> HL]. apply IH; try done.
    + split; cbn [hd_groups hd_ungrouped hd_positionals hd_subcommands]; try done.
      * destruct S as [S1 S2 S3 S4]. split; try done. cbn.
        destruct HL as [(_ & -> & _)|(a & -> & _)]; [done|]. apply Forall_app. split; [done|].
        repeat constructor. exists o. split; [done|]. unfold entry_is. by rewrite Ety.
      * by rewrite next_group.
      * intros Eb. destruct (X Eb) as (X1 & X2 & X3 & X4).
        rewrite (same_positions (entry_is TSubcommand)) by (unfold entry_is; by rewrite Ety).
        rewrite more_positions by (unfold entry_is; by rewrite Ety).
        rewrite hidden_group by done.
        destruct HL as [(Eb' & _)|(a & -> & _)]; [congruence|].
        rewrite map_app, X1. split_and!; try done. apply groups_keep; [congruence|done].
    + unfold data_cells in *. cbn [hd_groups hd_ungrouped hd_positionals hd_subcommands].
      destruct HL as [(_ & -> & ->)|(a & -> & ->)]; [done|].
      rewrite list_cells_snoc, PE. rewrite <- !app_assoc. cbn.
      rewrite !app_assoc. by rewrite <- Permutation_middle, <- !app_assoc.
  - (* subcommand *)
    assert (V : visible o = false) by (apply not_visible; congruence).
    assert (NG : is_group o = false) by (unfold is_group; by rewrite Ety).
    eapply t_bind; [apply t_add_list|]. intros l' u E' [-> HL]. apply IH; try done.
    + split; cbn [hd_groups hd_ungrouped hd_positionals hd_subcommands]; try done.
      * destruct S as [S1 S2 S3 S4]. split; try done. cbn.
        destruct HL as [(_ & -> & _)|(a & -> & _)]; [done|]. apply Forall_app. split; [done|].
        repeat constructor. exists o. split; [done|]. unfold entry_is. by rewrite Ety.
      * by rewrite next_group.
      * intros Eb. destruct (X Eb) as (X1 & X2 & X3 & X4).
        rewrite (same_positions (entry_is TPositional)) by (unfold entry_is; by rewrite Ety).
        rewrite more_positions by (unfold entry_is; by rewrite Ety).
        rewrite hidden_group by done.
        destruct HL as [(Eb' & _)|(a & -> & _)]; [congruence|].
        rewrite map_app, X2. split_and!; try done. apply groups_keep; [congruence|done].
    + unfold data_cells in *. cbn [hd_groups hd_ungrouped hd_positionals hd_subcommands].
      destruct HL as [(_ & -> & ->)|(a & -> & ->)]; [done|].
      rewrite list_cells_snoc, PE. rewrite !app_assoc. cbn.
      by rewrite <- Permutation_cons_append.
Qed.
Lemma t_organize_options T :
  (b = true \/ Forall (fun o => is_group o = false) T) ->
  tr [] (organize_options T) (org_post T).
Proof.
  intros SAFE. apply (t_organize T T [] None None (HelpData [] [] [] []) []); try done.
  split; try done.
  - split; constructor.
  - intros _. split_and!; try done. split; try done; try (by constructor).
    intros g Hg. by apply elem_of_nil in Hg.
Qed.

(** ** Releasing the lists *)
Lemma t_free_entries l : forall F,
  tr (list_cells l ++ F) (free_entries l) (fun _ u E => u = [] /\ E = F).
Proof.
  induction l as [|[a i] l IH]; intros F; cbn; [by apply t_ret|].
  eapply t_bind; [apply t_free|]. intros [] u E [-> ->]. apply IH.
Qed.
Lemma t_free_groups gs : forall F,
  tr (concat (map group_cells gs) ++ F) (free_groups gs) (fun _ u E => u = [] /\ E = F).
Proof.
  induction gs as [|g gs IH]; intros F; cbn [map concat free_groups]; [by apply t_ret|].
  unfold group_cells at 1. rewrite <- !app_assoc.
  eapply t_bind; [apply t_free_entries|]. intros [] u E [-> ->]. cbn [app].
  eapply t_bind; [apply t_free|]. intros [] u E [-> ->]. apply IH.
Qed.
Lemma t_free_data D E F :
  Permutation E (data_cells D ++ F) -> tr E (free_help_data D) (fun _ u E' => u = [] /\ E' = F).
Proof.
  intros P. apply (t_perm _ _ _ _ P). unfold data_cells, free_help_data. rewrite <- !app_assoc.
  eapply t_bind; [apply t_free_groups|]. intros [] u E' [-> ->].
  eapply t_bind; [apply t_free_entries|]. intros [] u E' [-> ->].
  eapply t_bind; [apply t_free_entries|]. intros [] u E' [-> ->].
  eapply t_conseq; [apply t_free_entries|]. intros [] u E' [-> ->]. done.
Qed.
End org.
