(** * Cutting list texts, and walking over the pieces *)
From Coq Require Import Lia.
From stdpp Require Import sets.
From Verif Require Import Api LibProofs FrameProofs SpecGrammar SpecAfter SpecMemory HeapProofs.

(** ** Words of a text *)
Definition sepr (cs : cstr) (c : ascii) : Prop := c ∈ cs.
Lemma in_set_spec cs c : in_set cs c = true <-> sepr cs c.
Proof.
  unfold in_set, sepr. induction cs as [|x cs IH]; simpl.
  - split; [done|]. intros []%elem_of_nil.
  - destruct (Ascii.eqb_spec x c) as [->|Hne].
    + split; [intros _; left|done].
    + rewrite elem_of_cons. destruct (strchr cs c); naive_solver.
Qed.
Lemma in_set_false cs c : in_set cs c = false <-> ~ sepr cs c.
Proof. rewrite <- in_set_spec. destruct (in_set cs c); naive_solver. Qed.

Definition at_break (cs rest : cstr) : Prop := match rest with [] => True | c :: _ => sepr cs c end.
Lemma skip_parts s cs : exists g r, s = g ++ r /\ Forall (sepr cs) g /\ skip_charset s cs = length g /\
  match r with [] => True | c :: _ => ~ sepr cs c end.
Proof.
  induction s as [|c s (g & r & -> & Hg & Hk & Hr)]; simpl.
  - by exists [], [].
  - destruct (in_set cs c) eqn:E.
    + exists (c :: g), r. split_and!; [done| |simpl; congruence|done]. constructor; [by apply in_set_spec|done].
    + exists [], (c :: g ++ r). split_and!; [done|constructor|done|]. by apply in_set_false.
Qed.
Lemma word_parts s cs : exists w r, s = w ++ r /\ Forall (fun c => ~ sepr cs c) w /\ word_len s cs = length w /\
  at_break cs r.
Proof.
  induction s as [|c s (w & r & -> & Hg & Hk & Hr)]; simpl.
  - by exists [], [].
  - destruct (in_set cs c) eqn:E.
    + exists [], (c :: w ++ r). split_and!; [done|constructor|done|]. by apply in_set_spec.
    + exists (c :: w), r. split_and!; [done| |simpl; congruence|done]. constructor; [by apply in_set_false|done].
Qed.
Lemma count_gap g r cs : Forall (sepr cs) g -> count_words (g ++ r) cs = count_words r cs.
Proof.
  unfold count_words. induction 1 as [|c g Hc Hg IH]; simpl; [done|]. apply in_set_spec in Hc. by rewrite Hc.
Qed.
Lemma count_in_word w r cs : Forall (fun c => ~ sepr cs c) w -> at_break cs r ->
  count_words_from true (w ++ r) cs = count_words r cs.
Proof.
  intros Hw Hr. induction Hw as [|c w Hc Hw IH]; simpl.
  - destruct r as [|c r]; [done|]. unfold count_words. simpl. simpl in Hr. apply in_set_spec in Hr. by rewrite Hr.
  - apply in_set_false in Hc. by rewrite Hc.
Qed.
Lemma count_word w r cs : w <> [] -> Forall (fun c => ~ sepr cs c) w -> at_break cs r ->
  count_words (w ++ r) cs = S (count_words r cs).
Proof.
  intros Hne Hw Hr. destruct Hw as [|c w Hc Hw]; [done|]. unfold count_words at 1. simpl.
  apply in_set_false in Hc. rewrite Hc. f_equal. by apply count_in_word.
Qed.
Lemma count_zero s cs : count_words s cs = O -> Forall (sepr cs) s.
Proof.
  intros E. destruct (skip_parts s cs) as (g & r & -> & Hg & _ & Hr).
  destruct r as [|c r]; [by rewrite app_nil_r|]. exfalso.
  rewrite count_gap in E by done. unfold count_words in E. simpl in E.
  apply in_set_false in Hr. by rewrite Hr in E.
Qed.
(** One step of the loop of split. *)
Lemma split_step s cs n : count_words s cs = S n -> exists g w r, s = g ++ w ++ r /\ Forall (sepr cs) g /\
  w <> [] /\ Forall (fun c => ~ sepr cs c) w /\ at_break cs r /\ count_words r cs = n /\
  drop (skip_charset s cs) s = w ++ r /\ word_len (w ++ r) cs = length w.
Proof.
  intros E. destruct (skip_parts s cs) as (g & r0 & -> & Hg & Hk & Hr0).
  destruct (word_parts r0 cs) as (w & r & -> & Hw & Hl & Hr).
  exists g, w, r. assert (Hne : w <> []).
  { intros ->. simpl in *. rewrite count_gap in E by done. destruct r as [|c r]; [done|].
    simpl in *. done. }
  rewrite count_gap, count_word in E by done. injection E as <-. split_and!; try done.
  rewrite Hk. by rewrite drop_app.
Qed.

(** ** Releasing the cells of an array *)
Section free.
Variables (o : opt) (lg : list event).

Lemma moves_oom fp h fp' h' h'' : bl h'' = bl h' -> moves fp h fp' h' -> moves fp h fp' h''.
Proof. intros E [L F O V]. split; try rewrite E; auto. Qed.
Lemma moves_oom_l fp h h0 fp' h' : bl h0 = bl h -> moves fp h fp' h' -> moves fp h0 fp' h'.
Proof. intros E [L F O V]. split; try rewrite E; auto. Qed.

Lemma free_cells_spec p cells ls : forall i h,
  bl h !! p = Some (Some (BArr cells)) -> NoDup (p :: ls) ->
  (forall l, l ∈ ls -> exists b, bl h !! l = Some (Some b)) ->
  (forall k l, ls !! k = Some l -> cells !! (i + k)%nat = Some (PHeap l)) ->
  runs (free_cells (PHeap p) i (length ls)) (Hst o h lg) (fun _ s' => exists h',
    s' = Hst o h' lg /\ moves ls h [] h' /\ oom h' = oom h).
Proof.
  induction ls as [|l ls IH]; intros i h Hp HD HL HC; simpl.
  - apply runs_ret. exists h. split; [done|]. split; [apply moves_refl|done].
  - apply runs_bind. unfold arr_read. apply runs_bind. eapply runs_deref_arr; [done|].
    pose proof (HC 0%nat l eq_refl) as Hx. rewrite Nat.add_0_r in Hx.
    eapply runs_lift; [unfold cell; by rewrite Hx|]. apply runs_bind.
    destruct (HL l) as [b Hb]; [left|]. eapply runs_free; [done|].
    apply NoDup_cons in HD as [HD1 HD2]. apply NoDup_cons in HD2 as [HD2 HD3].
    assert (Hpl : l <> p) by (intros ->; set_solver).
    eapply runs_mono; [apply (IH (S i) (put_block h l None))|].
    + by rewrite put_other.
    + apply NoDup_cons. split; [set_solver|done].
    + intros l' Hl'. rewrite put_other by (by intros <-). apply HL. set_solver.
    + intros k l' Hk. rewrite <- (HC (S k) l' Hk). f_equal. lia.
    + intros _ s' (h' & -> & M & Hoom). exists h'. split; [done|]. split; [|done].
      eapply moves_trans; [|exact M].
      eapply (moves_in ls); [by eapply moves_free|set_solver|set_solver|].
      intros l' Hl'. split; [intros ->%elem_of_list_singleton; done|].
      destruct (HL l') as [b' Hb']; [set_solver|]. by eapply live_lt.
Qed.

Lemma free_words_spec rest ls : forall h, NoDup ls ->
  (forall l, l ∈ ls -> exists b, bl h !! l = Some (Some b)) ->
  runs (free_words (map PHeap ls ++ VNull :: rest)) (Hst o h lg) (fun _ s' => exists h',
    s' = Hst o h' lg /\ moves ls h [] h' /\ oom h' = oom h).
Proof.
  induction ls as [|l ls IH]; intros h HD HL; cbn [map app free_words].
  - apply runs_bind. eapply runs_lift; [reflexivity|]. apply runs_ret. exists h. split; [done|].
    split; [apply moves_refl|done].
  - apply runs_bind. eapply runs_lift; [reflexivity|]. apply runs_bind.
    destruct (HL l) as [b Hb]; [left|]. eapply runs_free; [done|]. apply NoDup_cons in HD as [HD1 HD2].
    eapply runs_mono; [apply IH; [done|]|].
    + intros l' Hl'. rewrite put_other by (by intros <-). apply HL. set_solver.
    + intros _ s' (h' & -> & M & Hoom). exists h'. split; [done|]. split; [|done].
      eapply moves_trans; [|exact M].
      eapply (moves_in ls); [by eapply moves_free|set_solver|set_solver|].
      intros l' Hl'. split; [intros ->%elem_of_list_singleton; done|].
      destruct (HL l') as [b' Hb']; [set_solver|]. by eapply live_lt.
Qed.
End free.

(** ** split *)
Lemma runs_malloc_any b o h lg (Q : option nat -> hst -> Prop) :
  (forall om, (oom h = [] -> om = []) -> Q (Some (length (bl h))) (Hst o (Heap (bl h ++ [Some b]) om) lg)) ->
  (oom h <> [] -> forall om, Q None (Hst o (Heap (bl h) om) lg)) ->
  runs (hmalloc b) (Hst o h lg) Q.
Proof.
  intros HS HN. unfold runs, hmalloc, malloc. simpl. destruct (oom h) as [|[] om] eqn:E.
  - eexists _, _. split; [done|]. by apply HS.
  - eexists _, _. split; [done|]. by apply HN.
  - eexists _, _. split; [done|]. by apply HS.
Qed.

(** The block list holds the given texts at the given addresses. *)
Definition texts_at (h : heap) (ls : list nat) (ws : list cstr) : Prop :=
  Forall2 (fun l w => bl h !! l = Some (Some (BStr w))) ls ws.
Lemma texts_at_ext h h' ls ws : (forall l, l ∈ ls -> bl h' !! l = bl h !! l) -> texts_at h ls ws -> texts_at h' ls ws.
Proof.
  intros E HF. induction HF as [|l w ls ws Hl HF IH]; constructor.
  - rewrite E; [done|left].
  - apply IH. intros l' Hl'. apply E. by right.
Qed.
Lemma texts_at_live h ls ws l : texts_at h ls ws -> l ∈ ls -> exists b, bl h !! l = Some (Some b).
Proof.
  intros HF Hl. apply elem_of_list_lookup in Hl as (i & Hi).
  destruct (Forall2_lookup_l _ _ _ _ _ HF Hi) as (w & _ & Hw). eauto.
Qed.

Lemma split_loop_spec o lg p cs n : forall tmp ls ws0 h k,
  bl h !! p = Some (Some (BArr (map PHeap ls ++ replicate (S n) Indet))) -> NoDup (p :: ls) ->
  k = length ls -> texts_at h ls ws0 -> count_words tmp cs = n ->
  runs (split_loop (PHeap p) tmp cs k n) (Hst o h lg) (fun ok s' => exists h', s' = Hst o h' lg /\
    (oom h = [] -> ok = true /\ oom h' = []) /\
    if ok then exists ls' ws, cut (sepr cs) tmp ws /\ NoDup (p :: ls ++ ls') /\
      bl h' !! p = Some (Some (BArr (map PHeap (ls ++ ls') ++ [Indet]))) /\
      texts_at h' (ls ++ ls') (ws0 ++ ws) /\ length ls' = n /\ moves (p :: ls) h (p :: ls ++ ls') h'
    else moves (p :: ls) h [] h').
Proof.
  induction n as [|n IH]; intros tmp ls ws0 h k Hp HD -> HT Hn; simpl.
  - apply runs_ret. exists h. split; [done|]. split; [done|]. exists [], []. rewrite !app_nil_r.
    split; [constructor; by apply count_zero|]. split; [done|]. split; [done|]. split; [done|]. split; [done|].
    apply moves_refl.
  - destruct (split_step _ _ _ Hn) as (g & w & r & -> & Hg & Hne & Hw & Hr & Hn' & Hd & Hwl).
    rewrite Hd, Hwl, take_app, drop_app.
    assert (Hpl : (p < length (bl h))%nat) by (by eapply live_lt).
    assert (Hlt : forall l, l ∈ ls -> (l < length (bl h))%nat).
    { intros l Hl. destruct (texts_at_live _ _ _ _ HT Hl) as [b Hb]. by eapply live_lt. }
    apply runs_bind. apply runs_malloc_any.
    + intros om Hom. set (h1 := Heap (bl h ++ [Some (BStr w)]) om). set (l := length (bl h)).
      assert (B1 : bl h1 = bl (add_block h (BStr w))) by done.
      unfold arr_write. apply runs_bind. apply runs_bind. eapply runs_deref_arr; [rewrite B1; by apply add_live|].
      apply runs_bind. eapply runs_lift.
      { unfold set_cell. rewrite lookup_app_r by (rewrite map_length; lia). rewrite map_length, Nat.sub_diag. simpl. reflexivity. }
      eapply runs_store; [rewrite B1; by apply add_live|].
      rewrite insert_app_r_alt by (rewrite map_length; lia). rewrite map_length, Nat.sub_diag. simpl insert.
      set (h2 := put_block h1 p (Some (BArr (map PHeap ls ++ PHeap l :: replicate (S n) Indet)))).
      assert (M2 : moves (p :: ls) h (p :: ls ++ [l]) h2).
      { apply moves_trans with (fp2 := (p :: ls) ++ [l]) (h2 := h1); [eapply (moves_in (p :: ls)); [eapply moves_oom; [exact B1|apply moves_add]|set_solver|set_solver|]|].
        - intros l' Hl'. split; [set_solver|]. apply elem_of_cons in Hl' as [->|]; auto.
        - eapply (moves_in (ls ++ [l])); [eapply (moves_put h1 p); rewrite B1; by apply add_live|set_solver|set_solver|].
          apply NoDup_cons in HD as [HD _]. intros l' Hl'. split.
          + intros ->%elem_of_list_singleton. apply elem_of_app in Hl' as [|Hl']; [done|].
            apply elem_of_list_singleton in Hl'. unfold l in Hl'. lia.
          + rewrite B1, add_len. apply elem_of_app in Hl' as [Hl'|Hl'].
            * apply Hlt in Hl'. lia.
            * apply elem_of_list_singleton in Hl' as ->. unfold l. lia. }
      assert (HT2 : texts_at h2 (ls ++ [l]) (ws0 ++ [w])).
      { apply Forall2_app.
        - eapply texts_at_ext; [|done]. intros l' Hl'. unfold h2. rewrite put_other.
          + rewrite B1. apply add_other. auto.
          + intros <-. by apply NoDup_cons in HD as [HD _].
        - constructor; [|constructor]. unfold h2. rewrite put_other by (unfold l; lia). rewrite B1. apply add_same. }
      eapply runs_mono; [apply (IH r (ls ++ [l]) (ws0 ++ [w]) h2)|].
      * unfold h2. erewrite put_same by (rewrite B1; by apply add_live). rewrite map_app, <- app_assoc. done.
      * apply NoDup_cons in HD as [HD1 HD2]. apply NoDup_cons. split.
        -- rewrite elem_of_app, elem_of_list_singleton. unfold l. intros [|]; [done|lia].
        -- apply NoDup_app. split; [done|]. split; [|apply NoDup_singleton].
           intros l' Hl' Hx. apply elem_of_list_singleton in Hx. apply Hlt in Hl'. unfold l in Hx. lia.
      * rewrite app_length. simpl. lia.
      * done.
      * done.
      * intros ok s' (h' & -> & Hom' & Hres). exists h'. split; [done|]. split; [intros Hx; apply Hom'; by apply Hom|].
        destruct ok.
        -- destruct Hres as (ls' & ws & Hcut & HD' & Hp' & HT' & Hl' & M').
           rewrite <- !app_assoc in *. simpl in *.
           exists (l :: ls'), (w :: ws). split; [by econstructor|]. split; [done|]. split; [done|]. split; [done|].
           split; [simpl; lia|]. eapply moves_trans; done.
        -- eapply moves_trans; done.
    + intros Hne' om. unfold cleanup_split. apply runs_bind. apply runs_bind.
      set (h1 := Heap (bl h) om).
      eapply runs_mono; [apply (free_cells_spec o lg p (map PHeap ls ++ replicate (S (S n)) Indet) ls 0 h1); [exact Hp|done|..]|].
      * intros l Hl. by eapply texts_at_live.
      * intros j l Hj. rewrite lookup_app_l by (rewrite map_length; by eapply lookup_lt_Some).
        simpl. rewrite list_lookup_fmap, Hj. done.
      * intros _ s' (h' & -> & M & _). eapply runs_free.
        { eapply moves_other; [exact M|by apply NoDup_cons in HD as [HD _]|exact Hp]. }
        apply runs_ret. eexists. split; [done|]. split; [done|].
        assert (Hp' : bl h' !! p = Some (Some (BArr (map PHeap ls ++ replicate (S (S n)) Indet)))).
        { eapply moves_other; [exact M|by apply NoDup_cons in HD as [HD _]|exact Hp]. }
        apply moves_trans with (fp2 := [p]) (h2 := h'); [apply moves_oom_l with (h := h1); [done|]; eapply (moves_in [p]); [exact M|set_solver|set_solver|]|].
        -- intros l ->%elem_of_list_singleton. split; [by apply NoDup_cons in HD as [HD _]|done].
        -- eapply moves_free; exact Hp'.
Qed.

(** Every outcome of split: the pieces in memory, or nothing left behind. *)
Lemma split_spec s cs o h lg :
  runs (split s cs) (Hst o h lg) (fun r s' => exists h', s' = Hst o h' lg /\
    (oom h = [] -> r <> None /\ oom h' = []) /\
    match r with
    | None => moves [] h [] h'
    | Some x => exists p ls ws, x = PHeap p /\ cut (sepr cs) s ws /\ NoDup (p :: ls) /\
        bl h' !! p = Some (Some (BArr (map PHeap ls ++ [VNull]))) /\ texts_at h' ls ws /\
        moves [] h (p :: ls) h'
    end).
Proof.
  unfold split. apply runs_bind. apply runs_malloc_any.
  - intros om Hom. set (n := count_words s cs). set (h1 := Heap (bl h ++ [Some (BArr (replicate (n + 1) Indet))]) om).
    assert (B1 : bl h1 = bl (add_block h (BArr (replicate (n + 1) Indet)))) by done.
    apply runs_bind. eapply runs_mono; [apply (split_loop_spec o lg (length (bl h)) cs n s [] [] h1 0)|].
    + rewrite B1, add_same. by rewrite Nat.add_1_r.
    + apply NoDup_singleton.
    + done.
    + constructor.
    + done.
    + assert (M1 : moves [] h [length (bl h)] h1) by (eapply moves_oom; [exact B1|apply moves_add]).
      intros ok s' (h' & -> & Hom' & Hres). destruct ok.
      * destruct Hres as (ls & ws & Hcut & HD & Hp & HT & Hl & M). simpl in *.
        apply runs_bind. unfold arr_write. apply runs_bind. eapply runs_deref_arr; [done|].
        apply runs_bind. eapply runs_lift.
        { unfold set_cell. rewrite lookup_app_r by (rewrite map_length; lia). rewrite map_length, Hl.
          fold n. rewrite Nat.sub_diag. reflexivity. }
        eapply runs_store; [done|]. apply runs_ret. eexists. split; [done|]. split.
        { intros Hx. split; [done|]. simpl. apply Hom'. by apply Hom. }
        exists (length (bl h)), ls, ws. split; [done|]. split; [done|]. split; [done|].
        fold n. rewrite insert_app_r_alt by (rewrite map_length; lia). rewrite map_length, Hl, Nat.sub_diag. cbn [insert list_insert].
        split; [by eapply put_same|]. apply NoDup_cons in HD as [HD1 HD2]. split.
        -- eapply texts_at_ext; [|done]. intros l Hi. apply put_other. by intros <-.
        -- eapply moves_trans; [exact M1|]. eapply moves_trans; [exact M|].
           eapply (moves_in ls); [by eapply moves_put|set_solver|set_solver|].
           intros l Hi. split; [intros ->%elem_of_list_singleton; done|].
           destruct (texts_at_live _ _ _ _ HT Hi) as [b Hb]. by eapply live_lt.
      * apply runs_ret. eexists. split; [done|]. split.
        { intros Hx. destruct (Hom' (Hom Hx)) as [? _]. done. }
        eapply moves_trans; done.
  - intros Hne om. apply runs_ret. eexists. split; [done|]. split; [done|].
    eapply moves_oom; [|apply moves_refl]. done.
Qed.

(** ** The runs of a text are determined *)
Lemma cut_fun (sep : ascii -> Prop) s ws1 : cut sep s ws1 -> forall ws2, cut sep s ws2 -> ws1 = ws2.
Proof.
  assert (Hgap : forall g1 g2 (r1 r2 : cstr), Forall sep g1 -> Forall sep g2 ->
    match r1 with [] => True | c :: _ => ~ sep c end -> match r2 with [] => True | c :: _ => ~ sep c end ->
    g1 ++ r1 = g2 ++ r2 -> g1 = g2 /\ r1 = r2).
  { intros g1. induction g1 as [|c g1 IH]; intros g2 r1 r2 H1 H2 Hr1 Hr2 E; destruct g2 as [|c2 g2]; simpl in *; subst.
    - done.
    - apply Forall_cons in H2 as [H2 _]. done.
    - apply Forall_cons in H1 as [H1 _]. done.
    - apply Forall_cons in H1 as [_ H1]. apply Forall_cons in H2 as [_ H2]. injection E as <- E.
      destruct (IH _ _ _ H1 H2 Hr1 Hr2 E) as [-> ->]. done. }
  assert (Hword : forall w1 w2 r1 r2, Forall (fun c => ~ sep c) w1 -> Forall (fun c => ~ sep c) w2 ->
    match r1 with [] => True | c :: _ => sep c end -> match r2 with [] => True | c :: _ => sep c end ->
    w1 ++ r1 = w2 ++ r2 -> w1 = w2 /\ r1 = r2).
  { intros w1. induction w1 as [|c w1 IH]; intros w2 r1 r2 H1 H2 Hr1 Hr2 E; destruct w2 as [|c2 w2]; simpl in *; subst.
    - done.
    - apply Forall_cons in H2 as [H2 _]. done.
    - apply Forall_cons in H1 as [H1 _]. done.
    - apply Forall_cons in H1 as [_ H1]. apply Forall_cons in H2 as [_ H2]. injection E as <- E.
      destruct (IH _ _ _ H1 H2 Hr1 Hr2 E) as [-> ->]. done. }
  induction 1 as [g Hg|g w rest ws Hg Hw Hwn Hr Hc IH]; intros ws2 H2.
  - inversion H2 as [|g' w' rest' ws' Hg' Hw' Hwn' Hr' Hc' E]; [done|]. subst.
    destruct w' as [|c w']; [done|]. apply Forall_cons in Hwn' as [Hx _].
    apply Forall_app in Hg as [_ Hg]. simpl in Hg. apply Forall_cons in Hg as [Hg _]. done.
  - inversion H2 as [g' Hg' E|g' w' rest' ws' Hg' Hw' Hwn' Hr' Hc' E]; subst.
    + destruct w as [|c w]; [done|]. apply Forall_cons in Hwn as [Hx _].
      apply Forall_app in Hg' as [_ Hg']. simpl in Hg'. apply Forall_cons in Hg' as [Hg' _]. done.
    + destruct (Hgap g g' (w ++ rest) (w' ++ rest')) as [-> E2]; try done.
      * destruct w as [|c w]; [done|]. by apply Forall_cons in Hwn as [Hx _].
      * destruct w' as [|c w']; [done|]. by apply Forall_cons in Hwn' as [Hx _].
      * destruct (Hword w w' rest rest') as [-> ->]; try done. f_equal. by apply IH.
Qed.
Lemma cut_ext (P Q : ascii -> Prop) s ws : (forall c, P c <-> Q c) -> cut P s ws -> cut Q s ws.
Proof.
  intros E. assert (HF : forall l, Forall P l -> Forall Q l) by (intros l Hl; eapply Forall_impl; [done|]; firstorder).
  induction 1 as [g Hg|g w rest ws Hg Hw Hwn Hr Hc IH].
  - constructor. auto.
  - constructor; auto.
    + eapply Forall_impl; [done|]. firstorder.
    + destruct rest; firstorder.
Qed.
Lemma cut_total cs s : exists ws, cut (sepr cs) s ws.
Proof.
  remember (count_words s cs) as n eqn:E. symmetry in E. revert s E. induction n as [|n IH]; intros s E.
  - exists []. constructor. by apply count_zero.
  - destruct (split_step _ _ _ E) as (g & w & r & -> & Hg & Hne & Hw & Hr & Hn & _).
    destruct (IH _ Hn) as [ws Hws]. exists (w :: ws). by constructor.
Qed.

(** What the pieces are. *)
Lemma cut_words (sep : ascii -> Prop) s ws : cut sep s ws -> forall w, w ∈ ws -> w <> [] /\ forall c, c ∈ w -> ~ sep c.
Proof.
  induction 1 as [g Hg|g w rest ws Hg Hw Hwn Hr Hc IH]; intros w' Hi; [by apply elem_of_nil in Hi|].
  apply elem_of_cons in Hi as [->|Hi]; [|by apply IH]. split; [done|]. by apply Forall_forall.
Qed.
Lemma cut_lossless (sep : ascii -> bool) s ws : cut (fun c => sep c = true) s ws ->
  concat ws = List.filter (fun c => negb (sep c)) s.
Proof.
  assert (HA : forall l, Forall (fun c => sep c = true) l -> List.filter (fun c => negb (sep c)) l = []).
  { induction 1 as [|x l Hx HF IH]; simpl; [done|]. by rewrite Hx. }
  assert (HB : forall l, Forall (fun c => ~ sep c = true) l -> List.filter (fun c => negb (sep c)) l = l).
  { induction 1 as [|x l Hx HF IH]; simpl; [done|]. destruct (sep x); simpl; [done|]. by rewrite IH. }
  induction 1 as [g Hg|g w rest ws Hg Hw Hwn Hr Hc IH]; simpl; [by rewrite HA|].
  rewrite !List.filter_app, HA, HB by done. by rewrite IH.
Qed.
