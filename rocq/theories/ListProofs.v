(** * The common frame of the list handlers *)
From Coq Require Import Lia.
From stdpp Require Import sets.
From Verif Require Import Api LibProofs FrameProofs SpecGrammar SpecAfter SpecMemory HeapProofs SplitProofs.

Section states.
Context {A E : Type} (blk : list A -> block) (ow : A -> list nat) (hd : heap -> A -> E -> Prop).
(** The option of the state is declared [D], holds [c] and owns [fp]. *)
Definition at_state (D : decl) (c : list E) (fp : list nat) (s : hst) : Prop :=
  collection blk ow hd (h_opt s) (h_heap s) c fp /\ oom (h_heap s) = [] /\ decl_of (h_opt s) = D.
(** From [s] to [s']: blocks [lk] are lost, [fp'] are owned, marks are kept. *)
Definition goes (D : decl) (fp : list nat) (s : hst) (c' : list E) (fp' lk : list nat) (s' : hst) : Prop :=
  at_state D c' fp' s' /\ moves fp (h_heap s) (fp' ++ lk) (h_heap s') /\ same_marks (h_opt s) (h_opt s') /\
  (forall l, l ∈ lk -> l ∉ fp' /\ (l < length (bl (h_heap s')))%nat).

Variable D : decl.
Lemma goes_trans fp s c1 fp1 lk1 s1 c2 fp2 lk2 s2 :
  goes D fp s c1 fp1 lk1 s1 -> goes D fp1 s1 c2 fp2 lk2 s2 ->
  goes D fp s c2 fp2 (lk1 ++ lk2) s2.
Proof.
  intros (A1 & M1 & S1 & HR) (A2 & M2 & S2 & D2).
  split; [done|]. split; [|split].
  - eapply moves_trans; [exact M1|]. eapply (moves_in lk1); [exact M2|set_solver|set_solver|done].
  - destruct S1 as (?&?&?), S2 as (?&?&?). repeat split; congruence.
  - intros l Hl. apply elem_of_app in Hl as [Hl|Hl]; [|auto].
    destruct (HR l Hl) as [Hn Hlt]. assert (l ∉ fp2 ++ lk2) by (eapply moves_disjoint; eassumption).
    split; [set_solver|]. pose proof (mv_len _ _ _ _ M2). lia.
Qed.
Lemma goes_then fp s c1 fp1 s1 c2 fp2 lk2 s2 :
  goes D fp s c1 fp1 [] s1 -> goes D fp1 s1 c2 fp2 lk2 s2 -> goes D fp s c2 fp2 lk2 s2.
Proof. intros G1 G2. exact (goes_trans _ _ _ _ _ _ _ _ _ _ G1 G2). Qed.
Lemma goes_refl c fp s : at_state D c fp s -> goes D fp s c fp [] s.
Proof.
  intros H. split; [done|]. rewrite app_nil_r. split; [apply moves_refl|]. split; [done|]. intros ? []%elem_of_nil.
Qed.

End states.

Section lists.
Context {A E : Type} (blk : list A -> block) (ow : A -> list nat) (hd : heap -> A -> E -> Prop).
Hypothesis hd_ext : forall h h' x e, (forall l, l ∈ ow x -> bl h' !! l = bl h !! l) -> hd h x e -> hd h' x e.
Hypothesis hd_live : forall h x e l, hd h x e -> l ∈ ow x -> exists s, bl h !! l = Some (Some (BStr s)).
Notation coll := (collection blk ow hd).
Notation at_state := (at_state blk ow hd).
Notation goes := (goes blk ow hd).

Section words.
Variable D : decl.
Variable one : cstr -> HM Z.
Variable post : list E -> cstr -> Z -> list E -> list nat -> Prop.
Variable okw : cstr -> Prop.
Definition handles : Prop := forall s c fp w, at_state D c fp s -> okw w ->
  runs (one w) s (fun st s' => exists c' fp' lk, goes D fp s c' fp' lk s' /\ post c w st c' lk).

(** The effect of the words one after the other, up to the first that fails. *)
Inductive posts : list E -> list cstr -> Z -> list E -> list nat -> Prop :=
  | ps_nil c : posts c [] 0 c []
  | ps_fail c w ws st c' lk : post c w st c' lk -> st <> 0 -> posts c (w :: ws) st c' lk
  | ps_cons c w ws c1 lk1 st c2 lk2 : post c w 0 c1 lk1 -> posts c1 ws st c2 lk2 ->
      posts c (w :: ws) st c2 (lk1 ++ lk2).

(** What each word adds to the log. *)
Variable logs : cstr -> Z -> list event -> list event -> Prop.
Inductive logged : list cstr -> Z -> list event -> list event -> Prop :=
  | lg_nil l : logged [] 0 l l
  | lg_fail w ws st l l' : logs w st l l' -> st <> 0 -> logged (w :: ws) st l l'
  | lg_cons w ws st l l1 l2 : logs w 0 l l1 -> logged ws st l1 l2 -> logged (w :: ws) st l l2.
Hypothesis one_logs : forall w s c fp st s', at_state D c fp s -> one w s = Ok (st, s') -> logs w st (h_log s) (h_log s').
Lemma one_runs (Hone : handles) s c fp w : at_state D c fp s -> okw w ->
  runs (one w) s (fun st s' => logs w st (h_log s) (h_log s') /\ exists c' fp' lk, goes D fp s c' fp' lk s' /\ post c w st c' lk).
Proof.
  intros HA Hw. destruct (Hone s c fp w HA Hw) as (st & s' & R1 & Q). exists st, s'. split; [done|]. split; [|done]. by eapply one_logs.
Qed.

Lemma at_lt c fp s l : at_state D c fp s -> l ∈ fp -> (l < length (bl (h_heap s)))%nat.
Proof. intros (HC & _ & _) Hl. eapply coll_lt; eassumption. Qed.

(** The loop over the pieces of a text. *)
Lemma for_words_spec rest (Hone : handles) ws : forall ls c fp s, at_state D c fp s -> Forall okw ws ->
  texts_at (h_heap s) ls ws -> (forall l, l ∈ ls -> l ∉ fp) ->
  runs (for_words (map PHeap ls ++ VNull :: rest) one) s (fun st s' => exists c' fp' lk,
    goes D fp s c' fp' lk s' /\ posts c ws st c' lk /\ logged ws st (h_log s) (h_log s') /\ (forall l x, l ∉ fp -> bl (h_heap s) !! l = Some x -> bl (h_heap s') !! l = Some x)).
Proof.
  induction ws as [|w ws IH]; intros ls c fp s HA HW HT HD; inversion HT as [|l ? ls' ? Hl HT']; subst.
  - cbn [map app for_words]. apply runs_bind. eapply runs_lift; [reflexivity|]. apply runs_ret.
    exists c, fp, []. split; [by apply goes_refl|]. split; [constructor|]. split; [constructor|done].
  - cbn [map app for_words]. apply Forall_cons in HW as [Hw HW].
    apply runs_bind. eapply runs_lift; [reflexivity|]. apply runs_bind. destruct s as [o h lg].
    eapply runs_deref_str; [exact Hl|]. apply runs_bind.
    eapply runs_mono; [by apply (one_runs Hone)|]. intros st s1 (L1 & c1 & fp1 & lk1 & G1 & P1). cbn [h_log] in L1.
    assert (Hfr : forall l x, l ∉ fp -> bl h !! l = Some x -> bl (h_heap s1) !! l = Some x).
    { intros l' x Hn Hx. destruct G1 as (_ & M1 & _). eapply moves_other; eassumption. }
    unfold SUCCESS. destruct (Z.eqb_spec st 0) as [->|Hst].
    + assert (HD1 : forall l', l' ∈ ls' -> l' ∉ fp1).
      { intros l' Hl'. destruct G1 as (_ & M1 & _).
        destruct (texts_at_live _ _ _ _ HT' Hl') as [b Hb].
        assert (l' ∉ fp1 ++ lk1). { eapply moves_disjoint; [exact M1|set_solver|simpl; by eapply live_lt]. }
        set_solver. }
      eapply runs_mono; [apply IH; [by destruct G1 as (? & _)|done| |done]|].
      * eapply texts_at_ext; [|exact HT']. intros l' Hl'. destruct (texts_at_live _ _ _ _ HT' Hl') as [b Hb].
        simpl in Hb |- *. rewrite Hb. apply Hfr; [set_solver|done].
      * intros st s2 (c2 & fp2 & lk2 & G2 & P2 & L2 & F2). exists c2, fp2, (lk1 ++ lk2).
        split; [by eapply goes_trans|]. split; [by econstructor|]. split; [by econstructor|].
        intros l' x Hn Hx. simpl in Hx. apply F2; [|by apply Hfr].
        destruct G1 as (_ & M1 & _).
        assert (l' ∉ fp1 ++ lk1). { eapply moves_disjoint; [exact M1|done|simpl; by eapply live_lt]. }
        set_solver.
    + apply runs_ret. exists c1, fp1, lk1. split; [done|]. split; [by constructor|]. split; [by constructor|done].
Qed.

(** The whole list text. *)
Lemma strchr_None s ch : strchr s ch = None <-> ch ∉ s.
Proof.
  induction s as [|x s IH]; simpl.
  - split; [intros _ []%elem_of_nil|done].
  - destruct (Ascii.eqb_spec x ch) as [->|Hne]; [set_solver|]. rewrite elem_of_cons.
    destruct (strchr s ch); naive_solver.
Qed.
Lemma list_words_spec (Hone : handles) v ws c fp s : at_state D c fp s -> elements v ws -> Forall okw ws ->
  runs (match strchr v comma with
        | Some _ =>
            let! r := split v [comma] in
            match r with
            | None =>
                emit (EDiag E_MEMORY [MText $"Failed to split string '"; MStr (Some v); MText $"'"]) ;;; hret E_MEMORY
            | Some p =>
                let! cells := hderef_arr p in
                let! st := for_words cells one in
                free_split p ;;; hret st
            end
        | None => one v
        end) s (fun st s' => exists c' fp' lk, goes D fp s c' fp' lk s' /\ posts c ws st c' lk /\ logged ws st (h_log s) (h_log s')).
Proof.
  intros HA HE HW. unfold elements in HE. destruct (strchr v comma) eqn:Hc.
  - rewrite bool_decide_eq_true_2 in HE.
    2:{ destruct (decide (comma ∈ v)); [done|]. apply strchr_None in n0. congruence. }
    destruct s as [o h lg]. apply runs_bind.
    eapply runs_mono; [apply split_spec|]. intros r s1 (h1 & -> & Ho & Hr).
    pose proof HA as (HC & Hoom & HD0). simpl in *. destruct (Ho Hoom) as [Hn Hoom1].
    destruct r as [x|]; [|done]. destruct Hr as (p & ls & ws' & -> & Hcut & HN & Hp & HT & M1).
    assert (ws' = ws) as ->.
    { eapply cut_fun; [|exact HE]. eapply cut_ext; [|exact Hcut].
      intros ch. unfold sepr, comma. rewrite elem_of_list_singleton. naive_solver. }
    apply runs_bind. eapply runs_deref_arr; [done|]. apply runs_bind.
    assert (Hdis : forall l, l ∈ p :: ls -> l ∉ fp).
    { intros l Hl Hi. destruct (mv_own _ _ _ _ M1 l Hl) as [[]%elem_of_nil|Hge].
      pose proof (at_lt _ _ _ _ HA Hi) as Hlt. simpl in Hlt. lia. }
    assert (HA1 : at_state D c fp (Hst o h1 lg)).
    { split; [|done]. simpl. eapply coll_moves; [done|done|exact M1| |done]. intros l _ []%elem_of_nil. }
    eapply runs_mono; [apply (for_words_spec [] Hone ws ls c fp); [done|done|done|]|].
    { intros l Hl. apply Hdis. by right. }
    intros st s2 (c2 & fp2 & lk2 & G2 & P2 & L2 & F2). destruct s2 as [o2 h2 lg2]. simpl in *.
    unfold free_split. apply runs_bind, runs_bind.
    assert (Hp2 : bl h2 !! p = Some (Some (BArr (map PHeap ls ++ [VNull])))).
    { apply F2; [apply Hdis; left|done]. }
    eapply runs_deref_arr; [exact Hp2|]. apply runs_bind.
    apply NoDup_cons in HN as [HN1 HN2].
    eapply runs_mono; [apply (free_words_spec o2 lg2 [] ls h2)|].
    { done. }
    { intros l Hl. destruct (texts_at_live _ _ _ _ HT Hl) as [b Hb]. exists b. apply F2; [|done].
      apply Hdis. by right. }
    intros _ s3 (h3 & -> & M3 & Ho3).
    assert (Hp3 : bl h3 !! p = Some (Some (BArr (map PHeap ls ++ [VNull])))) by (by eapply moves_other).
    eapply runs_free; [exact Hp3|]. apply runs_ret.
    destruct G2 as (A2 & M2 & S2 & HL2). simpl in *.
    assert (Hd2 : forall l, l ∈ p :: ls -> l ∉ fp2 ++ lk2).
    { intros l Hl. eapply moves_disjoint; [exact M2|by apply Hdis|].
      apply elem_of_cons in Hl as [->|Hl]; [by eapply live_lt|].
      destruct (texts_at_live _ _ _ _ HT Hl) as [b Hb]. by eapply live_lt. }
    assert (M34 : moves (p :: ls) h2 [] (put_block h3 p None)).
    { apply moves_trans with (fp2 := [p]) (h2 := h3).
      - eapply (moves_in [p]); [exact M3|set_solver|set_solver|].
        intros l ->%elem_of_list_singleton. split; [done|by eapply live_lt].
      - by eapply moves_free. }
    assert (M12 : moves fp h ((p :: ls) ++ fp) h1).
    { eapply (moves_in fp); [exact M1|set_solver|set_solver|]. intros l Hl. split; [intros []%elem_of_nil|].
      exact (at_lt _ _ _ _ HA Hl). }
    assert (M23 : moves ((p :: ls) ++ fp) h1 ((p :: ls) ++ fp2 ++ lk2) h2).
    { apply moves_frame; [|done]. intros l Hl. split; [by apply Hdis|].
      apply elem_of_cons in Hl as [->|Hl]; [by eapply live_lt|].
      destruct (texts_at_live _ _ _ _ HT Hl) as [b Hb]. by eapply live_lt. }
    assert (Hlt2 : forall l, l ∈ fp2 ++ lk2 -> (l < length (bl h2))%nat).
    { intros l Hl. apply elem_of_app in Hl as [Hl|Hl]; [exact (at_lt _ _ _ _ A2 Hl)|by apply HL2]. }
    exists c2, fp2, lk2. split; [|done].
    split; [|split; [|split; [done|]]].
    + destruct A2 as (C2 & O2 & D2). split; [|split; [|done]].
      * simpl in *. eapply coll_moves; [done|done|exact M34| |done].
        intros l Hl Hi. apply Hd2 in Hi. set_solver.
      * simpl in *. congruence.
    + simpl. eapply moves_trans; [exact M12|]. eapply moves_trans; [exact M23|].
      eapply (moves_in (fp2 ++ lk2)); [exact M34|set_solver|set_solver|].
      intros l Hl. split; [|auto]. intros Hi. by apply Hd2 in Hi.
    + simpl. intros l Hl. split; [by apply HL2|]. destruct (HL2 _ Hl) as [_ Hlt].
      eapply Nat.lt_le_trans; [exact Hlt|exact (mv_len _ _ _ _ M34)].
  - rewrite bool_decide_eq_false_2 in HE by (by apply strchr_None). subst ws.
    apply Forall_cons in HW as [Hw _]. eapply runs_mono; [by apply (one_runs Hone)|].
    intros st s1 (L1 & c1 & fp1 & lk1 & G1 & P1). exists c1, fp1, lk1. split; [done|].
    destruct (decide (st = 0)) as [->|Hst].
    + split; [|econstructor; [done|constructor]]. rewrite <- (app_nil_r lk1). econstructor; [done|constructor].
    + split; by constructor.
Qed.
End words.
End lists.
