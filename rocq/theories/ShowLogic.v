(** * Reasoning about the screens: output and owned memory

    [owned B E h]: heap [h] is the old blocks [B], unchanged, and beyond them exactly the live
    blocks [E]. *)
From stdpp Require Import sets.
From Coq Require Import Lia.
From Verif Require Export Display.

Notation cells := (list (nat * block)).
Record owned (B : list (option block)) (E : cells) (h : heap) : Prop := {
  own_base : forall i, (i < length B)%nat -> blocks h !! i = B !! i;
  own_len : (length B <= length (blocks h))%nat;
  own_live : forall i x, (length B <= i)%nat -> blocks h !! i = Some (Some x) <-> (i, x) ∈ E;
  own_nodup : NoDup (map fst E);
  own_new : forall i x, (i, x) ∈ E -> (length B <= i)%nat;
}.
Lemma owned_perm B E E' h : Permutation E E' -> owned B E h -> owned B E' h.
Proof.
  intros P [H1 H2 H3 H4 H5]. split; try done.
  - intros i x L. rewrite H3 by done. by rewrite P.
  - by rewrite <- P.
  - intros i x. rewrite <- P. apply H5.
Qed.
Lemma owned_start h : owned (blocks h) [] h.
Proof.
  split; try done.
  - intros i x L. split; [|intros H; by apply elem_of_nil in H].
    intros E. apply lookup_lt_Some in E. lia.
  - constructor.
  - intros i x H. by apply elem_of_nil in H.
Qed.
Lemma owned_get B E h l x : owned B E h -> (l, x) ∈ E -> blocks h !! l = Some (Some x).
Proof. intros O H. apply (own_live _ _ _ O); [|done]. by apply (own_new _ _ _ O) in H. Qed.
Lemma owned_oom B E h o : owned B E h -> owned B E (Heap (blocks h) o).
Proof. intros [H1 H2 H3 H4 H5]. by split. Qed.
Lemma owned_malloc B E h x o :
  owned B E h -> owned B ((length (blocks h), x) :: E) (Heap (blocks h ++ [Some x]) o).
Proof.
  intros [H1 H2 H3 H4 H5]. split; cbn [blocks].
  - intros i L. rewrite lookup_app_l by lia. by apply H1.
  - rewrite app_length. cbn. lia.
  - intros i y L. split.
    + intros H. apply lookup_app_Some in H as [H|[H' H]].
      * right. by apply H3.
      * destruct (i - length (blocks h))%nat as [|k] eqn:K; [|by destruct k].
        injection H as ->. assert (i = length (blocks h)) as -> by lia. left.
    + intros H. apply elem_of_cons in H as [H|H].
      * injection H as -> ->. rewrite lookup_app_r by lia. by rewrite Nat.sub_diag.
      * apply H3 in H; [|done]. rewrite lookup_app_l; [done|]. by apply lookup_lt_Some in H.
  - cbn [map fst]. constructor; [|done]. intros H.
    apply elem_of_list_fmap in H as ([i y] & E' & H). cbn in E'. subst i.
    pose proof (H5 _ _ H) as L. apply H3 in H; [|done]. apply lookup_lt_Some in H. lia.
  - intros i y H. apply elem_of_cons in H as [H|H]; [injection H as -> ->; lia|by apply H5 in H].
Qed.
Lemma owned_head_out B E h l x : owned B ((l, x) :: E) h -> forall y, (l, y) ∉ E.
Proof.
  intros O y H. pose proof (own_nodup _ _ _ O) as N. cbn in N. apply NoDup_cons in N as [N _].
  apply N. apply elem_of_list_fmap. by exists (l, y).
Qed.
Lemma owned_store B E h l x y :
  owned B ((l, x) :: E) h -> owned B ((l, y) :: E) (Heap (<[l := Some y]> (blocks h)) (oom h)).
Proof.
  intros O. pose proof (owned_head_out _ _ _ _ _ O) as NI.
  pose proof (owned_get _ _ _ l x O ltac:(left)) as G.
  pose proof (own_new _ _ _ O l x ltac:(left)) as LB.
  destruct O as [H1 H2 H3 H4 H5]. split; cbn [blocks].
  - intros i L. rewrite list_lookup_insert_ne by lia. by apply H1.
  - by rewrite insert_length.
  - intros i z L. destruct (decide (i = l)) as [->|N].
    + rewrite list_lookup_insert by (by apply lookup_lt_Some in G). split.
      * intros [= ->]. left.
      * intros H. apply elem_of_cons in H as [H|H]; [by injection H as ->|]. by apply NI in H.
    + rewrite list_lookup_insert_ne by done. rewrite H3 by done. rewrite !elem_of_cons.
      split; (intros [H|H]; [injection H as -> ->; done|by right]).
  - done.
  - intros i z H. apply elem_of_cons in H as [H|H]; [by injection H as -> ->|].
    apply (H5 i z). by right.
Qed.
Lemma owned_free B E h l x :
  owned B ((l, x) :: E) h -> owned B E (Heap (<[l := None]> (blocks h)) (oom h)).
Proof.
  intros O. pose proof (owned_head_out _ _ _ _ _ O) as NI.
  pose proof (owned_get _ _ _ l x O ltac:(left)) as G.
  pose proof (own_new _ _ _ O l x ltac:(left)) as LB.
  destruct O as [H1 H2 H3 H4 H5]. split; cbn [blocks].
  - intros i L. rewrite list_lookup_insert_ne by lia. by apply H1.
  - by rewrite insert_length.
  - intros i z L. destruct (decide (i = l)) as [->|N].
    + rewrite list_lookup_insert by (by apply lookup_lt_Some in G). split; [done|].
      intros H. by apply NI in H.
    + rewrite list_lookup_insert_ne by done. rewrite H3 by done. rewrite elem_of_cons.
      split; [intros [H|H]; [injection H as -> ->; done|done]|by right].
  - cbn in H4. by apply NoDup_cons in H4 as [_ H4].
  - intros i z H. apply (H5 i z). by right.
Qed.

(** ** Triples

    From owning [E], command [m] ends without fault and owns [E'] then; [b] says that memory
    does not run out. *)
Definition triple {A} (b : bool) (E : cells) (m : DM A) (Q : A -> cstr -> cells -> Prop) : Prop :=
  forall B F s, (b = true -> oom (s_heap s) = []) -> owned B (E ++ F) (s_heap s) ->
  exists a t E' h', m s = Shown (a, Dst (s_out s ++ t) h') /\ owned B (E' ++ F) h' /\
    (b = true -> oom h' = []) /\ Q a t E'.

Section rules.
Context {b : bool}.
Lemma t_ret {A} E (a : A) (Q : A -> cstr -> cells -> Prop) : Q a [] E -> triple b E (dret a) Q.
Proof.
  intros H B F [out h] O W. exists a, [], E, h. cbn in *. rewrite app_nil_r. done.
Qed.
Lemma t_conseq {A} E (m : DM A) (Q R : A -> cstr -> cells -> Prop) :
  triple b E m Q -> (forall a t E', Q a t E' -> R a t E') -> triple b E m R.
Proof.
  intros T I B F s O W. destruct (T B F s O W) as (a & t & E' & h' & H1 & H2 & H3 & H4).
  exists a, t, E', h'. auto.
Qed.
Lemma t_bind {A C} E (m : DM A) (k : A -> DM C) Q R :
  triple b E m Q ->
  (forall a t E', Q a t E' -> triple b E' (k a) (fun c u E'' => R c (t ++ u) E'')) ->
  triple b E (dbind m k) R.
Proof.
  intros T K B F s O W. destruct (T B F s O W) as (a & t & E' & h' & H1 & H2 & H3 & H4).
  destruct (K a t E' H4 B F (Dst (s_out s ++ t) h') H3 H2) as (c & u & E'' & h'' & G1 & G2 & G3 & G4).
  exists c, (t ++ u), E'', h''. unfold dbind. rewrite H1, G1. cbn. by rewrite <- app_assoc.
Qed.
Lemma t_perm {A} E E' (m : DM A) Q : Permutation E E' -> triple b E' m Q -> triple b E m Q.
Proof.
  intros P T B F s O W. apply T; [done|]. eapply owned_perm; [|exact W]. by rewrite P.
Qed.
Lemma t_frame {A} E G (m : DM A) Q :
  triple b E m Q -> triple b (E ++ G) m (fun a t E'' => exists E', E'' = E' ++ G /\ Q a t E').
Proof.
  intros T B F s O W. rewrite <- app_assoc in W.
  destruct (T B (G ++ F) s O W) as (a & t & E' & h' & H1 & H2 & H3 & H4).
  exists a, t, (E' ++ G), h'. rewrite <- app_assoc. split_and!; try done. by exists E'.
Qed.
(** A command that needs nothing, run while [G] is owned. *)
Lemma t_frame0 {A} G (m : DM A) Q :
  triple b [] m Q -> triple b G m (fun a t E'' => exists E', E'' = E' ++ G /\ Q a t E').
Proof. intros T. apply (t_frame [] G m Q T). Qed.
Lemma t_put E t : triple b E (put t) (fun _ u E' => u = t /\ E' = E).
Proof. intros B F s O W. by exists tt, t, E, (s_heap s). Qed.
Lemma t_lift {A} E (r : res A) a : r = Ok a -> triple b E (dlift r) (fun a' u E' => a' = a /\ u = [] /\ E' = E).
Proof.
  intros -> B F [out h] O W. exists a, [], E, h. cbn in *. rewrite app_nil_r. done.
Qed.
Lemma t_malloc E x :
  triple b E (dmalloc x) (fun p u E' => u = [] /\
    ((b = false /\ p = None /\ E' = E) \/ exists l, p = Some l /\ E' = (l, x) :: E)).
Proof.
  intros B F [out h] O W. cbn in O, W. unfold dmalloc, malloc. cbn [s_heap s_out].
  destruct (oom h) as [|[|] o] eqn:Eo.
  - eexists _, [], ((length (blocks h), x) :: E), _. rewrite app_nil_r. split; [done|].
    split; [by apply (owned_malloc _ (E ++ F) _ x [])|].
    split; [done|]. split; [done|]. right. by eexists.
  - assert (b = false) as -> by (destruct b; [by specialize (O eq_refl)|done]).
    eexists _, [], E, _. rewrite app_nil_r. split; [done|]. split; [by apply owned_oom|].
    split; [done|]. split; [done|]. by left.
  - assert (b = false) as -> by (destruct b; [by specialize (O eq_refl)|done]).
    eexists _, [], ((length (blocks h), x) :: E), _. rewrite app_nil_r. split; [done|].
    split; [by apply (owned_malloc _ (E ++ F) _ x o)|].
    split; [done|]. split; [done|]. right. by eexists.
Qed.
Lemma t_store E l x y :
  triple b ((l, x) :: E) (dstore l y) (fun _ u E' => u = [] /\ E' = (l, y) :: E).
Proof.
  intros B F [out h] O W. cbn in O, W. unfold dstore, store. cbn [s_heap s_out].
  rewrite (owned_get _ _ _ l x W ltac:(left)).
  eexists _, [], ((l, y) :: E), _. rewrite app_nil_r. split; [done|].
  split; [by apply (owned_store _ (E ++ F) _ _ x)|]. cbn. done.
Qed.
Lemma t_free E l x : triple b ((l, x) :: E) (dfree l) (fun _ u E' => u = [] /\ E' = E).
Proof.
  intros B F [out h] O W. cbn in O, W. unfold dfree, free. cbn [s_heap s_out].
  rewrite (owned_get _ _ _ l x W ltac:(left)).
  eexists _, [], E, _. rewrite app_nil_r. split; [done|].
  split; [by apply (owned_free _ (E ++ F) _ _ x)|]. cbn. done.
Qed.
Lemma t_read E l s :
  triple b ((l, BStr s) :: E) (dread l) (fun a u E' => a = s /\ u = [] /\ E' = (l, BStr s) :: E).
Proof.
  intros B F [out h] O W. cbn in O, W. unfold dread, deref_str, deref. cbn [s_heap s_out rbind].
  rewrite (owned_get _ _ _ l (BStr s) W ltac:(left)).
  exists s, [], ((l, BStr s) :: E), h. rewrite app_nil_r. done.
Qed.
End rules.
