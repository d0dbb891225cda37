(** * The deciding program agrees with the meaning of regular expressions *)
From stdpp Require Import list.
From Verif Require Import RegexRun.

Lemma elem_of_nodup (x : nat) l : x ∈ nodup Nat.eq_dec l <-> x ∈ l.
Proof. rewrite !elem_of_list_In. apply nodup_In. Qed.
Lemma elem_of_flat_map {A B} (f : A -> list B) l y : y ∈ flat_map f l <-> exists x, x ∈ l /\ y ∈ f x.
Proof.
  rewrite elem_of_list_In, in_flat_map.
  split; intros (x & H1 & H2); exists x; split; apply elem_of_list_In; auto.
Qed.
Lemma elem_of_lmap {A B} (f : A -> B) l y : y ∈ List.map f l <-> exists x, x ∈ l /\ y = f x.
Proof.
  rewrite elem_of_list_In, in_map_iff. split; intros (x & H1 & H2); exists x.
  - subst. rewrite elem_of_list_In. auto.
  - apply elem_of_list_In in H1. auto.
Qed.

Lemma app_split (s : cstr) n : (n <= length s)%nat -> exists u v, s = u ++ v /\ length u = n.
Proof. intros H. exists (take n s), (drop n s). rewrite take_drop, take_length_le; auto. Qed.

(** ** Repetition *)
Section rep.
  Variable M : cstr -> cstr -> cstr -> Prop.
  Variables pre s : cstr.
  Definition from_to k i j := exists p u q, s = p ++ u ++ q /\ length p = i /\ (i + length u)%nat = j /\ times M k (pre ++ p) u q.
  Variable step : nat -> list nat.
  Hypothesis step_ok : forall i j, (i <= length s)%nat ->
    j ∈ step i <-> exists p u q, s = p ++ u ++ q /\ length p = i /\ (i + length u)%nat = j /\ M (pre ++ p) u q.

  Lemma from_to_0 i j : from_to 0 i j <-> i = j /\ (i <= length s)%nat.
  Proof.
    split.
    - intros (p & u & q & E & Hp & Hj & H). cbn in H. subst u. cbn in Hj. rewrite E, !app_length. lia.
    - intros [-> H]. destruct (app_split s j H) as (p & q & E & Hp). exists p, [], q. cbn. rewrite Nat.add_0_r. auto.
  Qed.
  Lemma from_to_S k i j : from_to (S k) i j <-> exists m, (i <= length s)%nat /\ m ∈ step i /\ from_to k m j.
  Proof.
    split.
    - intros (p & u & q & E & Hp & Hj & H). cbn in H. destruct H as (u1 & u2 & -> & H1 & H2).
      exists (i + length u1)%nat. rewrite E at 1. rewrite !app_length. split; [lia|]. split.
      + apply step_ok; [rewrite E, app_length; lia|]. exists p, u1, (u2 ++ q). split; [rewrite E, <- !app_assoc; auto|]. auto.
      + exists (p ++ u1), u2, q. split; [rewrite E, <- !app_assoc; auto|]. rewrite app_length in *. split; [lia|]. split; [lia|].
        rewrite app_assoc. auto.
    - intros (m & Hi & H1 & H2). apply step_ok in H1; [|auto].
      destruct H1 as (p & u1 & q1 & E1 & Hp & Hm & H1). destruct H2 as (p2 & u2 & q2 & E2 & Hp2 & Hj & H2).
      assert (p2 = p ++ u1 /\ q1 = u2 ++ q2) as [-> ->].
      { rewrite E1 in E2. rewrite app_assoc in E2. apply app_inj_1 in E2 as [-> ->]; auto. rewrite app_length. lia. }
      exists p, (u1 ++ u2), q2. split; [rewrite E1, <- !app_assoc; auto|]. split; [auto|]. split; [rewrite app_length; lia|].
      cbn. exists u1, u2. rewrite app_assoc in H2. auto.
  Qed.
  Lemma from_to_in k i j : from_to k i j -> (i <= j <= length s)%nat.
  Proof. intros (p & u & q & E & Hp & Hj & _). rewrite E, !app_length. lia. Qed.
  Lemma step_in i j : (i <= length s)%nat -> j ∈ step i -> (i <= j <= length s)%nat.
  Proof. intros H Hj. apply step_ok in Hj; [|auto]. destruct Hj as (p & u & q & E & Hp & Hj & _). rewrite E, !app_length. lia. Qed.
  Definition inside (l : list nat) := forall i, i ∈ l -> (i <= length s)%nat.
  Lemma steps_ok l j : j ∈ steps step l <-> exists i, i ∈ l /\ j ∈ step i.
  Proof. unfold steps. rewrite elem_of_nodup, elem_of_flat_map. auto. Qed.
  Lemma steps_inside l : inside l -> inside (steps step l).
  Proof. intros Hl j Hj. apply steps_ok in Hj as (i & Hi & Hj). apply step_in in Hj; [lia|auto]. Qed.
  Lemma iterate_ok k : forall l j, inside l -> j ∈ iterate step k l <-> exists i, i ∈ l /\ from_to k i j.
  Proof.
    induction k as [|k IH]; intros l j Hl; cbn [iterate].
    - split; [intros H; exists j; split; [auto|apply from_to_0; auto]|]. intros (i & Hi & H). apply from_to_0 in H as [-> _]. auto.
    - rewrite IH by (apply steps_inside; auto). split.
      + intros (m & Hm & H). apply steps_ok in Hm as (i & Hi & Hm). exists i. split; [auto|]. apply from_to_S. exists m. auto.
      + intros (i & Hi & H). apply from_to_S in H as (m & Hin & Hm & H). exists m. split; [|auto]. apply steps_ok. eauto.
  Qed.
  Lemma iterate_inside k l : inside l -> inside (iterate step k l).
  Proof. intros Hl j Hj. apply iterate_ok in Hj as (i & Hi & H); [|auto]. apply from_to_in in H. lia. Qed.
  Lemma upto_ok k : forall l j, inside l -> j ∈ upto step k l <-> exists i n, i ∈ l /\ (n <= k)%nat /\ from_to n i j.
  Proof.
    induction k as [|k IH]; intros l j Hl; cbn [upto].
    - split.
      + intros H. exists j, O. split; [auto|]. split; [lia|]. apply from_to_0. auto.
      + intros (i & n & Hi & Hn & H). replace n with O in H by lia. apply from_to_0 in H as [-> _]. auto.
    - destruct l as [|x l]; [split; [intros H; inversion H|intros (i & n & H & _); inversion H]|].
      remember (x :: l) as l' eqn:El. clear El x l. rewrite elem_of_app, IH by (apply steps_inside; auto). split.
      + intros [H|(m & n & Hm & Hn & H)].
        * exists j, O. split; [auto|]. split; [lia|]. apply from_to_0. auto.
        * apply steps_ok in Hm as (i & Hi & Hm). exists i, (S n). split; [auto|]. split; [lia|]. apply from_to_S. eauto.
      + intros (i & [|n] & Hi & Hn & H).
        * apply from_to_0 in H as [-> _]. auto.
        * right. apply from_to_S in H as (m & Hin & Hm & H). exists m, n. split; [apply steps_ok; eauto|]. split; [lia|auto].
  Qed.
  Lemma from_to_plus a b i j : from_to (a + b) i j <-> exists m, from_to a i m /\ from_to b m j.
  Proof.
    revert i. induction a as [|a IH]; intros i; cbn [Nat.add].
    - split.
      + intros H. exists i. split; [|auto]. apply from_to_0. apply from_to_in in H. lia.
      + intros (m & H1 & H2). apply from_to_0 in H1 as [-> _]. auto.
    - rewrite from_to_S. split.
      + intros (m & Hi & Hm & H). apply IH in H as (m' & H1 & H2). exists m'. split; [|auto]. apply from_to_S. eauto.
      + intros (m' & H1 & H2). apply from_to_S in H1 as (m & Hi & Hm & H1). exists m. split; [auto|]. split; [auto|]. apply IH. eauto.
  Qed.
  (** Iterations matching nothing can be left out. *)
  Lemma times_fewer k : forall p w q, times M k p w q -> (length w < k)%nat -> times M (pred k) p w q.
  Proof.
    induction k as [|k IH]; intros p w q H Hk; [lia|]. cbn [pred]. cbn in H. destruct H as (u & v & -> & H1 & H2).
    destruct u as [|c u].
    - rewrite app_nil_r in H2. auto.
    - cbn in Hk. rewrite app_length in Hk. destruct k as [|k]; [lia|]. cbn. exists (c :: u), v. split; [auto|]. split; [auto|].
      apply IH in H2; [auto|lia].
  Qed.
  Lemma from_to_bounded n i j : from_to n i j -> exists n', (n' <= length s)%nat /\ from_to n' i j.
  Proof.
    induction n as [|n IH]; intros H; [exists O; split; [lia|auto]|].
    destruct (Nat.le_gt_cases (S n) (length s)) as [Hn|Hn]; [eauto|].
    apply IH. destruct H as (p & u & q & E & Hp & Hj & H). exists p, u, q. split; [auto|]. split; [auto|]. split; [auto|].
    apply (times_fewer (S n)); [auto|]. rewrite E, !app_length in Hn. lia.
  Qed.
End rep.

(** ** The matcher *)
Lemma ends_ok r : forall pre s n, n ∈ ends r pre s <-> exists u v, s = u ++ v /\ length u = n /\ matches r pre u v.
Proof.
  induction r as [|k|a IHa b IHb|a IHa b IHb|lo hi a IHa| | |positive a IHa|positive k]; intros pre s n; cbn [ends matches].
  - split.
    + intros H. apply elem_of_list_singleton in H as ->. exists [], s. auto.
    + intros (u & v & -> & <- & ->). apply elem_of_list_singleton. auto.
  - split.
    + destruct s as [|c s]; [intros H; inversion H|]. destruct (in_set k c) eqn:E; intros H; [|inversion H].
      apply elem_of_list_singleton in H as ->. exists [c], s. split; [auto|]. split; [auto|]. eauto.
    + intros (u & v & -> & <- & c & -> & H). cbn. rewrite H. apply elem_of_list_singleton. auto.
  - rewrite elem_of_nodup, elem_of_flat_map. split.
    + intros (m & Hm & Hn). apply IHa in Hm as (u & v & -> & <- & H1). apply elem_of_lmap in Hn as (l & Hl & ->).
      rewrite take_app, drop_app in Hl. apply IHb in Hl as (u' & v' & -> & <- & H2).
      exists (u ++ u'), v'. rewrite app_assoc, app_length. split; [auto|]. split; [auto|]. exists u, u'. auto.
    + intros (w & v & -> & <- & u1 & u2 & -> & H1 & H2). exists (length u1). split.
      * apply IHa. exists u1, (u2 ++ v). rewrite app_assoc. auto.
      * apply elem_of_lmap. exists (length u2). rewrite <- app_assoc, take_app, drop_app, app_length. split; [|auto].
        apply IHb. exists u2, v. auto.
  - rewrite elem_of_nodup, elem_of_app, IHa, IHb. split.
    + intros [(u & v & H1 & H2 & H)|(u & v & H1 & H2 & H)]; exists u, v; auto.
    + intros (u & v & H1 & H2 & [H|H]); [left|right]; eauto.
  - set (step := fun n0 => List.map (Nat.add n0) (ends a (pre ++ take n0 s) (drop n0 s))).
    assert (Hs : forall i j, (i <= length s)%nat ->
      j ∈ step i <-> exists p u q, s = p ++ u ++ q /\ length p = i /\ (i + length u)%nat = j /\ matches a (pre ++ p) u q).
    { intros i j Hi. unfold step. rewrite elem_of_lmap. split.
      - intros (m & Hm & ->). apply IHa in Hm as (u & v & E & <- & H). exists (take i s), u, v.
        rewrite <- E, take_drop, take_length_le; auto.
      - intros (p & u & q & E & <- & <- & H). exists (length u). split; [|auto]. rewrite E, take_app, drop_app.
        apply IHa. exists u, q. auto. }
    assert (Hin : inside s [O]). { intros i Hi. apply elem_of_list_singleton in Hi as ->. lia. }
    assert (Hc : forall k (P : Prop), (P /\ from_to (matches a) pre s k 0 n) <-> exists u v, s = u ++ v /\ length u = n /\ P /\ times (matches a) k pre u v).
    { intros k P. split.
      - intros (HP & p & u & q & E & Hp & Hj & H). destruct p; [|discriminate]. rewrite app_nil_r in H. exists u, q. auto.
      - intros (u & v & E & Hn & HP & H). split; [auto|]. exists [], u, v. rewrite app_nil_r. auto. }
    assert (Hg : forall m, n ∈ upto step m (iterate step lo [O]) <-> exists k, (lo <= k <= lo + m)%nat /\ from_to (matches a) pre s k 0 n).
    { intros m. rewrite (upto_ok (matches a) pre s step Hs) by (eapply iterate_inside; eauto). split.
      - intros (i & k & Hi & Hk & H). apply (iterate_ok (matches a) pre s step Hs) in Hi as (z & Hz & Hi); [|auto].
        apply elem_of_list_singleton in Hz as ->. exists (lo + k)%nat. split; [lia|].
        apply (from_to_plus (matches a) pre s step Hs). eauto.
      - intros (k & Hk & H). replace k with (lo + (k - lo))%nat in H by lia.
        apply (from_to_plus (matches a) pre s step Hs) in H as (i & H1 & H2). exists i, (k - lo)%nat. split; [|split; [lia|auto]].
        apply (iterate_ok (matches a) pre s step Hs); [auto|]. exists O. split; [apply elem_of_list_singleton; auto|auto]. }
    destruct hi as [h|].
    + destruct (Nat.leb_spec lo h) as [Hle|Hgt].
      * rewrite elem_of_nodup. fold step. rewrite Hg. split.
        -- intros (k & Hk & H). destruct (proj1 (Hc k (lo <= k <= h)%nat)) as (u & v & E & Hn & Hk' & H'); [split; [lia|auto]|].
           exists u, v. split; [auto|]. split; [auto|]. exists k. split; [lia|]. split; [intros ? [= <-]; lia|auto].
        -- intros (u & v & E & Hn & k & Hk & Hh & H). specialize (Hh h eq_refl). exists k. split; [lia|]. apply (Hc k True). eauto 8.
      * split; [intros H; inversion H|]. intros (u & v & E & Hn & k & Hk & Hh & H). specialize (Hh h eq_refl). lia.
    + rewrite elem_of_nodup. fold step. rewrite Hg. split.
      * intros (k & Hk & H). destruct (proj1 (Hc k (lo <= k)%nat)) as (u & v & E & Hn & Hk' & H'); [split; [lia|auto]|].
        exists u, v. split; [auto|]. split; [auto|]. exists k. split; [lia|]. split; [intros ? [=]|auto].
      * intros (u & v & E & Hn & k & Hk & Hh & H).
        assert (H' : from_to (matches a) pre s k 0 n) by (apply (Hc k True); eauto 8).
        replace k with (lo + (k - lo))%nat in H' by lia.
        apply (from_to_plus (matches a) pre s step Hs) in H' as (i & H1 & H2).
        apply from_to_bounded in H2 as (n' & Hn' & H2). exists (lo + n')%nat. split; [lia|].
        apply (from_to_plus (matches a) pre s step Hs). eauto.
  - split.
    + destruct pre; intros H; [|inversion H]. apply elem_of_list_singleton in H as ->. exists [], s. auto.
    + intros (u & v & -> & <- & -> & ->). apply elem_of_list_singleton. auto.
  - split.
    + intros H. assert (Hr : n = O /\ (s = [] \/ s = [newline])).
      { destruct s as [|c [|d s]].
        - apply elem_of_list_singleton in H as ->. auto.
        - destruct (Ascii.eqb c newline) eqn:E; [|inversion H]. apply Ascii.eqb_eq in E as ->. apply elem_of_list_singleton in H as ->. auto.
        - inversion H. }
      destruct Hr as [-> Hr]. exists [], s. auto.
    + intros (u & v & -> & <- & -> & [->| ->]); cbn; apply elem_of_list_singleton; auto.
  - assert (Hf : (match ends a pre s with [] => false | _ => true end) = true <-> exists u v, s = u ++ v /\ matches a pre u v).
    { split.
      - destruct (ends a pre s) as [|m l] eqn:E; [discriminate|]. intros _. assert (Hm : m ∈ ends a pre s) by (rewrite E; left).
        apply IHa in Hm as (u & v & H1 & _ & H2). eauto.
      - intros (u & v & E & H). destruct (ends a pre s) eqn:Ee; [|auto]. assert (Hm : length u ∈ ends a pre s) by (apply IHa; eauto).
        rewrite Ee in Hm. inversion Hm. }
    split.
    + intros H. destruct (Bool.eqb positive _) eqn:E in H; [|inversion H]. apply elem_of_list_singleton in H as ->.
      exists [], s. split; [auto|]. split; [auto|]. split; [auto|]. cbn. apply eqb_prop in E. destruct positive.
      * apply Hf. auto.
      * intros Hx. apply Hf in Hx. congruence.
    + intros (u & v & -> & <- & -> & H). cbn in H, Hf |- *. destruct positive.
      * apply Hf in H. rewrite H. apply elem_of_list_singleton. auto.
      * destruct (match ends a pre v with [] => false | _ => true end); [|apply elem_of_list_singleton; auto].
        destruct H. apply Hf. auto.
  - assert (Hf : (match rev pre with c :: _ => in_set k c | [] => false end) = true <-> exists p c, pre = p ++ [c] /\ in_set k c = true).
    { split.
      - destruct (rev pre) as [|c l] eqn:E; [discriminate|]. intros H. exists (rev l), c. split; [|auto].
        rewrite <- (rev_involutive pre), E. auto.
      - intros (p & c & -> & H). rewrite rev_unit. auto. }
    split.
    + intros H. destruct (Bool.eqb positive _) eqn:E in H; [|inversion H]. apply elem_of_list_singleton in H as ->.
      exists [], s. split; [auto|]. split; [auto|]. split; [auto|]. cbn. apply eqb_prop in E. destruct positive.
      * apply Hf. auto.
      * intros Hx. apply Hf in Hx. congruence.
    + intros (u & v & -> & <- & -> & H). cbn in H, Hf |- *. destruct positive.
      * apply Hf in H. rewrite H. apply elem_of_list_singleton. auto.
      * destruct (match rev pre with c :: _ => in_set k c | [] => false end); [|apply elem_of_list_singleton; auto].
        destruct H. apply Hf. auto.
Qed.

Lemma findb_ok r s : findb r s = true <-> found r s.
Proof.
  unfold findb, found. rewrite existsb_exists. split.
  - intros (n & Hn & H). apply in_seq in Hn. destruct (ends r (take n s) (drop n s)) as [|m l] eqn:E; [discriminate|].
    assert (Hm : m ∈ ends r (take n s) (drop n s)) by (rewrite E; left). apply ends_ok in Hm as (u & v & Hs & _ & Hm).
    exists (take n s), u, v. rewrite <- Hs, take_drop. auto.
  - intros (pre & w & post & -> & H). exists (length pre). rewrite take_app, drop_app. split.
    + apply in_seq. rewrite app_length. lia.
    + assert (Hm : length w ∈ ends r pre (w ++ post)) by (apply ends_ok; eauto). destruct (ends r pre (w ++ post)); [inversion Hm|auto].
Qed.
Lemma satisfies_run p s : satisfies p s <-> run p s = RxMatch.
Proof.
  unfold satisfies, run. split.
  - intros (r & -> & H). apply findb_ok in H. rewrite H. auto.
  - destruct (compile p) as [r|]; [|discriminate]. destruct (findb r s) eqn:E; [|discriminate]. intros _. exists r.
    split; [auto|]. apply findb_ok. auto.
Qed.
