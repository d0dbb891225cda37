(** * Proofs about the texts made by the validators' formatters *)
From Coq Require Import Decimal DecimalFacts DecimalPos DecimalZ DecimalString.
From Verif Require Export BufferProofs SpecDisplay.
From Coq Require Import Lia.

(** ** Decimal texts *)
Lemma of_uint_acc_lower u p :
  (Z.pos p * 10 ^ Z.of_nat (nb_digits u) <= Z.pos (Pos.of_uint_acc u p)).
Proof.
  revert p. induction u; intros p; cbn [nb_digits Pos.of_uint_acc]; [lia|..].
  all: rewrite Nat2Z.inj_succ, Z.pow_succ_r by lia;
       match goal with |- context [Pos.of_uint_acc _ ?q] => specialize (IHu q) end;
       pose proof (Z.pow_pos_nonneg 10 (Z.of_nat (nb_digits u)) ltac:(lia) ltac:(lia));
       etrans; [|exact IHu]; nia.
Qed.
Lemma nb_digits_bound p n :
  Z.pos p < 10 ^ Z.of_nat n -> (nb_digits (Pos.to_uint p) <= n)%nat.
Proof.
  intros H.
  pose proof (DecimalPos.Unsigned.of_to p) as O.
  pose proof (DecimalPos.Unsigned.to_uint_nonzero p) as NZ.
  pose proof (DecimalPos.Unsigned.to_uint_nonnil p) as NN.
  assert (U : unorm (Pos.to_uint p) = Pos.to_uint p).
  { rewrite <- DecimalPos.Unsigned.to_of. rewrite O. done. }
  assert (L : forall q u, Pos.of_uint_acc u q = p -> (nb_digits u < n)%nat).
  { intros q u E. pose proof (of_uint_acc_lower u q) as B. rewrite E in B.
    assert (10 ^ Z.of_nat (nb_digits u) < 10 ^ Z.of_nat n) by nia.
    apply Z.pow_lt_mono_r_iff in H0; lia. }
  destruct (Pos.to_uint p) as [|u|u|u|u|u|u|u|u|u|u] eqn:E; cbn [nb_digits]; [lia|..].
  - exfalso. unfold unorm in U. cbn [nzhead] in U.
    assert (N : (nb_digits (nzhead u) <= nb_digits u)%nat).
    { clear. induction u; cbn; lia. }
    destruct (nzhead u) eqn:E'; try discriminate U.
    + injection U as <-. done.
    + rewrite U in N. cbn in N. lia.
  - cbn in O. injection O as O. apply L in O. lia.
  - cbn in O. injection O as O. apply L in O. lia.
  - cbn in O. injection O as O. apply L in O. lia.
  - cbn in O. injection O as O. apply L in O. lia.
  - cbn in O. injection O as O. apply L in O. lia.
  - cbn in O. injection O as O. apply L in O. lia.
  - cbn in O. injection O as O. apply L in O. lia.
  - cbn in O. injection O as O. apply L in O. lia.
  - cbn in O. injection O as O. apply L in O. lia.
Qed.
Lemma uint_text u :
  length (list_ascii_of_string (NilEmpty.string_of_uint u)) = nb_digits u /\
  terminator ∉ list_ascii_of_string (NilEmpty.string_of_uint u).
Proof.
  induction u as [|u IH|u IH|u IH|u IH|u IH|u IH|u IH|u IH|u IH|u IH];
    cbn [NilEmpty.string_of_uint list_ascii_of_string length nb_digits];
    (split; [try (f_equal; apply IH); done|]); [apply not_elem_of_nil|..].
  all: intros H; apply elem_of_cons in H as [H|H]; [discriminate H|]; by apply IH.
Qed.
Lemma dec_text z : terminator ∉ dec z.
Proof.
  unfold dec, NilZero.string_of_int. destruct (Z.to_int z) as [u|u]; cbn [list_ascii_of_string];
    unfold NilZero.string_of_uint.
  - destruct u eqn:E; try rewrite <- E; try apply uint_text.
    intros H; apply elem_of_cons in H as [H|H]; [discriminate H|]. by apply elem_of_nil in H.
  - intros H; apply elem_of_cons in H as [H|H]; [discriminate H|]. revert H.
    destruct u eqn:E; try rewrite <- E; try apply uint_text.
    intros H; apply elem_of_cons in H as [H|H]; [discriminate H|]. by apply elem_of_nil in H.
Qed.
Lemma uint0_length u : (length (list_ascii_of_string (NilZero.string_of_uint u)) <= max 1 (nb_digits u))%nat.
Proof.
  unfold NilZero.string_of_uint. destruct u eqn:E; [cbn; lia|..]; rewrite <- E;
    rewrite (proj1 (uint_text _)); lia.
Qed.
Lemma dec_length z n :
  (0 < n)%nat -> - 10 ^ Z.of_nat n < z < 10 ^ Z.of_nat n -> (length (dec z) <= S n)%nat.
Proof.
  intros N H. unfold dec, NilZero.string_of_int.
  destruct z as [|p|p]; cbn [Z.to_int].
  - cbn. lia.
  - unfold Z.to_int. cbn. etrans; [apply uint0_length|].
    pose proof (nb_digits_bound p n ltac:(lia)). lia.
  - unfold Z.to_int. cbn [list_ascii_of_string length]. apply le_n_S. etrans; [apply uint0_length|].
    pose proof (nb_digits_bound p n ltac:(lia)). lia.
Qed.
Lemma dec_int64 z : - 9223372036854775808 <= z < 9223372036854775808 -> (length (dec z) <= 20)%nat.
Proof. intros H. apply (dec_length z 19); [lia|]. change (10 ^ Z.of_nat 19) with 10000000000000000000. lia. Qed.
Lemma dec_int32 z : - 2147483648 <= z < 2147483648 -> (length (dec z) <= 11)%nat.
Proof. intros H. apply (dec_length z 10); [lia|]. change (10 ^ Z.of_nat 10) with 10000000000. lia. Qed.

(** ** Appending to a buffer *)
Lemma append_to_ok b size d rest t :
  (size <= length b)%nat -> Z.of_nat size <= two64 -> holds b d rest -> terminator ∉ t ->
  (length d < size)%nat ->
  Z.of_nat (length d) + Z.of_nat (length t) < two64 ->
  exists b', append_to b size t = Ok b' /\ length b' = length b /\
    if (length d + length t <? size)%nat
    then holds b' (d ++ t) (drop (length t) rest) else b' = b.
Proof.
  intros HS HW Hb Ht Hd HF. unfold append_to.
  rewrite (safe_strcat_spec b (Z.of_nat size) d rest t) by (done || lia).
  destruct (Nat.ltb_spec (length d + length t) size) as [L|L].
  - rewrite (proj2 (Z.ltb_lt _ _)) by lia. cbn.
    eexists. split; [done|]. split.
    + destruct Hb as [-> _]. rewrite !app_length, !map_len, app_length in *. cbn in *.
      rewrite drop_length. lia.
    + split; [done|]. intros H. apply elem_of_app in H as [H|H]; [by apply (proj2 Hb)|done].
  - rewrite (proj2 (Z.ltb_ge _ _)) by lia. cbn. by exists b.
Qed.
Lemma bars_cons t u l : bars (t :: u :: l) = t ++ "|"%char :: bars (u :: l).
Proof. done. Qed.
Lemma append_choices_ok l b size d rest :
  (size <= length b)%nat -> Z.of_nat size <= two64 -> holds b d rest ->
  Forall (fun t => terminator ∉ t) l -> (length d + length (bars l) < size)%nat ->
  exists b' rest', append_choices b size l = Ok b' /\ holds b' (d ++ bars l) rest'.
Proof.
  revert b d rest. induction l as [|t l IH]; intros b d rest HS HW Hb Hl HL.
  { exists b, rest. cbn. rewrite app_nil_r. done. }
  apply Forall_cons in Hl as [Ht Hl].
  destruct l as [|u l].
  - cbn [bars] in HL.
    destruct (append_to_ok b size d rest t) as (b1 & E1 & L1 & H1); try done; try lia.
    rewrite (proj2 (Nat.ltb_lt _ _) HL) in H1.
    exists b1, (drop (length t) rest). cbn [append_choices]. rewrite E1. cbn. done.
  - rewrite bars_cons in HL. rewrite app_length in HL. cbn [length] in HL.
    destruct (append_to_ok b size d rest t) as (b1 & E1 & L1 & H1); try done; try lia.
    rewrite (proj2 (Nat.ltb_lt _ _)) in H1 by lia.
    destruct (append_to_ok b1 size (d ++ t) (drop (length t) rest) ($"|")) as (b2 & E2 & L2 & H2);
      try done; try (rewrite ?app_length; cbn; lia).
    { intros X. apply elem_of_cons in X as [X|X]; [discriminate X|]. by apply elem_of_nil in X. }
    rewrite app_length in H2. rewrite (proj2 (Nat.ltb_lt _ _)) in H2 by (cbn; lia).
    destruct (IH b2 ((d ++ t) ++ $"|") _ ltac:(lia) HW H2 Hl) as (b' & rest' & E & H').
    { rewrite !app_length. change (length ($"|")) with 1%nat. lia. }
    exists b', rest'. cbn [append_choices]. cbn [append_choices] in E. rewrite E1. cbn [rbind].
    rewrite E2. cbn [rbind]. split; [exact E|].
    rewrite bars_cons. rewrite <- !app_assoc in H'. exact H'.
Qed.
Lemma bars_room ts rs :
  Forall2 (fun t r => (length t <= r)%nat) ts rs -> (length (bars ts) <= total_room rs)%nat.
Proof.
  induction 1 as [|t r ts rs H F IH]; [done|].
  destruct ts as [|u ts], rs as [|v rs]; try (by inversion F).
  rewrite bars_cons, app_length. change (total_room (r :: v :: rs)) with (r + 1 + total_room (v :: rs))%nat.
  cbn [length]. lia.
Qed.
Lemma fresh_buffer size :
  (0 < size)%nat ->
  exists b, write (replicate size None) O [terminator] = Ok b /\ length b = size /\
    holds b [] (replicate (size - 1) None).
Proof.
  intros H. eexists. split; [apply write_ok; rewrite replicate_length; cbn; lia|].
  rewrite take_0. cbn [app map length Nat.add]. destruct size as [|n]; [lia|].
  cbn [replicate drop Nat.sub length]. rewrite drop_0, replicate_length, Nat.sub_0_r.
  split; [done|]. split; [done|]. apply not_elem_of_nil.
Qed.
Lemma choices_text_gen `{Libc} c :
  Forall2 (fun t r => (length t <= r)%nat) (choice_text c) (choice_room c) ->
  Forall (fun t => terminator ∉ t) (choice_text c) ->
  Z.of_nat (total_room (choice_room c)) + 1 <= two64 ->
  choices_text c = Ok (bars (choice_text c)).
Proof.
  intros F N W. pose proof (bars_room _ _ F) as B. unfold choices_text.
  destruct (fresh_buffer (total_room (choice_room c) + 1) ltac:(lia)) as (b & E & L & Hb).
  rewrite E. cbn [rbind].
  destruct (append_choices_ok (choice_text c) b (total_room (choice_room c) + 1) [] _
              ltac:(lia) ltac:(lia) Hb N ltac:(cbn; lia)) as (b' & r' & E' & H').
  rewrite E'. cbn [rbind]. by apply read_holds in H'.
Qed.

(** Texts of the three kinds of choices. *)
Lemma choices_str `{Libc} l :
  Forall (fun t => terminator ∉ t) l ->
  Z.of_nat (total_room (map length l)) + 1 <= two64 ->
  choices_text (ChStr l) = Ok (bars l).
Proof.
  intros N W. rewrite (choices_text_gen (ChStr l)); try done.
  cbn. clear. induction l; constructor; [lia|done].
Qed.
Lemma snprintf_short size t : (length t < size)%nat -> snprintf size t = t.
Proof. intros H. apply take_ge. lia. Qed.
Lemma choices_int `{Libc} l :
  Forall (fun z => - 9223372036854775808 <= z < 9223372036854775808) l ->
  Z.of_nat (length l) <= 100000000000000000 ->
  choices_text (ChInt l) = Ok (bars (map dec l)).
Proof.
  intros N W.
  assert (E : choice_text (ChInt l) = map dec l).
  { unfold choice_text. apply map_ext_in. intros z Hz. apply snprintf_short.
    rewrite Forall_forall in N. pose proof (dec_int64 z (N z ltac:(by apply elem_of_list_In))). lia. }
  rewrite <- E. apply choices_text_gen.
  - rewrite E. cbn. clear - N. induction N; cbn; constructor; [by apply dec_int64|done].
  - rewrite E. apply Forall_map, Forall_forall. intros z _. apply dec_text.
  - cbn.
    assert (total_room (map (fun _ : Z => 20%nat) l) <= 21 * length l)%nat.
    { clear. induction l as [|z [|y l] IH]; [done|cbn; lia|].
      change (total_room (map (fun _ : Z => 20%nat) (z :: y :: l)))
        with (20 + 1 + total_room (map (fun _ : Z => 20%nat) (y :: l)))%nat. cbn [length] in *. lia. }
    unfold two64. lia.
Qed.
Lemma choices_float `{Libc} l :
  Forall (fun z => (length (fmt_2g z) <= 20)%nat /\ terminator ∉ fmt_2g z) l ->
  Z.of_nat (length l) <= 100000000000000000 ->
  choices_text (ChFloat l) = Ok (bars (map fmt_2g l)).
Proof.
  intros N W.
  assert (E : choice_text (ChFloat l) = map fmt_2g l).
  { unfold choice_text. apply map_ext_in. intros z Hz. apply snprintf_short.
    rewrite Forall_forall in N. pose proof (proj1 (N z ltac:(by apply elem_of_list_In))). lia. }
  rewrite <- E. apply choices_text_gen.
  - rewrite E. cbn. clear - N. induction N; cbn; constructor; [tauto|done].
  - rewrite E. apply Forall_map. clear - N. induction N; constructor; [cbn; tauto|done].
  - cbn.
    assert (total_room (map (fun _ : Z => 20%nat) l) <= 21 * length l)%nat.
    { clear. induction l as [|z [|y l] IH]; [done|cbn; lia|].
      change (total_room (map (fun _ : Z => 20%nat) (z :: y :: l)))
        with (20 + 1 + total_room (map (fun _ : Z => 20%nat) (y :: l)))%nat. cbn [length] in *. lia. }
    unfold two64. lia.
Qed.
