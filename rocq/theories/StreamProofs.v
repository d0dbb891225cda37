(** * Proofs about stream capturing *)
From Coq Require Import Lia.
From Verif Require Export SpecStream BufferProofs.

(** ** The descriptor table *)
Lemma get_neg f fd : fd < 0 -> fd_get f fd = None.
Proof. intros L. unfold fd_get. by rewrite (proj2 (Z.ltb_lt _ _) L). Qed.
Lemma get_pos f fd : 0 <= fd -> fd_get f fd = match f !! Z.to_nat fd with Some t => t | None => None end.
Proof. intros L. unfold fd_get. by rewrite (proj2 (Z.ltb_ge _ _) L). Qed.
Lemma get_some_pos f fd t : fd_get f fd = Some t -> 0 <= fd.
Proof. unfold fd_get. destruct (Z.ltb_spec fd 0); [done|lia]. Qed.
Lemma get_insert f k x fd :
  0 <= k -> (Z.to_nat k < length f)%nat ->
  fd_get (<[Z.to_nat k := x]> f) fd = if fd =? k then x else fd_get f fd.
Proof.
  intros P L. destruct (Z.ltb_spec fd 0) as [N|N].
  { rewrite !get_neg by done. destruct (Z.eqb_spec fd k); [lia|done]. }
  rewrite !get_pos by done. destruct (Z.eqb_spec fd k) as [->|D].
  - rewrite list_lookup_insert; done.
  - rewrite list_lookup_insert_ne; [done|]. lia.
Qed.
Lemma get_open_length f fd t : fd_get f fd = Some t -> (Z.to_nat fd < length f)%nat.
Proof.
  unfold fd_get. destruct (fd <? 0); [done|].
  destruct (f !! Z.to_nat fd) eqn:E; [|done]. intros _. by apply lookup_lt_Some in E.
Qed.
Lemma get_close f k fd : fd_get (fd_close f k) fd = if fd =? k then None else fd_get f fd.
Proof.
  unfold fd_close. destruct (Z.ltb_spec k 0) as [N|N].
  { destruct (Z.eqb_spec fd k) as [->|D]; [by apply get_neg|done]. }
  destruct (decide (Z.to_nat k < length f)%nat) as [L|L]; [by apply get_insert|].
  rewrite list_insert_ge by lia. destruct (Z.eqb_spec fd k) as [->|D]; [|done].
  rewrite get_pos by done. by rewrite lookup_ge_None_2 by lia.
Qed.
Lemma lowest_free f : fd_get f (Z.of_nat (lowest f)) = None /\ (lowest f <= length f)%nat.
Proof.
  rewrite get_pos by lia. rewrite Nat2Z.id.
  induction f as [|[t|] f IH]; cbn; [done| |split; [done|lia]]. destruct IH. split; [done|lia].
Qed.
Lemma open_get f t n f' :
  fd_open f t = (n, f') ->
  fd_get f (Z.of_nat n) = None /\
  forall fd, fd_get f' fd = if fd =? Z.of_nat n then Some t else fd_get f fd.
Proof.
  unfold fd_open. intros E. injection E as <- <-. destruct (lowest_free f) as [F L].
  split; [done|]. intros fd. destruct (Nat.ltb_spec (lowest f) (length f)) as [K|K].
  - pose proof (get_insert f (Z.of_nat (lowest f)) (Some t) fd) as G. rewrite Nat2Z.id in G.
    apply G; [lia|done].
  - assert (X : lowest f = length f) by lia. rewrite X.
    destruct (Z.ltb_spec fd 0) as [N|N].
    { rewrite !get_neg by done. destruct (Z.eqb_spec fd (Z.of_nat (length f))); [lia|done]. }
    rewrite !get_pos by done. destruct (Z.eqb_spec fd (Z.of_nat (length f))) as [->|D].
    + rewrite Nat2Z.id, lookup_app_r, Nat.sub_diag by lia. done.
    + destruct (decide (Z.to_nat fd < length f)%nat) as [M|M].
      * by rewrite lookup_app_l by done.
      * rewrite (lookup_ge_None_2 f) by lia. rewrite lookup_ge_None_2; [done|].
        rewrite app_length. cbn. lia.
Qed.

(** ** The invariant: [own k] gives the read end, the saved descriptor and the pipe of a captured
    stream *)
Definition owner := Z -> option (Z * Z * nat).
Record inv (s0 s : os) (own : owner) : Prop := {
  iv_dom : forall k, ~ standard k -> own k = None;
  iv_len : length (o_infos s) = 3%nat;
  iv_none : forall k, standard k -> own k = None ->
    (exists i, o_infos s !! Z.to_nat k = Some i /\ i_active i = false) /\
    connection s k = connection s0 k;
  iv_some : forall k r b p, own k = Some (r, b, p) ->
    o_infos s !! Z.to_nat k = Some (Info k r (-1) b true) /\
    connection s k = Some (TPipeW p) /\ connection s r = Some (TPipeR p) /\
    connection s b = connection s0 k /\ 3 <= r /\ 3 <= b /\ r <> b /\
    connection s0 r = None /\ connection s0 b = None /\ (p < length (o_pipes s))%nat;
  iv_apart : forall k r b p k' r' b' p', own k = Some (r, b, p) -> own k' = Some (r', b', p') -> k <> k' ->
    r <> r' /\ r <> b' /\ b <> b' /\ p <> p';
  iv_rest : forall fd, 3 <= fd -> (forall k r b p, own k = Some (r, b, p) -> fd <> r /\ fd <> b) ->
    connection s fd = connection s0 fd;
  iv_old : forall fd p, connection s0 fd = Some (TPipeR p) \/ connection s0 fd = Some (TPipeW p) ->
    (p < length (o_pipes s))%nat /\ forall k r b q, own k = Some (r, b, q) -> q <> p;
  iv_fails : o_fails2 s = [];
}.

Lemma inv_start s : fresh_start s -> inv s s (fun _ => None).
Proof.
  intros [[L C] O P F]. split; try done.
  - intros k K _. split; [|done].
    assert (Z.to_nat k < length (o_infos s))%nat as I by (unfold standard in K; lia).
    apply lookup_lt_is_Some_2 in I as [i E]. exists i. split; [done|].
    destruct (i_active i) eqn:A; [|done]. exfalso. apply (C k K). by exists i.
  - intros fd p H. split; [by eapply P|done].
Qed.

(** Steps that leave descriptors and records alone. *)
Definition same_shape (s s' : os) : Prop :=
  o_fds s' = o_fds s /\ o_infos s' = o_infos s /\ length (o_pipes s') = length (o_pipes s) /\
  o_fails2 s' = o_fails2 s /\ o_cap s' = o_cap s.
Lemma shape_refl s : same_shape s s.
Proof. done. Qed.
Lemma shape_trans s1 s2 s3 : same_shape s1 s2 -> same_shape s2 s3 -> same_shape s1 s3.
Proof.
  intros (A1 & A2 & A3 & A4 & A5) (B1 & B2 & B3 & B4 & B5). unfold same_shape.
  split_and!; congruence.
Qed.
Lemma inv_shape s0 s s' own : inv s0 s own -> same_shape s s' -> inv s0 s' own.
Proof.
  intros [H1 H2 H3 H4 H5 H6 H7 H8] (A1 & A2 & A3 & A4 & _).
  assert (C : forall fd, connection s' fd = connection s fd) by (intros; unfold connection; by rewrite A1).
  split; try done.
  - by rewrite A2.
  - intros k K N. rewrite A2, C. by apply H3.
  - intros k r b p E. rewrite A2, A3, !C. by apply H4.
  - intros fd L N. rewrite C. by apply H6.
  - intros fd p K. rewrite A3. by eapply H7.
  - by rewrite A4.
Qed.

Lemma write_shape s fd t s' : sys_write s fd t = Done s' -> same_shape s s'.
Proof.
  unfold sys_write. destruct (fd_get (o_fds s) fd) as [[n|p|p]|]; try (by intros [= <-]).
  destruct (o_pipes s !! p); [|by intros [= <-]].
  destruct (_ <=? _); [|done]. intros [= <-]. unfold same_shape. cbn. by rewrite insert_length.
Qed.
Lemma print_out_shape s t k s' : print_out s t k = Done s' -> same_shape s s'.
Proof.
  unfold print_out. destruct (take k (o_pending s ++ t)); [by intros [= <-]|].
  intros E. by apply write_shape in E.
Qed.
Lemma flush_shape s fd s' : flush s fd = Done s' -> same_shape s s'.
Proof.
  unfold flush. destruct (fd =? 1); [|by intros [= <-]].
  unfold flush_out. destruct (o_pending s); [by intros [= <-]|]. intros E. by apply write_shape in E.
Qed.
Lemma read_shape s fd n t s' : sys_read s fd n = (t, s') -> same_shape s s'.
Proof.
  unfold sys_read. destruct (fd_get (o_fds s) fd) as [[m|p|p]|]; try (by intros [= <- <-]).
  destruct (o_pipes s !! p); [|by intros [= <- <-]]. intros [= <- <-].
  unfold same_shape. cbn. by rewrite insert_length.
Qed.
Lemma drain_shape fuel : forall s fd, same_shape s (drain fuel s fd).
Proof.
  induction fuel as [|fuel IH]; intros s fd; cbn [drain]; [done|].
  destruct (sys_read s fd BUFFER_SIZE) as [t s'] eqn:E. apply read_shape in E.
  destruct t; [done|]. eapply shape_trans; [exact E|apply IH].
Qed.
Lemma read_loop_shape fuel : forall s fd r n x s',
  read_loop fuel s fd r n = Done (x, s') -> same_shape s s'.
Proof.
  induction fuel as [|fuel IH]; intros s fd r n x s'; [done|]. cbn [read_loop].
  destruct (sys_read s fd BUFFER_SIZE) as [t s1] eqn:E. apply read_shape in E.
  destruct t as [|c t]; [by intros [= <- <-]|].
  destruct (length r <? n + length (c :: t) + 1)%nat.
  - destruct (pop (o_mem s1)) as [bad l]. destruct bad; [by intros [= <- <-]|].
    destruct (write _ _ _); [|done]. intros K. apply IH in K. eapply shape_trans; [exact E|].
    exact K.
  - destruct (write _ _ _); [|done]. intros K. apply IH in K. by eapply shape_trans.
Qed.

(** ** Reading empties the pipe and never leaves the result *)
Lemma grow_enough fuel : forall need cap,
  (0 < cap)%nat -> (need <= cap + fuel)%nat -> (need <= grow fuel need cap)%nat /\ (cap <= grow fuel need cap)%nat.
Proof.
  induction fuel as [|fuel IH]; intros need cap P L; cbn [grow]; [lia|].
  destruct (Nat.ltb_spec cap need); [|lia]. destruct (IH need (cap * 2)%nat); lia.
Qed.
Lemma buffer_size_pos : (0 < BUFFER_SIZE)%nat.
Proof. unfold BUFFER_SIZE. lia. Qed.
Lemma grown_enough need cap : (need <= grown need cap)%nat /\ (cap <= grown need cap)%nat.
Proof.
  unfold grown. pose proof buffer_size_pos. destruct cap as [|cap].
  - destruct (grow_enough need need BUFFER_SIZE); lia.
  - destruct (grow_enough need need (S cap * 2)); lia.
Qed.
Lemma realloc_more text (rest : bytes) n :
  (length (map Some text ++ rest) <= n)%nat ->
  exists rest', realloc_to (map Some text ++ rest) n = map Some text ++ rest' /\
    length (map Some text ++ rest') = n.
Proof.
  intros L. unfold realloc_to. rewrite take_ge by done. rewrite <- app_assoc. eexists. split; [done|].
  rewrite app_assoc, app_length, replicate_length. lia.
Qed.
Lemma write_after text (rest : bytes) chunk :
  (length chunk <= length rest)%nat ->
  write (map Some text ++ rest) (length text) chunk =
  Ok (map Some (text ++ chunk) ++ drop (length chunk) rest).
Proof.
  intros L. rewrite write_ok by (rewrite app_length, map_len; lia).
  f_equal. rewrite take_app_alt by (by rewrite map_len).
  replace (length text + length chunk)%nat with (length (map Some text ++ map Some chunk))
    by (by rewrite app_length, !map_len).
  rewrite map_app, <- app_assoc. f_equal. f_equal.
  rewrite app_length, !map_len. rewrite drop_app_ge by (rewrite map_len; lia).
  f_equal. rewrite map_len. lia.
Qed.
Definition emptied (s s' : os) (p : nat) : Prop :=
  o_pipes s' = <[p := []]> (o_pipes s) /\ o_fds s' = o_fds s /\ o_infos s' = o_infos s /\
  o_pending s' = o_pending s /\ o_files s' = o_files s /\ o_fails s' = o_fails s.
Lemma read_loop_spec fuel : forall s fd p c text rest,
  connection s fd = Some (TPipeR p) -> o_pipes s !! p = Some c -> (length c < fuel)%nat ->
  (text = [] \/ 0 < length rest)%nat ->
  (exists s', read_loop fuel s fd (map Some text ++ rest) (length text) = Done (None, s') /\ o_mem s <> []) \/
  exists rest' s', read_loop fuel s fd (map Some text ++ rest) (length text) =
      Done (Some (map Some (text ++ c) ++ rest', length (text ++ c)), s') /\
    (text ++ c = [] \/ 0 < length rest')%nat /\ emptied s s' p /\
    exists n, o_mem s' = drop n (o_mem s).
Proof.
  induction fuel as [|fuel IH]; intros s fd p c text rest C P L T; [lia|]. cbn [read_loop].
  unfold sys_read. unfold connection in C. rewrite C, P.
  assert (Hb := buffer_size_pos).
  destruct (take BUFFER_SIZE c) as [|x chunk'] eqn:E.
  - right. assert (c = []) as ->.
    { destruct c; [done|]. destruct BUFFER_SIZE; [lia|done]. }
    rewrite app_nil_r, drop_nil. exists rest. eexists. split; [done|]. split; [done|].
    split; [done|]. by exists O.
  - assert (Ec : c = (x :: chunk') ++ drop BUFFER_SIZE c) by (by rewrite <- E, take_drop).
    clear E. set (c' := drop BUFFER_SIZE c) in *. set (chunk := x :: chunk') in *.
    assert (Nc : (0 < length chunk)%nat) by (cbn; lia).
    clearbody chunk c'. clear x chunk'. subst c. rewrite app_length in L.
    set (s1 := with_pipes s (<[p := c']> (o_pipes s))).
    assert (Pl : (p < length (o_pipes s))%nat) by (by apply lookup_lt_Some in P).
    assert (K : forall rest1 s2 j, (length chunk < length rest1)%nat ->
      s2 = with_mem s1 (drop j (o_mem s)) ->
      (exists s', match write (map Some text ++ rest1) (length text) chunk with
         | Ok r' => read_loop fuel s2 fd r' (length text + length chunk) | UB u => Bad u end =
         Done (None, s') /\ o_mem s <> []) \/
      exists rest' s', match write (map Some text ++ rest1) (length text) chunk with
         | Ok r' => read_loop fuel s2 fd r' (length text + length chunk) | UB u => Bad u end =
          Done (Some (map Some (text ++ chunk ++ c') ++ rest', length (text ++ chunk ++ c')), s') /\
        (text ++ chunk ++ c' = [] \/ 0 < length rest')%nat /\ emptied s s' p /\
        exists n, o_mem s' = drop n (o_mem s)).
    { intros rest1 s2 j Lr ->. rewrite write_after by lia.
      destruct (IH (with_mem s1 (drop j (o_mem s))) fd p c' (text ++ chunk) (drop (length chunk) rest1))
        as [(s' & E & M)|(rest' & s' & E & R & (Q1 & Q2 & Q3 & Q4 & Q5 & Q6) & n & M)].
      - exact C.
      - cbn. by apply list_lookup_insert.
      - lia.
      - right. rewrite drop_length. lia.
      - left. rewrite app_length in E. exists s'. split; [exact E|]. cbn in M. intros X.
        rewrite X, drop_nil in M. done.
      - right. rewrite app_length in E. exists rest', s'.
        rewrite app_assoc. split; [exact E|]. split; [done|]. split.
        + split; [|done]. rewrite Q1. cbn. by rewrite list_insert_insert.
        + exists (j + n)%nat. rewrite M. cbn. by rewrite drop_drop. }
    destruct (Nat.ltb_spec (length (map Some text ++ rest)) (length text + length chunk + 1)) as [F|F].
    + destruct (pop (o_mem s1)) as [bad l] eqn:Ep. cbn [s1 o_mem with_pipes] in Ep.
      destruct bad.
      * left. eexists. split; [done|]. intros X. by rewrite X in Ep.
      * pose proof (grown_enough (length text + length chunk + 1) (length (map Some text ++ rest))) as [G1 G2].
        destruct (realloc_more text rest _ G2) as (rest1 & -> & L1).
        apply (K rest1 _ 1%nat).
        -- rewrite app_length, map_len in L1. lia.
        -- f_equal. unfold pop in Ep. destruct (o_mem s); injection Ep; intros; subst; done.
    + apply (K rest _ O).
      * rewrite app_length, map_len in F. lia.
      * rewrite drop_0. by destruct s.
Qed.

(** ** Redirecting *)
Lemma standard_valid fd : is_valid_fd fd = true <-> standard fd.
Proof.
  unfold is_valid_fd, standard. rewrite !orb_true_iff, !Z.eqb_eq. lia.
Qed.
Lemma active_owned s0 s own k :
  inv s0 s own -> standard k ->
  exists i, o_infos s !! Z.to_nat k = Some i /\ i_active i = match own k with Some _ => true | None => false end.
Proof.
  intros I K. destruct (own k) as [[[r b] p]|] eqn:E.
  - destruct (iv_some _ _ _ I _ _ _ _ E) as (H & _). by eexists.
  - destruct (iv_none _ _ _ I k K E) as [H _]. done.
Qed.
Lemma inv_open s0 s own k :
  inv s0 s own -> (forall k, standard k -> is_Some (connection s0 k)) -> standard k -> is_Some (connection s k).
Proof.
  intros I O K. destruct (own k) as [[[r b] p]|] eqn:E.
  - destruct (iv_some _ _ _ I _ _ _ _ E) as (_ & -> & _). by eexists.
  - destruct (iv_none _ _ _ I k K E) as [_ ->]. by apply O.
Qed.

(** What a call of stream_redirect on a stream that is not captured does. *)
Definition unchanged (s s' : os) (fd : Z) : Prop :=
  (forall x, connection s' x = connection s x) /\
  (exists i, o_infos s' = o_infos s \/ o_infos s' = <[Z.to_nat fd := i]> (o_infos s) /\ i_active i = false) /\
  (exists l, o_pipes s' = o_pipes s ++ l) /\ o_fails2 s' = o_fails2 s /\ o_files s' = o_files s /\
  o_pending s' = o_pending s /\ o_cap s' = o_cap s /\ o_mem s' = o_mem s /\ o_fails s <> [].
Definition taken (s s' : os) (fd r b : Z) : Prop :=
  connection s r = None /\ connection s b = None /\ 0 <= r /\ 0 <= b /\ r <> b /\
  (forall x, connection s' x =
     if x =? fd then Some (TPipeW (length (o_pipes s)))
     else if x =? r then Some (TPipeR (length (o_pipes s)))
     else if x =? b then connection s fd
     else connection s x) /\
  o_infos s' = <[Z.to_nat fd := Info fd r (-1) b true]> (o_infos s) /\
  o_pipes s' = o_pipes s ++ [[]] /\ o_fails2 s' = o_fails2 s /\ o_files s' = o_files s /\
  o_pending s' = o_pending s /\ o_cap s' = o_cap s /\ o_mem s' = o_mem s /\
  o_fails s' = drop 3 (o_fails s).
Lemma pop_drop l b l' : pop l = (b, l') -> l' = drop 1 l /\ (b = true -> l <> []).
Proof. destruct l; cbn; intros [= <- <-]; by rewrite ?drop_0. Qed.
Lemma redirect_char s fd i :
  standard fd -> o_infos s !! Z.to_nat fd = Some i -> i_active i = false -> is_Some (connection s fd) ->
  exists c s', stream_redirect s fd = Done (c, s') /\
    ((c <> STREAM_SUCCESS /\ unchanged s s' fd) \/
     (c = STREAM_SUCCESS /\ exists r b, taken s s' fd r b)).
Proof.
  intros K I A [t O]. unfold stream_redirect, info_at.
  rewrite (proj2 (standard_valid fd) K), I, A. cbn [negb].
  unfold sys_pipe. destruct (pop (o_fails s)) as [bad l] eqn:Ep. apply pop_drop in Ep as [-> Eb].
  destruct bad.
  { do 2 eexists. split; [done|]. left. split; [done|]. unfold unchanged. cbn.
    split; [done|]. split; [by exists i; left|]. split; [exists []; by rewrite app_nil_r|].
    split_and!; try done. by apply Eb. }
  cbn [with_fails o_pipes o_fds].
  destruct (fd_open (o_fds s) (TPipeR (length (o_pipes s)))) as [r f1] eqn:E1.
  apply open_get in E1 as [F1 G1].
  destruct (fd_open f1 (TPipeW (length (o_pipes s)))) as [w f2] eqn:E2.
  apply open_get in E2 as [F2 G2].
  assert (Nrw : Z.of_nat w <> Z.of_nat r).
  { intros X. rewrite X, G1, Z.eqb_refl in F2. done. }
  assert (Fw : connection s (Z.of_nat w) = None).
  { rewrite G1 in F2. rewrite (proj2 (Z.eqb_neq _ _) Nrw) in F2. done. }
  assert (Nfr : fd <> Z.of_nat r) by (intros ->; unfold connection in O; congruence).
  assert (Nfw : fd <> Z.of_nat w) by (intros ->; unfold connection in O, Fw; congruence).
  unfold sys_dup. cbn [with_pipes with_fds o_fails o_fds with_fails o_pipes].
  destruct (pop (drop 1 (o_fails s))) as [bad l] eqn:Ep. apply pop_drop in Ep as [-> Eb2].
  assert (Gf : fd_get f2 fd = Some t).
  { rewrite G2, (proj2 (Z.eqb_neq _ _) Nfw), G1, (proj2 (Z.eqb_neq _ _) Nfr). exact O. }
  rewrite Gf. destruct bad.
  { do 2 eexists. split; [done|]. left. split; [done|]. unfold unchanged. cbn.
    split.
    - intros x. unfold connection. cbn. rewrite !get_close, G2, G1.
      destruct (Z.eqb_spec x (Z.of_nat w)) as [->|]; [done|].
      destruct (Z.eqb_spec x (Z.of_nat r)) as [->|]; [done|done].
    - split; [eexists; right; done|]. split; [by eexists|]. split_and!; try done.
      intros X. rewrite X in Eb2. by apply Eb2. }
  destruct (fd_open f2 t) as [b f3] eqn:E3. apply open_get in E3 as [F3 G3].
  assert (Nbw : Z.of_nat b <> Z.of_nat w).
  { intros X. rewrite X, G2, Z.eqb_refl in F3. done. }
  assert (Nbr : Z.of_nat b <> Z.of_nat r).
  { intros X. rewrite X, G2, (proj2 (Z.eqb_neq _ _) (not_eq_sym Nrw)), G1, Z.eqb_refl in F3. done. }
  assert (Fb : connection s (Z.of_nat b) = None).
  { rewrite G2, (proj2 (Z.eqb_neq _ _) Nbw), G1, (proj2 (Z.eqb_neq _ _) Nbr) in F3. done. }
  assert (Nfb : fd <> Z.of_nat b) by (intros ->; unfold connection in O, Fb; congruence).
  cbn [with_fails with_fds with_pipes o_fails o_fds].
  destruct (pop (drop 1 (drop 1 (o_fails s)))) as [bad l] eqn:Ep. apply pop_drop in Ep as [-> Eb3].
  unfold sys_dup2. cbn [with_fails with_fds with_pipes o_fails o_fds].
  assert (Gw : fd_get f3 (Z.of_nat w) = Some (TPipeW (length (o_pipes s)))).
  { rewrite G3, (proj2 (Z.eqb_neq _ _) (not_eq_sym Nbw)), G2, Z.eqb_refl. done. }
  rewrite Gw. destruct bad.
  { do 2 eexists. split; [done|]. left. split; [done|]. unfold unchanged. cbn.
    split.
    - intros x. unfold connection. cbn. rewrite !get_close, G3, G2, G1.
      destruct (Z.eqb_spec x (Z.of_nat w)) as [->|]; [done|].
      destruct (Z.eqb_spec x (Z.of_nat r)) as [->|]; [done|].
      destruct (Z.eqb_spec x (Z.of_nat b)) as [->|]; [done|done].
    - split; [eexists; right; done|]. split; [by eexists|]. split_and!; try done.
      intros X. rewrite X in Eb3. by apply Eb3. }
  do 2 eexists. split; [done|]. right. split; [done|].
  exists (Z.of_nat r), (Z.of_nat b). unfold taken. cbn.
  split; [exact F1|]. split; [done|]. split; [lia|]. split; [lia|]. split; [done|].
  split.
  - intros x. unfold connection. cbn. rewrite get_close.
    rewrite get_insert; [|unfold standard in K; lia|].
    2:{ apply (get_open_length _ _ t). rewrite G3, (proj2 (Z.eqb_neq _ _) Nfb). exact Gf. }
    rewrite G3, G2, G1. fold (connection s x). unfold connection in O, Fw. rewrite O.
    destruct (Z.eqb_spec x (Z.of_nat w)) as [->|].
    { rewrite (proj2 (Z.eqb_neq _ _) (not_eq_sym Nfw)), (proj2 (Z.eqb_neq _ _) Nrw),
        (proj2 (Z.eqb_neq _ _) (not_eq_sym Nbw)). done. }
    destruct (Z.eqb_spec x fd) as [->|]; [done|].
    destruct (Z.eqb_spec x (Z.of_nat b)) as [->|].
    { by rewrite (proj2 (Z.eqb_neq _ _) Nbr). }
    destruct (Z.eqb_spec x (Z.of_nat r)) as [->|]; done.
  - split_and!; try done. by rewrite !drop_drop.
Qed.

Lemma list_insert_info (l : list stream_info) k k' i :
  standard k -> standard k' -> length l = 3%nat ->
  <[Z.to_nat k := i]> l !! Z.to_nat k' = if k' =? k then Some i else l !! Z.to_nat k'.
Proof.
  intros K K' L. destruct (Z.eqb_spec k' k) as [->|D].
  - apply list_lookup_insert. unfold standard in K. lia.
  - apply list_lookup_insert_ne. unfold standard in *. lia.
Qed.
Definition own_set (own : owner) (fd : Z) (v : option (Z * Z * nat)) : owner :=
  fun k => if k =? fd then v else own k.
Lemma inv_standard s0 s own k v : inv s0 s own -> own k = Some v -> standard k.
Proof.
  intros I E. destruct (decide (0 <= k <= 2)) as [S|S]; [exact S|].
  rewrite (iv_dom _ _ _ I k) in E; done.
Qed.
Lemma unchanged_inv s0 s s' own fd :
  inv s0 s own -> standard fd -> own fd = None -> unchanged s s' fd -> inv s0 s' own.
Proof.
  intros I K N (C & [i Hi] & [l P] & F & _).
  assert (LI : length (o_infos s') = 3%nat).
  { destruct Hi as [->|[-> _]]; rewrite ?insert_length; apply (iv_len _ _ _ I). }
  assert (PP : (length (o_pipes s) <= length (o_pipes s'))%nat) by (rewrite P, app_length; lia).
  pose proof (iv_len _ _ _ I) as L3.
  split; try done.
  - apply (iv_dom _ _ _ I).
  - intros k Kk Nk. destruct (iv_none _ _ _ I k Kk Nk) as [[i' [E A]] X]. split; [|rewrite C; exact X].
    destruct Hi as [->|[-> B]]; [by exists i'|]. rewrite list_insert_info by done.
    destruct (k =? fd); by eexists.
  - intros k r b p E. destruct (iv_some _ _ _ I _ _ _ _ E) as (A & H). pose proof (inv_standard _ _ _ _ _ I E) as Kk.
    rewrite !C. split; [|destruct_and!; split_and!; try done; lia].
    destruct Hi as [->|[-> B]]; [done|]. rewrite list_insert_info by done.
    destruct (Z.eqb_spec k fd) as [->|]; [congruence|done].
  - apply (iv_apart _ _ _ I).
  - intros x L H. rewrite C. by apply (iv_rest _ _ _ I).
  - intros x p H. destruct (iv_old _ _ _ I x p H) as [A B]. split; [lia|done].
  - rewrite F. apply (iv_fails _ _ _ I).
Qed.
Lemma taken_inv s0 s s' own fd r b :
  inv s0 s own -> (forall k, standard k -> is_Some (connection s0 k)) ->
  standard fd -> own fd = None -> taken s s' fd r b ->
  inv s0 s' (own_set own fd (Some (r, b, length (o_pipes s)))).
Proof.
  intros I O K N (Fr & Fb & Pr & Pb & RB & C & HI & HP & HF & _).
  pose proof (iv_len _ _ _ I) as L3.
  assert (notstd : forall x, 0 <= x -> connection s x = None -> 3 <= x).
  { intros x Px Hx. destruct (decide (3 <= x)) as [|S]; [done|].
    destruct (inv_open s0 s own x I O) as [t X]; [unfold standard; lia|congruence]. }
  assert (Gr : 3 <= r) by (by apply notstd). assert (Gb : 3 <= b) by (by apply notstd).
  assert (fresh : forall x k r' b' p', connection s x = None -> own k = Some (r', b', p') -> x <> r' /\ x <> b').
  { intros x k r' b' p' Hx E. destruct (iv_some _ _ _ I _ _ _ _ E) as (_ & _ & R' & B' & _).
    destruct (O k (inv_standard _ _ _ _ _ I E)) as [t T].
    split; intros ->; congruence. }
  assert (old : forall x, 3 <= x -> connection s x = None -> connection s0 x = None).
  { intros x Px Hx. rewrite <- (iv_rest _ _ _ I x Px); [done|]. intros. by eapply fresh. }
  assert (LP : length (o_pipes s') = S (length (o_pipes s))) by (rewrite HP, app_length; cbn; lia).
  unfold standard in K.
  split.
  - intros k Nk. unfold own_set. destruct (Z.eqb_spec k fd) as [->|]; [done|]. by apply (iv_dom _ _ _ I).
  - by rewrite HI, insert_length.
  - intros k Kk. unfold own_set. destruct (Z.eqb_spec k fd) as [->|D]; [done|]. intros Nk.
    rewrite HI, list_insert_info by done. rewrite (proj2 (Z.eqb_neq _ _) D).
    destruct (iv_none _ _ _ I k Kk Nk) as [H1 H2]. split; [done|]. rewrite C.
    unfold standard in Kk.
    rewrite (proj2 (Z.eqb_neq _ _) D), (proj2 (Z.eqb_neq k r)), (proj2 (Z.eqb_neq k b)) by lia. done.
  - intros k r' b' p'. unfold own_set. destruct (Z.eqb_spec k fd) as [->|D].
    + intros [= <- <- <-]. rewrite HI, list_insert_info, Z.eqb_refl by done. rewrite !C.
      rewrite Z.eqb_refl, (proj2 (Z.eqb_neq r fd)), Z.eqb_refl, (proj2 (Z.eqb_neq b fd)),
        (proj2 (Z.eqb_neq b r)), Z.eqb_refl by lia.
      split_and!; try done; [by apply iv_none with (1 := I)|by apply old|by apply old|lia].
    + intros E. destruct (iv_some _ _ _ I _ _ _ _ E) as (A1 & A2 & A3 & A4 & A5 & A6 & A7 & A8 & A9 & A10).
      pose proof (inv_standard _ _ _ _ _ I E) as Kk.
      destruct (fresh r k r' b' p' Fr E), (fresh b k r' b' p' Fb E).
      rewrite HI, list_insert_info, (proj2 (Z.eqb_neq _ _) D) by done. rewrite !C. unfold standard in Kk.
      rewrite (proj2 (Z.eqb_neq _ _) D), (proj2 (Z.eqb_neq k r)), (proj2 (Z.eqb_neq k b)),
       (proj2 (Z.eqb_neq r' fd)), (proj2 (Z.eqb_neq r' r)), (proj2 (Z.eqb_neq r' b)),
       (proj2 (Z.eqb_neq b' fd)), (proj2 (Z.eqb_neq b' r)), (proj2 (Z.eqb_neq b' b)) by lia.
      split_and!; try done; lia.
  - intros k r1 b1 p1 k' r2 b2 p2. unfold own_set.
    destruct (Z.eqb_spec k fd) as [->|D], (Z.eqb_spec k' fd) as [->|D']; intros E1 E2 X; try done.
    + injection E1 as <- <- <-. destruct (fresh r k' _ _ _ Fr E2), (fresh b k' _ _ _ Fb E2).
      destruct (iv_some _ _ _ I _ _ _ _ E2) as (_ & _ & _ & _ & _ & _ & _ & _ & _ & A). split_and!; try done; lia.
    + injection E2 as <- <- <-. destruct (fresh r k _ _ _ Fr E1), (fresh b k _ _ _ Fb E1).
      destruct (iv_some _ _ _ I _ _ _ _ E1) as (_ & _ & _ & _ & _ & _ & _ & _ & _ & A). split_and!; try done; lia.
    + by eapply (iv_apart _ _ _ I).
  - intros x Px H. destruct (H fd r b (length (o_pipes s))) as [X Y]; [unfold own_set; by rewrite Z.eqb_refl|].
    rewrite C, (proj2 (Z.eqb_neq x fd)), (proj2 (Z.eqb_neq x r)), (proj2 (Z.eqb_neq x b)) by lia.
    apply (iv_rest _ _ _ I); [done|]. intros k r' b' p' E. apply (H k r' b' p').
    unfold own_set. destruct (Z.eqb_spec k fd) as [->|]; [congruence|done].
  - intros x p H. destruct (iv_old _ _ _ I x p H) as [A B]. split; [lia|].
    intros k r' b' q. unfold own_set. destruct (Z.eqb_spec k fd) as [->|]; [|by apply B].
    intros [= <- <- <-]. lia.
  - rewrite HF. apply (iv_fails _ _ _ I).
Qed.

(** ** Restoring *)
Lemma inv_ext s0 s own own' : (forall k, own' k = own k) -> inv s0 s own -> inv s0 s own'.
Proof.
  intros X [I1 I2 I3 I4 I5 I6 I7 I8].
  split; try done.
  - intros k. rewrite X. apply I1.
  - intros k K. rewrite X. by apply I3.
  - intros k r b p. rewrite X. apply I4.
  - intros k r b p k' r' b' p'. rewrite !X. apply I5.
  - intros x L H. apply I6; [done|]. intros k r b p. rewrite <- X. apply H.
  - intros x p H. destruct (I7 x p H) as [A B]. split; [done|]. intros k r b q. rewrite X. apply B.
Qed.
Lemma restore_inv s0 s s' own fd :
  inv s0 s own -> (forall k, standard k -> is_Some (connection s0 k)) -> stream_restore s fd = Done s' ->
  inv s0 s' (own_set own fd None) /\ (standard fd -> captured s' fd -> False) .
Proof.
  intros I O. unfold stream_restore.
  destruct (is_valid_fd fd) eqn:V; cbn [negb].
  2:{ intros [= <-]. assert (NS : ~ standard fd) by (rewrite <- standard_valid; congruence).
      split; [|done]. apply (inv_ext s0 s own); [|done].
      intros k. unfold own_set. destruct (Z.eqb_spec k fd) as [->|]; [|done].
      by rewrite (iv_dom _ _ _ I). }
  apply standard_valid in V. unfold info_at.
  destruct (active_owned _ _ _ _ I V) as (i & E & A). rewrite E, A.
  destruct (own fd) as [[[r b] p]|] eqn:Ow; cbn [negb].
  2:{ intros [= <-]. split.
      - apply (inv_ext s0 s own); [|done].
        intros k. unfold own_set. destruct (Z.eqb_spec k fd) as [->|]; done.
      - intros _ (i' & E' & A'). rewrite E in E'. congruence. }
  destruct (iv_some _ _ _ I _ _ _ _ Ow) as (H1 & _). rewrite E in H1. injection H1 as ->.
  destruct (flush s fd) as [s1| |] eqn:EF; cbn [ebind]; try done.
  cbn [i_read i_backup].
  pose proof (shape_trans _ _ _ (flush_shape _ _ _ EF) (drain_shape (reads s1 r) s1 r)) as SH.
  set (s2 := drain (reads s1 r) s1 r) in *.
  pose proof (inv_shape _ _ _ _ I SH) as I2. clear I EF E.
  rewrite (iv_fails _ _ _ I2). cbn [pop].
  destruct (iv_some _ _ _ I2 _ _ _ _ Ow) as (A1 & A2 & A3 & A4 & A5 & A6 & A7 & A8 & A9 & A10).
  unfold sys_dup2. cbn [with_fails2 o_fds]. fold (connection s2 b). rewrite A4.
  destruct (O fd V) as [t T]. rewrite T.
  intros [= <-].
  set (s3 := set_info _ _ _).
  pose proof (iv_len _ _ _ I2) as L3.
  assert (C : forall x, connection s3 x =
     if x =? r then None else if x =? b then None else if x =? fd then connection s0 fd else connection s2 x).
  { intros x. unfold connection, s3. cbn. rewrite !get_close. destruct (x =? r); [done|].
    destruct (x =? b); [done|]. rewrite get_insert; [|unfold standard in V; lia|by eapply get_open_length].
    fold (connection s0 fd). rewrite T. done. }
  assert (HI : o_infos s3 = <[Z.to_nat fd := Info (-1) (-1) (-1) (-1) false]> (o_infos s2)) by done.
  assert (HP : o_pipes s3 = o_pipes s2) by done.
  assert (HF : o_fails2 s3 = []) by done.
  clearbody s3. unfold standard in V.
  split.
  2:{ intros _ (i & Ei & Ai). rewrite HI, list_insert_info, Z.eqb_refl in Ei by done. by injection Ei as <-. }
  split.
  - intros k Nk. unfold own_set. destruct (k =? fd); [done|]. by apply (iv_dom _ _ _ I2).
  - by rewrite HI, insert_length.
  - intros k Kk. unfold own_set. rewrite HI, list_insert_info, C by done. unfold standard in Kk.
    rewrite (proj2 (Z.eqb_neq k r)), (proj2 (Z.eqb_neq k b)) by lia.
    destruct (Z.eqb_spec k fd) as [->|D].
    + intros _. split; [by eexists|done].
    + intros Nk. by apply (iv_none _ _ _ I2).
  - intros k r' b' p'. unfold own_set. destruct (Z.eqb_spec k fd) as [->|D]; [done|]. intros Ek.
    pose proof (inv_standard _ _ _ _ _ I2 Ek) as Kk.
    destruct (iv_some _ _ _ I2 _ _ _ _ Ek) as (B1 & B2 & B3 & B4 & B5 & B6 & B7 & B8 & B9 & B10).
    destruct (iv_apart _ _ _ I2 _ _ _ _ _ _ _ _ Ow Ek) as (C1 & C2 & C3 & C4); [done|].
    destruct (iv_apart _ _ _ I2 _ _ _ _ _ _ _ _ Ek Ow) as (_ & C5 & _ & _); [done|].
    rewrite HI, list_insert_info, (proj2 (Z.eqb_neq _ _) D), HP by done. rewrite !C. unfold standard in Kk.
    rewrite (proj2 (Z.eqb_neq _ _) D), (proj2 (Z.eqb_neq k r)), (proj2 (Z.eqb_neq k b)),
       (proj2 (Z.eqb_neq r' fd)), (proj2 (Z.eqb_neq r' r)), (proj2 (Z.eqb_neq r' b)),
       (proj2 (Z.eqb_neq b' fd)), (proj2 (Z.eqb_neq b' r)), (proj2 (Z.eqb_neq b' b)) by lia.
    split_and!; done.
  - intros k r1 b1 p1 k' r2 b2 p2. unfold own_set.
    destruct (Z.eqb_spec k fd) as [->|D], (Z.eqb_spec k' fd) as [->|D']; try done.
    apply (iv_apart _ _ _ I2).
  - intros x Px H. rewrite C. destruct (Z.eqb_spec x r) as [->|D1]; [done|].
    destruct (Z.eqb_spec x b) as [->|D2]; [done|]. rewrite (proj2 (Z.eqb_neq x fd)) by lia.
    apply (iv_rest _ _ _ I2); [done|]. intros k r' b' p' E'. destruct (decide (k = fd)) as [->|D].
    + rewrite Ow in E'. injection E' as <- <- <-. done.
    + apply (H k r' b' p'). unfold own_set. by rewrite (proj2 (Z.eqb_neq _ _) D).
  - intros x q H. rewrite HP. destruct (iv_old _ _ _ I2 x q H) as [A' B]. split; [done|].
    intros k r' b' q'. unfold own_set. destruct (k =? fd); [done|]. apply B.
  - done.
Qed.

(** ** What other streams do to a pipe *)
Lemma other_target s0 s own k k' r b p :
  inv s0 s own -> own k = Some (r, b, p) -> standard k' -> k' <> k -> connection s k' <> Some (TPipeW p).
Proof.
  intros I E S D X. destruct (own k') as [[[r' b'] p']|] eqn:E'.
  - destruct (iv_some _ _ _ I _ _ _ _ E') as (_ & A & _). rewrite X in A. injection A as <-.
    by destruct (iv_apart _ _ _ I _ _ _ _ _ _ _ _ E E') as (_ & _ & _ & N).
  - destruct (iv_none _ _ _ I k' S E') as [_ A]. rewrite X in A.
    destruct (iv_old _ _ _ I k' p) as [_ N]; [by right|]. by apply (N _ _ _ _ E).
Qed.
Lemma write_pipe s fd t s' p :
  sys_write s fd t = Done s' -> connection s fd <> Some (TPipeW p) -> o_pipes s' !! p = o_pipes s !! p.
Proof.
  unfold sys_write, connection. destruct (fd_get (o_fds s) fd) as [[n|q|q]|]; try (by intros [= <-]).
  destruct (o_pipes s !! q); [|by intros [= <-]].
  destruct (_ <=? _); [|done]. intros [= <-] N. cbn. apply list_lookup_insert_ne. congruence.
Qed.
Lemma write_pending s fd t s' :
  sys_write s fd t = Done s' -> o_pending s' = o_pending s /\ o_mem s' = o_mem s.
Proof.
  unfold sys_write. destruct (fd_get (o_fds s) fd) as [[n|q|q]|]; try (by intros [= <-]).
  destruct (o_pipes s !! q); [|by intros [= <-]].
  destruct (_ <=? _); [|done]. by intros [= <-].
Qed.
Lemma write_into s fd t s' p c :
  sys_write s fd t = Done s' -> connection s fd = Some (TPipeW p) -> o_pipes s !! p = Some c ->
  o_pipes s' = <[p := c ++ t]> (o_pipes s).
Proof.
  unfold sys_write, connection. intros E C P. rewrite C, P in E. destruct (_ <=? _); [|done].
  by injection E as <-.
Qed.
Lemma write_never_bad s fd t : match sys_write s fd t with Bad _ => False | _ => True end.
Proof.
  unfold sys_write. destruct (fd_get (o_fds s) fd) as [[n|q|q]|]; try done.
  destruct (o_pipes s !! q); [|done]. by destruct (_ <=? _).
Qed.
Lemma flush_never_bad s fd : match flush s fd with Bad _ => False | _ => True end.
Proof.
  unfold flush, flush_out. destruct (fd =? 1); [|done]. destruct (o_pending s); [done|].
  apply write_never_bad.
Qed.
Lemma flush_other s fd s' p :
  flush s fd = Done s' -> connection s fd <> Some (TPipeW p) -> o_pipes s' !! p = o_pipes s !! p.
Proof.
  unfold flush. destruct (Z.eqb_spec fd 1) as [->|]; [|by intros [= <-]].
  unfold flush_out. destruct (o_pending s) eqn:E; [by intros [= <-]|]. intros W N.
  rewrite (write_pipe _ _ _ _ p W); done.
Qed.
Lemma flush_held s fd s' k : flush s fd = Done s' -> k <> fd -> held s' k = held s k.
Proof.
  unfold flush, held. intros W N. destruct (Z.eqb_spec fd 1) as [->|].
  - by rewrite (proj2 (Z.eqb_neq _ _) N).
  - injection W as <-. done.
Qed.
Lemma flush_own s fd s' p c :
  flush s fd = Done s' -> connection s fd = Some (TPipeW p) -> o_pipes s !! p = Some c ->
  o_pipes s' = <[p := c ++ held s fd]> (o_pipes s) /\ held s' fd = [] /\ o_mem s' = o_mem s.
Proof.
  unfold flush, held. intros W C P. destruct (Z.eqb_spec fd 1) as [->|].
  - unfold flush_out in W. destruct (o_pending s) as [|x u] eqn:E.
    + injection W as <-. rewrite app_nil_r, list_insert_id by done. done.
    + destruct (write_pending _ _ _ _ W) as [Wp Wm]. cbn in Wp, Wm.
      pose proof (write_into _ _ _ _ p c W C P) as Wi. done.
  - injection W as <-. rewrite app_nil_r, list_insert_id by done. done.
Qed.
Lemma read_other s fd n t s' p q :
  sys_read s fd n = (t, s') -> connection s fd = Some (TPipeR q) -> p <> q ->
  o_pipes s' !! p = o_pipes s !! p /\ o_pending s' = o_pending s.
Proof.
  unfold sys_read, connection. intros E C N. rewrite C in E.
  destruct (o_pipes s !! q); injection E as <- <-; [|done]. cbn. split; [|done].
  by rewrite list_lookup_insert_ne.
Qed.
Lemma drain_other fuel p q : p <> q -> forall s fd, connection s fd = Some (TPipeR q) ->
  o_pipes (drain fuel s fd) !! p = o_pipes s !! p /\ o_pending (drain fuel s fd) = o_pending s.
Proof.
  intros N. induction fuel as [|fuel IH]; intros s fd C; [done|]. cbn [drain].
  destruct (sys_read s fd BUFFER_SIZE) as [t s1] eqn:E.
  destruct (read_other _ _ _ _ _ p q E C N) as [A B].
  destruct t; [done|]. destruct (IH s1 fd) as [A' B'].
  - pose proof (read_shape _ _ _ _ _ E) as (F & _). unfold connection. by rewrite F.
  - by rewrite A', B'.
Qed.
Lemma owned_pipe s0 s own k r b p : inv s0 s own -> own k = Some (r, b, p) -> exists c, o_pipes s !! p = Some c.
Proof.
  intros I E. destruct (iv_some _ _ _ I _ _ _ _ E) as (_ & _ & _ & _ & _ & _ & _ & _ & _ & L).
  by apply lookup_lt_is_Some_2 in L.
Qed.
Lemma reads_enough s fd p c :
  connection s fd = Some (TPipeR p) -> o_pipes s !! p = Some c -> (length c < reads s fd)%nat.
Proof. unfold reads, connection. intros -> ->. lia. Qed.

(** ** Reading *)
Definition handed_out (t : cstr) (mem : list bool) (r : option bytes) : Prop :=
  r = block_of t \/ mem <> [] /\ (r = None \/ exists rest, r = Some (map Some t ++ Some terminator :: rest)).
Lemma stream_read_spec s0 s own fd r b p :
  inv s0 s own -> own fd = Some (r, b, p) ->
  stream_read s fd = Blocked \/
  exists x s', stream_read s fd = Done (x, s') /\ same_shape s s' /\ handed_out (unread s fd) (o_mem s) x /\
    (forall q, q <> p -> o_pipes s' !! q = o_pipes s !! q) /\ (forall k, k <> fd -> held s' k = held s k) /\
    (o_mem s = [] -> o_mem s' = [] /\ unread s' fd = []).
Proof.
  intros I E. pose proof (inv_standard _ _ _ _ _ I E) as S.
  destruct (iv_some _ _ _ I _ _ _ _ E) as (A1 & A2 & A3 & A4 & A5 & A6 & A7 & A8 & A9 & A10).
  destruct (owned_pipe _ _ _ _ _ _ _ I E) as [c P].
  unfold stream_read. rewrite (proj2 (standard_valid fd) S). unfold info_at. rewrite A1.
  cbn [negb i_active i_read].
  pose proof (flush_never_bad s fd) as NB.
  destruct (flush s fd) as [s1| |] eqn:EF; cbn [ebind]; [|by left|done].
  pose proof (flush_shape _ _ _ EF) as SH1. destruct (flush_own _ _ _ _ _ EF A2 P) as (P1 & H1 & M1).
  set (u := c ++ held s fd) in *.
  assert (U : unread s fd = u) by (unfold unread, in_pipe; by rewrite A2, P).
  assert (C1 : connection s1 r = Some (TPipeR p)) by (destruct SH1 as (X & _); unfold connection; by rewrite X).
  assert (Pu : o_pipes s1 !! p = Some u).
  { rewrite P1. apply list_lookup_insert. by apply lookup_lt_Some in P. }
  assert (O1 : forall q, q <> p -> o_pipes s1 !! q = o_pipes s !! q).
  { intros q N. rewrite P1. by apply list_lookup_insert_ne. }
  assert (h1 : forall k, k <> fd -> held s1 k = held s k) by (intros k N; by apply (flush_held _ _ _ _ EF)).
  destruct (read_loop_spec (reads s1 r) s1 r p u [] [] C1 Pu) as [(s2 & L & M)|(rest & s2 & L & R & Em & n & M)];
    [by apply (reads_enough _ _ p)|by left| |]; cbn [map app length] in L; rewrite L; cbn [ebind].
  - right. exists None, s2. pose proof (read_loop_shape _ _ _ _ _ _ _ L) as SH2.
    split; [done|]. split; [by eapply shape_trans|]. rewrite M1 in M.
    split; [right; split; [done|by left]|].
    assert (X : (forall q, q <> p -> o_pipes s2 !! q = o_pipes s1 !! q) /\ o_pending s2 = o_pending s1).
    { clear -L C1. revert L C1. generalize (@nil (option ascii)) as l, 0%nat as n, (reads s1 r) as fuel.
      intros l n fuel. revert s1 l n.
      induction fuel as [|fuel IH]; intros s1 l n L C1; [done|]. cbn [read_loop] in L.
      destruct (sys_read s1 r BUFFER_SIZE) as [t s3] eqn:Er.
      assert (Q : forall q, q <> p -> o_pipes s3 !! q = o_pipes s1 !! q /\ o_pending s3 = o_pending s1).
      { intros q N. by apply (read_other _ _ _ _ _ q p Er C1 N). }
      assert (Q2 : o_pending s3 = o_pending s1) by (destruct (Q (1 + p)%nat); [lia|done]).
      destruct (read_shape _ _ _ _ _ Er) as (Fd & _).
      destruct t as [|x t]; [done|].
      destruct (_ <? _)%nat.
      - destruct (pop (o_mem s3)) as [bad m]. destruct bad.
        { injection L as <-. cbn. split; [|done]. intros q N. by apply Q. }
        destruct (write _ _ _) as [l'|]; [|done].
        destruct (IH _ _ _ L) as [B1 B2]; [unfold connection; cbn; by rewrite Fd|].
        cbn in B1, B2. split; [|congruence]. intros q N. rewrite B1 by done. by apply Q.
      - destruct (write _ _ _) as [l'|]; [|done].
        destruct (IH _ _ _ L) as [B1 B2]; [unfold connection; cbn; by rewrite Fd|].
        split; [|congruence]. intros q N. rewrite B1 by done. by apply Q. }
    destruct X as [X1 X2]. split; [intros q N; rewrite X1 by done; by apply O1|].
    split; [|done]. intros k N. rewrite <- h1 by done. unfold held. by rewrite X2.
  - destruct Em as (E1 & E2 & E3 & E4 & E5 & E6).
    pose proof (read_loop_shape _ _ _ _ _ _ _ L) as SH2.
    assert (SH : same_shape s s2) by (by eapply shape_trans).
    assert (O2 : forall q, q <> p -> o_pipes s2 !! q = o_pipes s !! q).
    { intros q N. rewrite E1, list_lookup_insert_ne by done. by apply O1. }
    assert (h2 : forall k, held s2 k = held s1 k) by (intros k; unfold held; by rewrite E4).
    assert (fin : forall s', same_shape s s' -> o_pipes s' = o_pipes s2 -> o_pending s' = o_pending s2 ->
        unread s' fd = []).
    { intros s' (F & _) Q1 Q2. unfold unread, in_pipe, connection. rewrite F. unfold connection in A2. rewrite A2.
      rewrite Q1, E1, list_lookup_insert by (by apply lookup_lt_Some in Pu). cbn.
      unfold held. rewrite Q2. fold (held s2 fd). rewrite h2. done. }
    rewrite U. destruct (Nat.eqb_spec (length u) 0) as [Z0|NZ].
    + right. exists None, s2. split; [done|]. split; [done|]. split.
      { left. by destruct u. }
      split; [done|]. split; [intros k N; by rewrite h2, h1|]. intros M0. rewrite M, M1, M0, drop_nil.
      split; [done|]. by apply fin.
    + destruct rest as [|x rest]; [destruct R as [R|R]; [cbn in R; by rewrite R in NZ|cbn in R; lia]|].
      assert (BU : block_of u = Some (map Some u ++ [Some terminator])) by (clearbody u; by destruct u).
      clearbody u.
      rewrite write_after by (cbn; lia). cbn [length]. change (drop 1 (x :: rest)) with rest.
      destruct (pop (o_mem s2)) as [bad l] eqn:Ep.
      right. eexists _, _. split; [done|].
      split; [exact SH|]. split.
      { destruct bad.
        - right. rewrite <- M1. split; [intros X; rewrite M, X, drop_nil in Ep; cbn in Ep; congruence|]. right.
          exists rest. by rewrite map_app, <- app_assoc.
        - left. rewrite BU. f_equal. unfold realloc_to.
          rewrite map_app, <- app_assoc. cbn [map app].
          replace (map Some u ++ Some terminator :: rest) with ((map Some u ++ [Some terminator]) ++ rest)
            by (by rewrite <- app_assoc).
          rewrite take_app_alt by (rewrite app_length, map_length; cbn; lia).
          replace (_ - _)%nat with 0%nat; [by rewrite app_nil_r|].
          rewrite !app_length, map_length. cbn [length]. lia. }
      split; [done|]. split; [intros k N; unfold held; cbn; fold (held s2 k); by rewrite h2, h1|].
      intros M0. rewrite M, M1, M0, drop_nil in Ep. injection Ep as <- <-. split; [done|]. by apply fin.
Qed.

(** ** Whole programs *)
Lemma unread_eq s0 s own k r b p :
  inv s0 s own -> own k = Some (r, b, p) -> unread s k = default [] (o_pipes s !! p) ++ held s k.
Proof.
  intros I E. destruct (iv_some _ _ _ I _ _ _ _ E) as (_ & A & _). unfold unread, in_pipe. by rewrite A.
Qed.
Lemma restore_bad s0 s own fd : inv s0 s own -> match stream_restore s fd with Bad _ => False | _ => True end.
Proof.
  intros I. unfold stream_restore, info_at. destruct (is_valid_fd fd) eqn:V; [|done]. cbn [negb].
  apply standard_valid in V. destruct (active_owned _ _ _ _ I V) as (i & -> & _).
  destruct (i_active i); [|done]. cbn [negb]. pose proof (flush_never_bad s fd).
  destruct (flush s fd) as [s1| |]; [|done..]. cbn [ebind]. destruct (pop _). by destruct (sys_dup2 _ _ _ _).
Qed.
Lemma restore_other s0 s own fd s' k r b p :
  inv s0 s own -> own k = Some (r, b, p) -> k <> fd -> stream_restore s fd = Done s' ->
  o_pipes s' !! p = o_pipes s !! p /\ held s' k = held s k.
Proof.
  intros I E N. unfold stream_restore, info_at.
  destruct (is_valid_fd fd) eqn:V; cbn [negb]; [|by intros [= <-]].
  apply standard_valid in V.
  destruct (active_owned _ _ _ _ I V) as (i & Ei & A). rewrite Ei, A.
  destruct (own fd) as [[[r' b'] p']|] eqn:Ow; cbn [negb]; [|by intros [= <-]].
  destruct (iv_some _ _ _ I _ _ _ _ Ow) as (H1 & H2 & H3 & _). rewrite Ei in H1. injection H1 as ->.
  destruct (flush s fd) as [s1| |] eqn:EF; cbn [ebind]; try done. cbn [i_read i_backup].
  pose proof (other_target _ _ _ _ fd _ _ _ I E V (not_eq_sym N)) as OT.
  pose proof (flush_other _ _ _ p EF OT) as F1. pose proof (flush_held _ _ _ k EF N) as F2.
  destruct (flush_shape _ _ _ EF) as (F3 & _).
  destruct (iv_apart _ _ _ I _ _ _ _ _ _ _ _ E Ow) as (_ & _ & _ & N4); [done|].
  destruct (drain_other (reads s1 r') p p' N4 s1 r') as [D1 D2].
  { unfold connection. rewrite F3. exact H3. }
  destruct (pop _) as [bad l]. set (s2 := drain _ _ _) in *.
  assert (X : forall y s3, sys_dup2 bad (with_fails2 s2 l) b' fd = (y, s3) ->
             o_pipes s3 = o_pipes s2 /\ o_pending s3 = o_pending s2).
  { unfold sys_dup2. intros y s3. destruct (fd_get _ _); [destruct bad|]; by intros [= <- <-]. }
  destruct (sys_dup2 bad (with_fails2 s2 l) b' fd) as [y s3]. destruct (X _ _ eq_refl) as [X1 X2].
  intros [= <-]. cbn. split; [by rewrite X1, D1|]. rewrite <- F2. unfold held. cbn. by rewrite X2, D2.
Qed.
Lemma cleanup_inv s0 s own i s' :
  inv s0 s own -> (forall k, standard k -> is_Some (connection s0 k)) -> cleanup_one s i = Done s' ->
  exists own', inv s0 s' own'.
Proof.
  intros I O. unfold cleanup_one. destruct (o_infos s !! i) as [x|]; [|done].
  destruct (i_active x); [|intros [= <-]; by exists own].
  intros E. destruct (restore_inv _ _ _ _ _ I O E) as [I' _]. by eexists.
Qed.
Lemma cleanup_bad s0 s own i : inv s0 s own -> (i < 3)%nat -> match cleanup_one s i with Bad _ => False | _ => True end.
Proof.
  intros I L. unfold cleanup_one. destruct (o_infos s !! i) as [x|] eqn:E.
  - destruct (i_active x); [|done]. by eapply restore_bad.
  - apply lookup_ge_None_1 in E. rewrite (iv_len _ _ _ I) in E. lia.
Qed.

Lemma step_spec s0 s own o :
  inv s0 s own -> (forall k, standard k -> is_Some (connection s0 k)) ->
  match step s o with
  | Bad _ => False
  | Blocked => True
  | Done s' => exists own', inv s0 s' own' /\
      forall k v, own k = Some v -> leaves_alone k o = true ->
        own' k = Some v /\ unread s' k = unread s k ++ said k [o]
  end.
Proof.
  intros I O.
  assert (same : forall o', exists own', inv s0 s own' /\ forall k v, own k = Some v -> leaves_alone k o' = true ->
        own' k = Some v /\ unread s k = unread s k ++ []).
  { intros o'. exists own. split; [done|]. intros. by rewrite app_nil_r. }
  destruct o as [fd|fd|fd| |t n|t]; cbn [step].
  - (* redirect *)
    unfold stream_redirect at 1. destruct (is_valid_fd fd) eqn:V; cbn [negb]; [|apply (same (ORedirect fd))].
    pose proof (proj1 (standard_valid fd) V) as S.
    destruct (active_owned _ _ _ _ I S) as (i & Ei & A). unfold info_at at 1. rewrite Ei.
    destruct (own fd) as [v|] eqn:Ow; rewrite A; [apply (same (ORedirect fd))|].
    destruct (redirect_char s fd i S Ei A (inv_open _ _ _ _ I O S)) as (c & s' & E & H).
    unfold stream_redirect, info_at in E. rewrite V, Ei, A in E. cbn [negb] in E. rewrite E. cbn [ebind].
    destruct H as [[_ U]|[_ (r & b & T)]].
    + exists own. pose proof (unchanged_inv _ _ _ _ _ I S Ow U) as I'. split; [done|].
      intros k [[r b] p] Ek _. split; [done|]. cbn [said]. rewrite app_nil_r.
      rewrite (unread_eq _ _ _ _ _ _ _ I Ek), (unread_eq _ _ _ _ _ _ _ I' Ek).
      destruct U as (_ & _ & (l & P) & _ & _ & Pe & _). unfold held. rewrite Pe. f_equal.
      destruct (owned_pipe _ _ _ _ _ _ _ I Ek) as [c' Pc]. rewrite P, lookup_app_l; [done|].
      by apply lookup_lt_Some in Pc.
    + exists (own_set own fd (Some (r, b, length (o_pipes s)))).
      pose proof (taken_inv _ _ _ _ _ _ _ I O S Ow T) as I'. split; [done|].
      intros k [[r' b'] p] Ek _.
      assert (N : own_set own fd (Some (r, b, length (o_pipes s))) k = Some (r', b', p)).
      { unfold own_set. destruct (Z.eqb_spec k fd) as [->|]; congruence. }
      split; [done|]. cbn [said]. rewrite app_nil_r.
      rewrite (unread_eq _ _ _ _ _ _ _ I Ek), (unread_eq _ _ _ _ _ _ _ I' N).
      destruct T as (_ & _ & _ & _ & _ & _ & _ & P & _ & _ & Pe & _). unfold held. rewrite Pe. f_equal.
      destruct (owned_pipe _ _ _ _ _ _ _ I Ek) as [c' Pc]. rewrite P, lookup_app_l; [done|].
      by apply lookup_lt_Some in Pc.
  - (* read *)
    destruct (own fd) as [[[r b] p]|] eqn:Ow.
    + destruct (stream_read_spec _ _ _ _ _ _ _ I Ow) as [->|(x & s' & -> & SH & _ & P & H & _)]; [done|].
      cbn [ebind]. pose proof (inv_shape _ _ _ _ I SH) as I'. exists own. split; [done|].
      intros k [[r' b'] p'] Ek L. cbn [leaves_alone] in L. apply negb_true_iff, Z.eqb_neq in L.
      split; [done|]. cbn [said]. rewrite app_nil_r.
      rewrite (unread_eq _ _ _ _ _ _ _ I Ek), (unread_eq _ _ _ _ _ _ _ I' Ek).
      destruct (iv_apart _ _ _ I _ _ _ _ _ _ _ _ Ek Ow L) as (_ & _ & _ & N4).
      rewrite P, H by done. done.
    + unfold stream_read, info_at. destruct (is_valid_fd fd) eqn:V; cbn [negb]; [|apply (same (ORead fd))].
      apply standard_valid in V. destruct (active_owned _ _ _ _ I V) as (i & -> & ->). rewrite Ow.
      apply (same (ORead fd)).
  - (* restore *)
    pose proof (restore_bad _ _ _ fd I) as NB. destruct (stream_restore s fd) as [s'| |] eqn:E; [|done..].
    destruct (restore_inv _ _ _ _ _ I O E) as [I' _]. eexists. split; [exact I'|].
    intros k [[r' b'] p'] Ek L. cbn [leaves_alone] in L. apply negb_true_iff, Z.eqb_neq in L.
    assert (N : own_set own fd None k = Some (r', b', p')).
    { unfold own_set. by rewrite (proj2 (Z.eqb_neq _ _) L). }
    split; [done|]. cbn [said]. rewrite app_nil_r.
    rewrite (unread_eq _ _ _ _ _ _ _ I Ek), (unread_eq _ _ _ _ _ _ _ I' N).
    destruct (restore_other _ _ _ _ _ _ _ _ _ I Ek L E) as [-> ->]. done.
  - (* cleanup *)
    unfold stream_cleanup_all.
    pose proof (cleanup_bad _ _ _ 0 I ltac:(lia)) as B0. destruct (cleanup_one s 0) as [s1| |] eqn:E0; [|done..].
    destruct (cleanup_inv _ _ _ _ _ I O E0) as [own1 I1]. cbn [ebind].
    pose proof (cleanup_bad _ _ _ 1 I1 ltac:(lia)) as B1. destruct (cleanup_one s1 1) as [s2| |] eqn:E1; [|done..].
    destruct (cleanup_inv _ _ _ _ _ I1 O E1) as [own2 I2]. cbn [ebind].
    pose proof (cleanup_bad _ _ _ 2 I2 ltac:(lia)) as B2. destruct (cleanup_one s2 2) as [s3| |] eqn:E2; [|done..].
    destruct (cleanup_inv _ _ _ _ _ I2 O E2) as [own3 I3]. by exists own3.
  - (* stdout *)
    assert (NB : match print_out s t n with Bad _ => False | _ => True end).
    { unfold print_out. destruct (take _ _); [done|]. apply write_never_bad. }
    destruct (print_out s t n) as [s'| |] eqn:E; [|done..].
    pose proof (inv_shape _ _ _ _ I (print_out_shape _ _ _ _ E)) as I'. exists own. split; [done|].
    intros k [[r b] p] Ek _. split; [done|]. cbn [said]. rewrite app_nil_r.
    rewrite (unread_eq _ _ _ _ _ _ _ I Ek), (unread_eq _ _ _ _ _ _ _ I' Ek).
    destruct (owned_pipe _ _ _ _ _ _ _ I Ek) as [c Pc].
    unfold print_out in E. destruct (Z.eqb_spec k 1) as [->|N].
    + destruct (iv_some _ _ _ I _ _ _ _ Ek) as (_ & A & _). unfold held. cbn [Z.eqb Pos.eqb].
      rewrite Pc. cbn [default]. destruct (take n (o_pending s ++ t)) as [|x u] eqn:Et.
      * injection E as <-. cbn. rewrite Pc. cbn. rewrite <- app_assoc. f_equal.
        rewrite <- (take_drop n (o_pending s ++ t)) at 2. by rewrite Et.
      * destruct (write_pending _ _ _ _ E) as [Wp _]. rewrite Wp.
        rewrite (write_into _ _ _ _ p c E A Pc). cbn [with_pending o_pipes o_pending].
        rewrite list_lookup_insert by (by apply lookup_lt_Some in Pc). cbn [default from_option id].
        rewrite <- !app_assoc. f_equal. rewrite <- Et. by rewrite take_drop.
    + rewrite app_nil_r. unfold held. rewrite (proj2 (Z.eqb_neq _ _) N).
      destruct (take n (o_pending s ++ t)) as [|x u] eqn:Et; [by injection E as <-|].
      rewrite (write_pipe _ _ _ _ p E); [done|].
      apply (other_target s0 s own k 1 r b p); [done|done|unfold standard; lia|done].
  - (* stderr *)
    unfold print_err. pose proof (write_never_bad s 2 t) as NB.
    destruct (sys_write s 2 t) as [s'| |] eqn:E; [|done..].
    pose proof (inv_shape _ _ _ _ I (write_shape _ _ _ _ E)) as I'. exists own. split; [done|].
    intros k [[r b] p] Ek _. split; [done|]. cbn [said]. rewrite app_nil_r.
    rewrite (unread_eq _ _ _ _ _ _ _ I Ek), (unread_eq _ _ _ _ _ _ _ I' Ek).
    destruct (owned_pipe _ _ _ _ _ _ _ I Ek) as [c Pc]. destruct (write_pending _ _ _ _ E) as [Wp _].
    destruct (Z.eqb_spec k 2) as [->|N].
    + destruct (iv_some _ _ _ I _ _ _ _ Ek) as (_ & A & _). unfold held. cbn [Z.eqb Pos.eqb].
      rewrite (write_into _ _ _ _ p c E A Pc).
      rewrite list_lookup_insert by (by apply lookup_lt_Some in Pc). rewrite Pc. cbn. by rewrite !app_nil_r.
    + rewrite app_nil_r. unfold held. rewrite Wp. rewrite (write_pipe _ _ _ _ p E); [done|].
      apply (other_target s0 s own k 2 r b p); [done|done|unfold standard; lia|done].
Qed.
Lemma said_app fd ops : forall ops', said fd (ops ++ ops') = said fd ops ++ said fd ops'.
Proof.
  induction ops as [|o ops IH]; intros ops'; [done|]. destruct o; cbn; rewrite ?IH; try done; by rewrite app_assoc.
Qed.
Lemma run_spec s0 ops : forall s own,
  inv s0 s own -> (forall k, standard k -> is_Some (connection s0 k)) ->
  match run s ops with
  | Bad _ => False
  | Blocked => True
  | Done s' => exists own', inv s0 s' own' /\
      forall k v, own k = Some v -> forallb (leaves_alone k) ops = true ->
        own' k = Some v /\ unread s' k = unread s k ++ said k ops
  end.
Proof.
  induction ops as [|o ops IH]; intros s own I O; cbn [run].
  - exists own. split; [done|]. intros. cbn. by rewrite app_nil_r.
  - pose proof (step_spec _ _ _ o I O) as S. destruct (step s o) as [s1| |]; [|done..]. cbn [ebind].
    destruct S as (own1 & I1 & S). specialize (IH _ _ I1 O). destruct (run s1 ops) as [s2| |]; [|done..].
    destruct IH as (own2 & I2 & IH). exists own2. split; [done|]. intros k v E L. cbn in L.
    apply andb_true_iff in L as [L1 L2]. destruct (S k v E L1) as [E1 U1].
    destruct (IH k v E1 L2) as [E2 U2]. split; [done|]. rewrite U2, U1, <- app_assoc. f_equal.
    by rewrite <- said_app.
Qed.
Lemma reached_inv s0 s : reached s0 s -> exists own, inv s0 s own /\ forall k, standard k -> is_Some (connection s0 k).
Proof.
  intros [F [ops R]]. pose proof (fs_open _ F) as O. pose proof (run_spec _ ops _ _ (inv_start _ F) O) as S.
  rewrite R in S. destruct S as (own & I & _). by exists own.
Qed.
Lemma captured_owned s0 s own k : inv s0 s own -> standard k -> captured s k <-> is_Some (own k).
Proof.
  intros I S. destruct (active_owned _ _ _ _ I S) as (i & E & A). split.
  - intros (j & Ej & Aj). rewrite E in Ej. injection Ej as <-. rewrite A in Aj. by destruct (own k).
  - intros [v Ev]. exists i. split; [done|]. by rewrite A, Ev.
Qed.

(** ** C48 *)
Lemma stream_safe s0 ops : fresh_start s0 -> match run s0 ops with Bad _ => False | _ => True end.
Proof.
  intros F. pose proof (run_spec _ ops _ _ (inv_start _ F) (fs_open _ F)) as S. by destruct (run s0 ops).
Qed.
Lemma back_again s0 s fd : reached s0 s -> standard fd -> ~ captured s fd -> connection s fd = connection s0 fd.
Proof.
  intros R S N. destruct (reached_inv _ _ R) as (own & I & O).
  destruct (own fd) eqn:E; [|by apply (iv_none _ _ _ I)].
  exfalso. apply N. apply (captured_owned _ _ _ _ I S). by rewrite E.
Qed.
Lemma none_left s0 s : reached s0 s -> (forall fd, standard fd -> ~ captured s fd) ->
  forall fd, connection s fd = connection s0 fd.
Proof.
  intros R N fd. destruct (decide (0 <= fd <= 2)) as [S|S]; [by apply back_again; [done|..|apply N]|].
  destruct (decide (fd < 0)) as [L|L]; [unfold connection; by rewrite !get_neg|].
  destruct (reached_inv _ _ R) as (own & I & O). apply (iv_rest _ _ _ I); [lia|].
  intros k r b p E. pose proof (inv_standard _ _ _ _ _ I E) as K. exfalso. apply (N k K).
  apply (captured_owned _ _ _ _ I K). by rewrite E.
Qed.
Lemma others_kept s0 s fd : reached s0 s -> ~ standard fd -> is_Some (connection s0 fd) ->
  connection s fd = connection s0 fd.
Proof.
  intros R N [t T]. destruct (reached_inv _ _ R) as (own & I & O).
  assert (0 <= fd) by (by eapply get_some_pos). unfold standard in N.
  apply (iv_rest _ _ _ I); [lia|]. intros k r b p E.
  destruct (iv_some _ _ _ I _ _ _ _ E) as (_ & _ & _ & _ & _ & _ & _ & A & B & _). split; intros ->; congruence.
Qed.
Lemma restored s0 s fd s' : reached s0 s -> standard fd -> stream_restore s fd = Done s' ->
  connection s' fd = connection s0 fd /\ ~ captured s' fd.
Proof.
  intros R S E. destruct (reached_inv _ _ R) as (own & I & O).
  destruct (restore_inv _ _ _ _ _ I O E) as [I' N]. split; [|intros C; by apply N].
  apply (iv_none _ _ _ I'); [done|]. unfold own_set. by rewrite Z.eqb_refl.
Qed.
Lemma redirect_cases s0 s fd : reached s0 s -> standard fd ->
  exists c s', stream_redirect s fd = Done (c, s') /\
  (c = STREAM_SUCCESS -> ~ captured s fd /\ captured s' fd /\ connection s' fd = Some (TPipeW (length (o_pipes s)))
     /\ unread s' fd = held s fd) /\
  (c <> STREAM_SUCCESS -> (forall x, connection s' x = connection s x) /\ (forall k, captured s' k <-> captured s k)
     /\ (captured s fd \/ o_fails s <> [])).
Proof.
  intros R S. destruct (reached_inv _ _ R) as (own & I & O).
  destruct (active_owned _ _ _ _ I S) as (i & Ei & A).
  destruct (own fd) as [v|] eqn:Ow.
  { exists STREAM_ERROR_ALREADY_ACTIVE, s. unfold stream_redirect, info_at.
    rewrite (proj2 (standard_valid fd) S), Ei, A. split; [done|]. split; [done|]. intros _.
    split; [done|]. split; [done|]. left. apply (captured_owned _ _ _ _ I S). by rewrite Ow. }
  destruct (redirect_char s fd i S Ei A (inv_open _ _ _ _ I O S)) as (c & s' & E & [[N U]|[-> (r & b & T)]]).
  - exists c, s'. split; [done|]. split; [done|]. intros _. destruct U as (C & [j J] & _ & _ & _ & _ & _ & _ & F).
    split; [done|]. split; [|by right]. destruct J as [J|[J Aj]]; unfold captured; rewrite J; [done|].
    intros k. pose proof (iv_len _ _ _ I) as L3.
    destruct (decide (Z.to_nat k = Z.to_nat fd)) as [->|D].
    + rewrite list_lookup_insert by (unfold standard in S; lia). split.
      * intros (x & Ex & Ax). injection Ex as <-. congruence.
      * intros (x & Ex & Ax). rewrite Ei in Ex. injection Ex as <-. congruence.
    + by rewrite list_lookup_insert_ne.
  - exists STREAM_SUCCESS, s'. split; [done|]. split; [|done]. intros _.
    destruct T as (_ & _ & _ & _ & _ & C & HI & HP & _ & _ & Pe & _). specialize (C fd). rewrite Z.eqb_refl in C.
    split; [|split; [|split; [done|]]].
    + intros X. apply (captured_owned _ _ _ _ I S) in X. by rewrite Ow in X; destruct X.
    + eexists. rewrite HI, list_lookup_insert; [done|]. rewrite (iv_len _ _ _ I). unfold standard in S. lia.
    + unfold unread, in_pipe. rewrite C, HP, lookup_app_r, Nat.sub_diag by lia. cbn. unfold held. by rewrite Pe.
Qed.
Lemma reached_step s0 s o s' : reached s0 s -> step s o = Done s' -> reached s0 s'.
Proof.
  intros [F [ops R]] E. split; [done|]. exists (ops ++ [o]). revert s0 F R.
  assert (X : forall a s0, run s0 (a ++ [o]) = ebind (run s0 a) (fun s => step s o)).
  { induction a as [|x a IH]; intros s0; cbn; [by destruct (step s0 o)|].
    destruct (step s0 x); cbn; [apply IH|done|done]. }
  intros s0 _ R. by rewrite X, R.
Qed.
Lemma reached_run s0 ops : forall s s', reached s0 s -> run s ops = Done s' -> reached s0 s'.
Proof.
  induction ops as [|o ops IH]; intros s s' R; cbn; [by intros [= <-]|].
  destruct (step s o) as [s1| |] eqn:E; cbn; [|done..]. apply IH. by eapply reached_step.
Qed.
Lemma cleanup_only_err s0 s s' : reached s0 s -> ~ captured s 0 -> ~ captured s 1 ->
  stream_cleanup_all s = Done s' ->
  (forall fd, standard fd -> ~ captured s' fd) /\ forall fd, connection s' fd = connection s0 fd.
Proof.
  intros R N0 N1 E. assert (R' : reached s0 s') by (eapply (reached_step _ _ OCleanup); [done|exact E]).
  assert (K : forall fd, standard fd -> ~ captured s' fd); [|split; [done|by apply none_left]].
  destruct (reached_inv _ _ R) as (own & I & O).
  destruct (active_owned _ _ _ 0 I) as (i0 & E0 & _); [unfold standard; lia|].
  destruct (active_owned _ _ _ 1 I) as (i1 & E1 & _); [unfold standard; lia|].
  destruct (active_owned _ _ _ 2 I) as (i2 & E2 & _); [unfold standard; lia|].
  assert (A0 : i_active i0 = false) by (destruct (i_active i0) eqn:A; [exfalso; apply N0; by exists i0|done]).
  assert (A1 : i_active i1 = false) by (destruct (i_active i1) eqn:A; [exfalso; apply N1; by exists i1|done]).
  change (Z.to_nat 0) with 0%nat in E0. change (Z.to_nat 1) with 1%nat in E1. change (Z.to_nat 2) with 2%nat in E2.
  unfold stream_cleanup_all, cleanup_one in E. rewrite E0, A0 in E. cbn [ebind] in E.
  rewrite E1, A1 in E. cbn [ebind] in E. rewrite E2 in E.
  assert (K2 : ~ captured s' 2 /\ (forall fd, standard fd -> fd <> 2 -> captured s' fd -> captured s fd)).
  { destruct (i_active i2) eqn:A2.
    - cbn [Nat.eqb] in E. destruct (restore_inv _ _ _ _ _ I O E) as [I' N].
      split; [intros C; apply N; [unfold standard; lia|done]|].
      intros fd S D. rewrite (captured_owned _ _ _ _ I' S), (captured_owned _ _ _ _ I S). unfold own_set.
      by rewrite (proj2 (Z.eqb_neq _ _) D).
    - injection E as <-. split; [|done]. intros (x & Ex & Ax).
      change (Z.to_nat 2) with 2%nat in Ex. rewrite E2 in Ex. congruence. }
  destruct K2 as [K2 K3]. intros fd S C. unfold standard in S.
  assert (fd = 0 \/ fd = 1 \/ fd = 2) as [->|[->| ->]] by lia; [| |done].
  - by apply N0, K3; [unfold standard; lia|..].
  - by apply N1, K3; [unfold standard; lia|..].
Qed.

(** What the clean-up does in every case: one after the other the records of streams 0, 1 and 2 are
    looked at, but streams 1, 2 and 2 are restored. *)
Definition own_after (own : owner) (i : nat) (fd : Z) : owner :=
  match own (Z.of_nat i) with Some _ => own_set own fd None | None => own end.
Lemma cleanup_one_own s0 s own i s' : inv s0 s own -> (forall k, standard k -> is_Some (connection s0 k)) ->
  (i < 3)%nat -> cleanup_one s i = Done s' -> inv s0 s' (own_after own i (if (i =? 0)%nat then 1 else 2)).
Proof.
  intros I O L. unfold cleanup_one, own_after.
  destruct (active_owned _ _ _ (Z.of_nat i) I) as (x & Ex & Ax); [unfold standard; lia|].
  rewrite Nat2Z.id in Ex. rewrite Ex, Ax. destruct (own (Z.of_nat i)).
  - intros E. by destruct (restore_inv _ _ _ _ _ I O E).
  - by intros [= <-].
Qed.
Lemma cleanup_exact s0 s s' : reached s0 s -> stream_cleanup_all s = Done s' ->
  (captured s' 0 <-> captured s 0) /\ (captured s' 1 <-> captured s 1 /\ ~ captured s 0) /\ ~ captured s' 2 /\
  (forall fd, standard fd -> ~ captured s' fd -> connection s' fd = connection s0 fd).
Proof.
  intros R E. assert (R' : reached s0 s') by (eapply (reached_step _ _ OCleanup); [done|exact E]).
  destruct (reached_inv _ _ R) as (own & I & O). unfold stream_cleanup_all in E.
  destruct (cleanup_one s 0) as [s1| |] eqn:E0; [|done..]. cbn [ebind] in E.
  pose proof (cleanup_one_own _ _ _ 0 _ I O ltac:(lia) E0) as I1.
  destruct (cleanup_one s1 1) as [s2| |] eqn:E1; [|done..]. cbn [ebind] in E.
  pose proof (cleanup_one_own _ _ _ 1 _ I1 O ltac:(lia) E1) as I2.
  pose proof (cleanup_one_own _ _ _ 2 _ I2 O ltac:(lia) E) as I3. cbn [Nat.eqb] in *.
  assert (S : standard 0 /\ standard 1 /\ standard 2) by (unfold standard; lia). destruct S as (S0 & S1 & S2).
  rewrite (captured_owned _ _ _ _ I3 S0), (captured_owned _ _ _ _ I3 S1), (captured_owned _ _ _ _ I3 S2),
    (captured_owned _ _ _ _ I S0), (captured_owned _ _ _ _ I S1).
  unfold own_after. change (Z.of_nat 0) with 0. change (Z.of_nat 1) with 1. change (Z.of_nat 2) with 2.
  unfold own_set.
  split_and!; [..|intros fd S N; by apply back_again].
  - destruct (own 0) eqn:Q0, (own 1) eqn:Q1, (own 2) eqn:Q2; cbn; rewrite ?Q0, ?Q1, ?Q2; cbn; rewrite ?Q0, ?Q1, ?Q2; cbn;
      rewrite ?Q0, ?Q1, ?Q2; done.
  - destruct (own 0) eqn:Q0, (own 1) eqn:Q1, (own 2) eqn:Q2; cbn; rewrite ?Q0, ?Q1, ?Q2; cbn; rewrite ?Q0, ?Q1, ?Q2; cbn;
      rewrite ?Q0, ?Q1, ?Q2; unfold is_Some; naive_solver.
  - destruct (own 0) eqn:Q0, (own 1) eqn:Q1, (own 2) eqn:Q2; cbn; rewrite ?Q0, ?Q1, ?Q2; cbn; rewrite ?Q0, ?Q1, ?Q2; cbn;
      rewrite ?Q0, ?Q1, ?Q2; intros [? ?]; done.
Qed.

(** ** C58 *)
Lemma printed_kept s0 s ops s' fd : reached s0 s -> standard fd -> captured s fd -> run s ops = Done s' ->
  forallb (leaves_alone fd) ops = true -> captured s' fd /\ unread s' fd = unread s fd ++ said fd ops.
Proof.
  intros R S C E L. destruct (reached_inv _ _ R) as (own & I & O).
  apply (captured_owned _ _ _ _ I S) in C as [v Ev].
  pose proof (run_spec _ ops _ _ I O) as X. rewrite E in X. destruct X as (own' & I' & X).
  destruct (X fd v Ev L) as [E' U]. split; [|done]. apply (captured_owned _ _ _ _ I' S). by rewrite E'.
Qed.
Lemma flush_room s fd p c :
  connection s fd = Some (TPipeW p) -> o_pipes s !! p = Some c ->
  Z.of_nat (length (c ++ held s fd)) <= o_cap s -> exists s', flush s fd = Done s'.
Proof.
  intros C P L. unfold flush, held in *. destruct (Z.eqb_spec fd 1) as [->|]; [|by eexists].
  unfold flush_out. destruct (o_pending s) as [|x u] eqn:E; [by eexists|].
  unfold sys_write. cbn [with_pending o_fds o_pipes o_cap]. fold (connection s 1). rewrite C, P.
  rewrite app_length in L. rewrite (proj2 (Z.leb_le _ _)); [by eexists|lia].
Qed.
Lemma read_exact s0 s fd : reached s0 s -> standard fd -> captured s fd -> o_mem s = [] ->
  Z.of_nat (length (unread s fd)) <= o_cap s ->
  exists s', stream_read s fd = Done (block_of (unread s fd), s') /\ captured s' fd /\ unread s' fd = [] /\
    (forall k, standard k -> k <> fd -> unread s' k = unread s k) /\ o_mem s' = [].
Proof.
  intros R S C M L. destruct (reached_inv _ _ R) as (own & I & O).
  pose proof C as C'. apply (captured_owned _ _ _ _ I S) in C as [[[r b] p] Ev].
  destruct (iv_some _ _ _ I _ _ _ _ Ev) as (A1 & A2 & A3 & _).
  destruct (owned_pipe _ _ _ _ _ _ _ I Ev) as [c P].
  rewrite (unread_eq _ _ _ _ _ _ _ I Ev), P in L. cbn in L.
  destruct (flush_room _ _ _ _ A2 P L) as [s1 F].
  destruct (stream_read_spec _ _ _ _ _ _ _ I Ev) as [X|(x & s' & E & SH & H & Q & Hh & Z)].
  { exfalso. unfold stream_read, info_at in X. rewrite (proj2 (standard_valid fd) S), A1, F in X.
    cbn [negb i_active ebind i_read] in X.
    assert (SH := flush_shape _ _ _ F). destruct (flush_own _ _ _ _ _ F A2 P) as (P1 & _ & M1).
    assert (C1 : connection s1 r = Some (TPipeR p)) by (destruct SH as (Y & _); unfold connection; by rewrite Y).
    assert (Pu : o_pipes s1 !! p = Some (c ++ held s fd)).
    { rewrite P1. apply list_lookup_insert. by apply lookup_lt_Some in P. }
    destruct (read_loop_spec (reads s1 r) s1 r p _ [] [] C1 Pu) as [(s2 & L2 & M2)|(rest & s2 & L2 & _)];
      [by apply (reads_enough _ _ p)|by left| |]; cbn [map app length] in L2; rewrite L2 in X; cbn [ebind] in X; [done|].
    destruct (_ =? _)%nat; [done|]. destruct (write _ _ _); [|done]. destruct (pop _). done. }
  destruct H as [->|[H _]]; [|done]. destruct (Z M) as [Z1 Z2]. pose proof (inv_shape _ _ _ _ I SH) as I'.
  exists s'. split; [done|]. split; [apply (captured_owned _ _ _ _ I' S); by rewrite Ev|].
  split; [done|]. split; [|done]. intros k Sk Nk.
  assert (HH : forall q, q <> p -> o_pipes s' !! q = o_pipes s !! q) by done.
  unfold unread. rewrite Hh by done. f_equal. unfold in_pipe.
  assert (Ck : connection s' k = connection s k) by (destruct SH as (Y & _); unfold connection; by rewrite Y).
  rewrite Ck. pose proof (other_target _ _ _ _ k _ _ _ I Ev Sk Nk) as OT.
  destruct (connection s k) as [[n|q|q]|]; try done. rewrite HH; [done|congruence].
Qed.
(** Whatever memory runs out: never a wrong text. *)
Lemma read_never_wrong s0 s fd x s' : reached s0 s -> standard fd -> captured s fd ->
  stream_read s fd = Done (Some x, s') ->
  exists rest, x = map Some (unread s fd) ++ Some terminator :: rest.
Proof.
  intros R S C E. destruct (reached_inv _ _ R) as (own & I & O).
  apply (captured_owned _ _ _ _ I S) in C as [[[r b] p] Ev].
  destruct (stream_read_spec _ _ _ _ _ _ _ I Ev) as [X|(y & s1 & E1 & _ & H & _)]; [congruence|].
  rewrite E in E1. injection E1 as <- <-. destruct H as [H|[_ [H|[rest H]]]].
  - unfold block_of in H. destruct (unread s fd); [done|]. injection H as ->. by exists [].
  - done.
  - injection H as ->. by exists rest.
Qed.
Lemma cap_kept s o s' : step s o = Done s' -> o_cap s' = o_cap s.
Proof.
  assert (R : forall s fd s', stream_restore s fd = Done s' -> o_cap s' = o_cap s).
  { clear. intros s fd s'. unfold stream_restore. destruct (negb _); [by intros [= <-]|].
    destruct (info_at s fd) as [i|]; [|done]. destruct (negb _); [by intros [= <-]|].
    destruct (flush s fd) as [s1| |] eqn:F; cbn [ebind]; [|done..].
    destruct (flush_shape _ _ _ F) as (_ & _ & _ & _ & C1).
    destruct (drain_shape (reads s1 (i_read i)) s1 (i_read i)) as (_ & _ & _ & _ & C2).
    destruct (pop _) as [bad l]. set (s2 := drain _ _ _) in *. unfold sys_dup2.
    destruct (fd_get _ _); [destruct bad|]; intros [= <-]; cbn; congruence. }
  destruct o as [fd|fd|fd| |t n|t]; cbn [step].
  - unfold stream_redirect. destruct (negb _); [by intros [= <-]|].
    destruct (info_at s fd) as [i|]; [|done]. destruct (i_active i); [by intros [= <-]|].
    unfold sys_pipe. destruct (pop (o_fails s)) as [[] l]; [by intros [= <-]|].
    destruct (fd_open _ _) as [r f1]. destruct (fd_open f1 _) as [w f2]. unfold sys_dup.
    destruct (pop _) as [bad l']. destruct (fd_get _ _); [|by intros [= <-]].
    destruct bad; [by intros [= <-]|]. destruct (fd_open _ _) as [b f3]. destruct (pop _) as [bad l''].
    unfold sys_dup2. destruct (fd_get _ _); [|by intros [= <-]]. destruct bad; by intros [= <-].
  - destruct (stream_read s fd) as [[x s1]| |] eqn:E; cbn [ebind]; [|done..]. intros [= <-]. revert E.
    unfold stream_read. destruct (negb _); [by intros [= <- <-]|].
    destruct (info_at s fd) as [i|]; [|done]. destruct (negb _); [by intros [= <- <-]|].
    destruct (flush s fd) as [s2| |] eqn:F; cbn [ebind]; [|done..].
    destruct (flush_shape _ _ _ F) as (_ & _ & _ & _ & C1).
    destruct (read_loop _ _ _ _ _) as [[y s3]| |] eqn:L; cbn [ebind]; [|done..].
    destruct (read_loop_shape _ _ _ _ _ _ _ L) as (_ & _ & _ & _ & C2).
    destruct y as [[res tot]|]; [|intros [= <- <-]; congruence].
    destruct (_ =? _)%nat; [intros [= <- <-]; congruence|]. destruct (write _ _ _); [|done].
    destruct (pop _). intros [= <- <-]. cbn. congruence.
  - apply R.
  - unfold stream_cleanup_all.
    assert (K : forall s i s', cleanup_one s i = Done s' -> o_cap s' = o_cap s).
    { intros s1 i s2. unfold cleanup_one. destruct (_ !! _) as [x|]; [|done].
      destruct (i_active x); [apply R|by intros [= <-]]. }
    destruct (cleanup_one s 0) as [s1| |] eqn:E0; cbn [ebind]; [|done..].
    destruct (cleanup_one s1 1) as [s2| |] eqn:E1; cbn [ebind]; [|done..]. intros E2.
    apply K in E0, E1, E2. congruence.
  - intros E. by apply print_out_shape in E as (_ & _ & _ & _ & C).
  - intros E. by apply write_shape in E as (_ & _ & _ & _ & C).
Qed.
Lemma cap_run ops : forall s s', run s ops = Done s' -> o_cap s' = o_cap s.
Proof.
  induction ops as [|o ops IH]; intros s s'; cbn; [by intros [= <-]|].
  destruct (step s o) as [s1| |] eqn:E; cbn; [|done..]. intros X. apply IH in X. apply cap_kept in E. congruence.
Qed.
(** From the capture to the reading. *)
Lemma captured_text s0 s1 s2 ops s3 fd :
  reached s0 s1 -> standard fd -> held s1 fd = [] -> stream_redirect s1 fd = Done (STREAM_SUCCESS, s2) ->
  run s2 ops = Done s3 -> forallb (leaves_alone fd) ops = true -> o_mem s3 = [] ->
  Z.of_nat (length (said fd ops)) <= o_cap s0 ->
  exists s4, stream_read s3 fd = Done (block_of (said fd ops), s4) /\ unread s4 fd = [].
Proof.
  intros R S Hh E1 E2 L M Fit.
  assert (St : step s1 (ORedirect fd) = Done s2) by (cbn; by rewrite E1).
  assert (R2 : reached s0 s2) by (by eapply reached_step).
  assert (R3 : reached s0 s3) by (by eapply reached_run).
  destruct (redirect_cases _ _ _ R S) as (c & s' & X & Ok & _). rewrite E1 in X. injection X as <- <-.
  destruct (Ok eq_refl) as (_ & C2 & _ & U2). rewrite Hh in U2.
  destruct (printed_kept _ _ _ _ _ R2 S C2 E2 L) as [C3 U3]. rewrite U2 in U3. cbn in U3.
  assert (cap : o_cap s3 = o_cap s0).
  { apply cap_run in E2. apply cap_kept in St. destruct R as [_ [ops0 R]]. apply cap_run in R. congruence. }
  destruct (read_exact _ _ _ R3 S C3 M) as (s4 & E4 & _ & U4 & _); [by rewrite U3, cap|].
  rewrite U3 in E4. by exists s4.
Qed.

(** ** Asking whether a stream is captured *)
Lemma active_exact s0 s fd : reached s0 s ->
  stream_is_active s fd = true <-> standard fd /\ connection s fd <> connection s0 fd.
Proof.
  intros R. destruct (reached_inv _ _ R) as (own & I & O). unfold stream_is_active.
  destruct (is_valid_fd fd) eqn:V; cbn [negb].
  - apply standard_valid in V. destruct (active_owned _ _ _ _ I V) as (i & E & A). unfold info_at. rewrite E, A.
    destruct (own fd) as [[[r b] p]|] eqn:W.
    + split; [intros _|done]. split; [done|]. intros C. destruct (iv_some _ _ _ I _ _ _ _ W) as (_ & C1 & _).
      rewrite C in C1. destruct (iv_old _ _ _ I fd p (or_intror C1)) as [_ N]. by apply (N fd r b p).
    + destruct (iv_none _ _ _ I fd V W) as [_ C]. split; [done|]. by intros [_ N].
  - split; [done|]. intros [S _]. apply standard_valid in S. congruence.
Qed.
