(** * Proofs about wrapping *)
From Verif Require Export SpecDisplay.
From Coq Require Import Lia.

Lemma scan_line_spec room start pos ls rest :
  (start <= pos)%nat -> Z.of_nat (pos - start) <= room ->
  exists u v ls', rest = u ++ v /\ newline ∉ u /\
    scan_line room start pos ls rest = ((pos + length u)%nat, ls') /\
    Z.of_nat (pos - start + length u) <= room /\
    (v = [] \/ (exists v', v = newline :: v') \/ Z.of_nat (pos - start + length u) = room) /\
    ((" "%char ∉ u /\ ls' = ls) \/
     exists u1 u2, u = u1 ++ " "%char :: u2 /\ " "%char ∉ u2 /\ ls' = (pos + length u1)%nat).
Proof.
  revert pos ls. induction rest as [|c rest IH]; intros pos ls Hp Hr; cbn [scan_line].
  - exists [], [], ls. rewrite Nat.add_0_r. cbn [length app]. rewrite !Nat.add_0_r.
    split; [done|]. split; [apply not_elem_of_nil|]. split; [done|]. split; [done|].
    split; [by left|]. left. split; [apply not_elem_of_nil|done].
  - destruct (Z.ltb_spec (Z.of_nat (pos - start)) room) as [L|L]; cbn [andb].
    + destruct (Ascii.eqb_spec c newline) as [->|N]; cbn [negb].
      * exists [], (newline :: rest), ls. cbn [length app]. rewrite !Nat.add_0_r.
        split; [done|]. split; [apply not_elem_of_nil|]. split; [done|]. split; [lia|].
        split; [right; left; by eexists|]. left. split; [apply not_elem_of_nil|done].
      * destruct (IH (S pos) (if Ascii.eqb c " " then pos else ls) ltac:(lia) ltac:(lia))
          as (u & v & ls' & -> & Hu & E & B & V & S).
        exists (c :: u), v, ls'. rewrite E. cbn [length app].
        split; [done|]. split; [by apply not_elem_of_cons|]. split; [f_equal; lia|].
        split; [lia|]. split.
        { destruct V as [V|[V|V]]; [by left|right; by left|right; right; lia]. }
        destruct S as [[S ->]|(u1 & u2 & -> & S & ->)].
        -- destruct (Ascii.eqb_spec c " ") as [->|N'].
           ++ right. exists [], u. rewrite Nat.add_0_r. done.
           ++ left. split; [by apply not_elem_of_cons|done].
        -- right. exists (c :: u1), u2. cbn [length]. split; [done|]. split; [done|lia].
    + exists [], (c :: rest), ls. cbn [length app]. rewrite !Nat.add_0_r.
      split; [done|]. split; [apply not_elem_of_nil|]. split; [done|]. split; [done|].
      split; [right; right; lia|]. left. split; [apply not_elem_of_nil|done].
Qed.

Lemma drop_plus {A} (l : list A) n u v : drop n l = u ++ v -> drop (n + length u) l = v.
Proof. intros E. rewrite <- drop_drop, E. apply drop_app. Qed.
Lemma lookup_at {A} (l : list A) n u v : drop n l = u ++ v -> l !! (n + length u)%nat = head v.
Proof.
  intros E. apply drop_plus in E. rewrite <- (Nat.add_0_r (n + length u)), <- lookup_drop, E.
  by destruct v.
Qed.
Lemma slice_at text start u v : drop start text = u ++ v -> slice text start (length u) = u.
Proof. intros E. unfold slice. rewrite E. apply take_app. Qed.
Lemma rest_length {A} (l : list A) n v : drop n l = v -> (n <= length l)%nat ->
  (n <? length l)%nat = negb (Nat.eqb (length v) 0).
Proof.
  intros <- H. rewrite drop_length. destruct (Nat.ltb_spec n (length l)), (Nat.eqb_spec (length l - n) 0);
  try done; lia.
Qed.
Lemma drop_some_le {A} (l : list A) n u v x : drop n l = u ++ x :: v -> (n + length u < length l)%nat.
Proof.
  intros E. apply (f_equal length) in E. rewrite drop_length, app_length in E. cbn in E. lia.
Qed.

Lemma cut_nil w ls : (0 < w)%nat -> cut_into w [] ls -> ls = [[]].
Proof.
  intros W H. remember [] as t eqn:E. destruct H as [t N L|l t ls N L C|l u v ls N1 N2 N3 L C|l t ls N1 N2 L C].
  - by rewrite E.
  - by destruct l.
  - by destruct l.
  - apply app_nil in E as [-> ->]. cbn in L. lia.
Qed.
Lemma cut_nonnil w t ls : t <> [] -> cut_into w t ls -> ls <> [[]].
Proof.
  intros N H. destruct H as [t N' L|l t ls N' L C|l u v ls N1 N2 N3 L C|l t ls N1 N2 L C].
  - congruence.
  - intros [= -> ->]. inversion C.
  - intros [= -> ->]. inversion C.
  - intros [= -> ->]. inversion C.
Qed.
Lemma cut_some w t ls : cut_into w t ls -> ls <> [].
Proof. by intros []. Qed.
Lemma layout_cons pad l ls w t :
  (0 < w)%nat -> cut_into w t ls ->
  layout pad (l :: ls) = l ++ newline :: (if Nat.eqb (length t) 0 then [] else pad) ++ layout pad ls.
Proof.
  intros W H. destruct t as [|c t].
  - rewrite (cut_nil _ _ W H). by cbn.
  - assert (ls <> [[]]) by (by apply (cut_nonnil w (c :: t))).
    destruct ls as [|l1 ls]; [by apply cut_some in H|].
    destruct l1, ls; done.
Qed.

Lemma wrap_loop_spec w text indent room fuel start t :
  room = Z.of_nat w -> (0 < w)%nat ->
  drop start text = t -> (start <= length text)%nat -> (length t <= fuel)%nat ->
  exists ls, wrap_loop fuel text indent room start = Some (layout (spaces (indent + 2)) ls) /\
    cut_into w t ls.
Proof.
  intros -> W. revert start t. induction fuel as [|fuel IH]; intros start t D Hs Hf.
  - destruct t; [|cbn in Hf; lia]. exists [[]]. split.
    + cbn [wrap_loop]. rewrite (rest_length _ _ _ D Hs). done.
    + apply cut_last; [apply not_elem_of_nil|done].
  - cbn [wrap_loop]. rewrite (rest_length _ _ _ D Hs). destruct t as [|c t].
    + exists [[]]. split; [done|]. apply cut_last; [apply not_elem_of_nil|done].
    + cbn [length Nat.eqb negb].
      unfold wrap_turn. rewrite D.
      destruct (scan_line_spec (Z.of_nat w) start start start (c :: t)) as
        (u & v & ls' & E & Hu & -> & B & V & S); [lia|lia|].
      rewrite Nat.sub_diag in *. cbn [Nat.add] in *.
      rewrite E in D |- *. rewrite (lookup_at _ _ _ _ D).
      replace (start + length u - start)%nat with (length u) by lia.
      rewrite (slice_at _ _ _ _ D).
      assert (Ht : length (c :: t) = (length u + length v)%nat) by (by rewrite E, app_length).
      destruct v as [|x v]; cbn [head].
      * (* the text ends *)
        rewrite app_nil_r in *. destruct (Z.leb_spec (Z.of_nat w) (Z.of_nat (length u))) as [L|L].
        -- assert (Lw : length u = w) by lia.
           destruct S as [[S ->]|(u1 & u2 & -> & S & ->)].
           ++ rewrite Nat.ltb_irrefl.
              destruct (IH (start + length u)%nat []) as (ls & -> & Hls);
                [by rewrite <- drop_drop, D, drop_all|apply (f_equal length) in D;
                 rewrite drop_length in D; lia|cbn; lia|].
              exists (u :: ls). split.
              ** rewrite (layout_cons _ _ _ w []) by done. cbn [length Nat.eqb].
                 rewrite (proj2 (Nat.ltb_ge _ _))
                   by (apply (f_equal length) in D; rewrite drop_length in D; lia).
                 by rewrite <- !app_assoc.
              ** rewrite <- (app_nil_r u) at 1. apply cut_word; [done| |done|done].
                 intros Hi. apply S. destruct u; [done|]. by right.
           ++ destruct (Nat.ltb_spec start (start + length u1)) as [M|M].
              ** replace (start + length u1 - start)%nat with (length u1) by lia.
                 rewrite (slice_at _ _ _ _ D).
                 assert (D2 : drop (Datatypes.S (start + length u1)) text = u2).
                 { rewrite <- Nat.add_1_r, <- drop_drop, (drop_plus _ _ _ _ D). done. }
                 assert (P : (Datatypes.S (start + length u1) <= length text)%nat)
                   by (apply drop_some_le in D; lia).
                 destruct (IH (Datatypes.S (start + length u1)) u2) as (ls & -> & Hls);
                   [done|done|rewrite app_length in Ht; cbn in Ht; cbn in Hf; lia|].
                 exists (u1 :: ls). split.
                 --- rewrite (layout_cons _ _ _ w u2) by done.
                     rewrite (rest_length _ _ _ D2 P). rewrite <- !app_assoc. cbn [app].
                     destruct (Nat.eqb (length u2) 0); done.
                 --- rewrite <- (app_nil_r u2). apply cut_space; [| |done|done|by rewrite app_nil_r].
                     +++ intros ->. cbn in M. lia.
                     +++ intros Hi. apply Hu. rewrite elem_of_app in *. destruct Hi; [by left|].
                         right. by right.
              ** destruct u1; [|cbn in M; lia]. cbn [app] in *.
                 destruct (IH (start + length (" "%char :: u2))%nat []) as (ls & -> & Hls);
                   [by rewrite <- drop_drop, D, drop_all|apply (f_equal length) in D;
                    rewrite drop_length in D; lia|cbn; lia|].
                 exists ((" "%char :: u2) :: ls). split.
                 --- rewrite (layout_cons _ _ _ w []) by done. cbn [Nat.eqb].
                     rewrite (proj2 (Nat.ltb_ge _ _))
                       by (apply (f_equal length) in D; rewrite drop_length in D; lia).
                     by rewrite <- !app_assoc.
                 --- rewrite <- (app_nil_r (" "%char :: u2)) at 1. by apply cut_word.
        -- exists [u]. split; [done|]. apply cut_last; [done|lia].
      * assert (Dv : drop (start + length u) text = x :: v) by (by apply drop_plus in D).
        assert (Pu : (start + length u < length text)%nat) by (by apply drop_some_le in D).
        destruct (Ascii.eqb_spec x newline) as [->|Nx].
        -- assert (D2 : drop (Datatypes.S (start + length u)) text = v).
           { rewrite <- Nat.add_1_r, <- drop_drop, Dv. done. }
           destruct (IH (Datatypes.S (start + length u)) v) as (ls & -> & Hls);
             [done|lia|cbn in Ht, Hf; lia|].
           exists (u :: ls). split.
           ++ rewrite (layout_cons _ _ _ w v) by done.
              rewrite (rest_length _ _ _ D2) by lia. rewrite <- !app_assoc. cbn [app].
              destruct (Nat.eqb (length v) 0); done.
           ++ apply cut_newline; [done|lia|done].
        -- destruct V as [V|[(? & V)|V]]; [done|by injection V|].
           assert (Lw : length u = w) by lia.
           rewrite (proj2 (Z.leb_le _ _)) by lia.
           destruct S as [[S ->]|(u1 & u2 & -> & S & ->)].
           ++ rewrite Nat.ltb_irrefl.
              destruct (IH (start + length u)%nat (x :: v)) as (ls & -> & Hls);
                [done|lia|cbn in Ht, Hf |- *; lia|].
              exists (u :: ls). split.
              ** rewrite (layout_cons _ _ _ w (x :: v)) by done. cbn [length Nat.eqb].
                 rewrite (proj2 (Nat.ltb_lt _ _)) by lia. by rewrite <- !app_assoc.
              ** apply cut_word; [done| |done|done].
                 intros Hi. apply S. destruct u; [done|]. by right.
           ++ destruct (Nat.ltb_spec start (start + length u1)) as [M|M].
              ** replace (start + length u1 - start)%nat with (length u1) by lia.
                 rewrite <- app_assoc in D. cbn [app] in D. rewrite (slice_at _ _ _ _ D).
                 assert (D2 : drop (Datatypes.S (start + length u1)) text = u2 ++ x :: v).
                 { rewrite <- Nat.add_1_r, <- drop_drop, (drop_plus _ _ _ _ D). done. }
                 assert (P : (Datatypes.S (start + length u1) <= length text)%nat)
                   by (apply drop_some_le in D; lia).
                 destruct (IH (Datatypes.S (start + length u1)) (u2 ++ x :: v)) as (ls & -> & Hls);
                   [done|done|rewrite !app_length in *; cbn in *; lia|].
                 exists (u1 :: ls). split.
                 --- rewrite (layout_cons _ _ _ w (u2 ++ x :: v)) by done.
                     rewrite (rest_length _ _ _ D2 P). rewrite <- !app_assoc. cbn [app].
                     destruct (Nat.eqb (length (u2 ++ x :: v)) 0); done.
                 --- rewrite <- app_assoc. cbn [app]. apply cut_space; [| |done|done|done].
                     +++ intros ->. cbn in M. lia.
                     +++ intros Hi. apply Hu. rewrite elem_of_app in *. destruct Hi; [by left|].
                         right. by right.
              ** destruct u1; [|cbn in M; lia]. cbn [app] in *.
                 destruct (IH (start + length (" "%char :: u2))%nat (x :: v)) as (ls & -> & Hls);
                   [done|lia|cbn in Ht, Hf |- *; lia|].
                 exists ((" "%char :: u2) :: ls). split.
                 --- rewrite (layout_cons _ _ _ w (x :: v)) by done.
                     cbn [length Nat.eqb]. cbn [length] in Pu.
                     rewrite (proj2 (Nat.ltb_lt _ _)) by lia. by rewrite <- !app_assoc.
                 --- change (" "%char :: u2 ++ x :: v) with ((" "%char :: u2) ++ x :: v).
                     by apply cut_word.
Qed.

(** ** No room at all: the loop repeats *)
Lemma head_at {A} (l : list A) n x t : drop n l = x :: t -> l !! n = Some x.
Proof. intros D. rewrite <- (Nat.add_0_r n), <- lookup_drop, D. done. Qed.
Lemma wrap_turn_stuck text indent start c t :
  drop start text = c :: t -> c <> newline ->
  exists out, wrap_turn text indent 0 start = (out, Some start).
Proof.
  intros D N. unfold wrap_turn. rewrite D. cbn [scan_line].
  rewrite (proj2 (Z.ltb_ge _ _)) by lia. cbn [andb].
  rewrite (head_at _ _ _ _ D).
  destruct (Ascii.eqb_spec c newline); [done|].
  rewrite (proj2 (Z.leb_le _ _)) by lia. rewrite Nat.ltb_irrefl. by eexists.
Qed.
Lemma wrap_turn_newline text indent start t :
  drop start text = newline :: t -> exists out, wrap_turn text indent 0 start = (out, Some (S start)).
Proof.
  intros D. unfold wrap_turn. rewrite D. cbn [scan_line].
  rewrite (proj2 (Z.ltb_ge _ _)) by lia. cbn [andb].
  rewrite (head_at _ _ _ _ D).
  rewrite Ascii.eqb_refl. by eexists.
Qed.
Lemma wrap_endless text indent fuel start c :
  c ∈ drop start text -> c <> newline -> wrap_loop fuel text indent 0 start = None.
Proof.
  revert start. induction fuel as [|fuel IH]; intros start Hc N; cbn [wrap_loop].
  - destruct (Nat.ltb_spec start (length text)); [done|].
    rewrite drop_ge in Hc by done. by apply elem_of_nil in Hc.
  - destruct (Nat.ltb_spec start (length text)) as [L|L].
    + destruct (drop start text) as [|x t] eqn:D; [by apply elem_of_nil in Hc|].
      destruct (Ascii.eqb_spec x newline) as [->|Nx].
      * destruct (wrap_turn_newline text indent start t D) as [out ->].
        rewrite IH; [done| |done].
        rewrite <- Nat.add_1_r, <- drop_drop, D. cbn [drop].
        apply elem_of_cons in Hc as [->|Hc]; [done|]. by rewrite drop_0.
      * destruct (wrap_turn_stuck text indent start x t D Nx) as [out ->].
        rewrite IH; [done| |done]. by rewrite D.
    + rewrite drop_ge in Hc by done. by apply elem_of_nil in Hc.
Qed.

(** A text of newlines only ends even then. *)
Lemma wrap_newlines text indent fuel start :
  (forall c, c ∈ drop start text -> c = newline) -> (length text - start <= fuel)%nat ->
  exists out, wrap_loop fuel text indent 0 start = Some out.
Proof.
  revert start. induction fuel as [|fuel IH]; intros start Hc N; cbn [wrap_loop].
  - destruct (Nat.ltb_spec start (length text)); [lia|]. by eexists.
  - destruct (Nat.ltb_spec start (length text)) as [L|L]; [|by eexists].
    destruct (drop start text) as [|x t] eqn:D.
    { apply (f_equal length) in D. rewrite drop_length in D. cbn in D. lia. }
    assert (x = newline) as -> by (apply Hc; left).
    destruct (wrap_turn_newline text indent start t D) as [out ->].
    destruct (IH (S start)) as [o ->]; [|lia|by eexists].
    rewrite <- Nat.add_1_r, <- drop_drop, D. cbn [drop]. rewrite drop_0. intros c Hi. apply Hc. by right.
Qed.

Lemma room_plus indent width :
  (indent + 2 < width)%nat -> Z.of_nat width < two64 ->
  wrap_room indent width = Z.of_nat (width - indent - 2).
Proof. intros H W. unfold wrap_room. rewrite Z.mod_small by lia. lia. Qed.
Lemma room_zero indent : wrap_room indent (indent + 2) = 0.
Proof. unfold wrap_room. replace (Z.of_nat (indent + 2) - Z.of_nat indent - 2) with 0 by lia. done. Qed.
Lemma room_range indent width : 0 <= wrap_room indent width < two64.
Proof. unfold wrap_room. by apply Z.mod_pos_bound. Qed.

Lemma wrapped text indent width out h :
  text <> [] -> (indent + 2 < width)%nat -> Z.of_nat width < two64 ->
  exists ls, print_wrapped_text text indent width (Dst out h) =
      Shown (tt, Dst (out ++ layout (spaces (indent + 2)) ls) h) /\
    cut_into (width - indent - 2) text ls.
Proof.
  intros N H W. unfold print_wrapped_text. rewrite room_plus by done.
  destruct (wrap_loop_spec (width - indent - 2) text indent (Z.of_nat (width - indent - 2))
              (length text) 0 text) as (ls & -> & C); [done|lia|done|lia|lia|].
  by exists ls.
Qed.

(** Whatever the width, if it does not leave exactly no room, the loop ends. *)
Lemma wrapped_ends text indent width :
  wrap_room indent width <> 0 ->
  exists t, print_wrapped_text text indent width = put t.
Proof.
  intros N. unfold print_wrapped_text. pose proof (room_range indent width).
  destruct (wrap_loop_spec (Z.to_nat (wrap_room indent width)) text indent (wrap_room indent width)
              (length text) 0 text) as (ls & -> & C); [lia|lia|done|lia|lia|].
  by eexists.
Qed.

Lemma wrapped_endless text indent s :
  (exists c, c ∈ text /\ c <> newline) ->
  print_wrapped_text text indent (indent + 2) s = Endless /\
  forall fuel, wrap_loop fuel text indent (wrap_room indent (indent + 2)) 0 = None.
Proof.
  intros (c & Hc & N). unfold print_wrapped_text. rewrite room_zero.
  assert (E : forall fuel, wrap_loop fuel text indent 0 0 = None)
    by (intros; by apply wrap_endless with c).
  by rewrite E.
Qed.

(** The bound on the number of turns in the model decides whether the loop ends. *)
Lemma wrap_bound text indent room :
  0 <= room -> wrap_loop (length text) text indent room 0 = None ->
  forall fuel, wrap_loop fuel text indent room 0 = None.
Proof.
  intros R H fuel. destruct (Z.eq_dec room 0) as [->|N].
  - assert (X : (exists c, c ∈ text /\ c <> newline) \/ forall c, c ∈ text -> c = newline).
    { clear. induction text as [|c text [(d & Hd & N)|IH]].
      - right. intros c Hc. by apply elem_of_nil in Hc.
      - left. exists d. split; [by right|done].
      - destruct (decide (c = newline)) as [->|N].
        + right. intros d Hd. apply elem_of_cons in Hd as [->|Hd]; [done|by apply IH].
        + left. exists c. split; [left|done]. }
    destruct X as [(c & Hc & N)|X]; [by apply wrap_endless with c|].
    destruct (wrap_newlines text indent (length text) 0) as [out E]; [done|lia|congruence].
  - destruct (wrap_loop_spec (Z.to_nat room) text indent room (length text) 0 text)
      as (ls & E & C); [lia|lia|done|lia|lia|congruence].
Qed.

(** ** Whole words *)
Lemma unwords_cons w ws : ws <> [] -> unwords (w :: ws) = w ++ " "%char :: unwords ws.
Proof. by destruct ws. Qed.
Lemma unwords_no_newline ws : Forall is_word ws -> newline ∉ unwords ws.
Proof.
  induction 1 as [|w ws (N & S & L) H IH]; [apply not_elem_of_nil|].
  destruct ws as [|w' ws]; [done|]. rewrite unwords_cons by done.
  intros Hi. apply elem_of_app in Hi as [Hi|Hi]; [done|].
  apply elem_of_cons in Hi as [Hi|Hi]; [discriminate Hi|done].
Qed.
Lemma app_split_no {A} (a b c d : list A) x :
  a ++ x :: b = c ++ x :: d -> x ∉ a -> x ∉ c -> a = c /\ b = d.
Proof.
  revert c. induction a as [|y a IH]; intros [|z c] E Ha Hc; cbn in E.
  - by injection E.
  - injection E as <- E. exfalso. apply Hc. left.
  - injection E as -> E. exfalso. apply Ha. left.
  - injection E as -> E. destruct (IH c E) as [-> ->]; [| |done].
    + intros H. apply Ha. by right.
    + intros H. apply Hc. by right.
Qed.
Lemma unwords_split ws l t :
  Forall is_word ws -> unwords ws = l ++ " "%char :: t -> 
  exists ws1 ws2, ws = ws1 ++ ws2 /\ l = unwords ws1 /\ t = unwords ws2.
Proof.
  intros F. revert l. induction F as [|w ws (N & S & L) H IH]; intros l E; [by destruct l|].
  destruct ws as [|w' ws].
  - cbn in E. exfalso. apply S. rewrite E. apply elem_of_app. right. left.
  - rewrite unwords_cons in E by done.
    destruct (decide (" "%char ∈ l)) as [Hl|Hl].
    + (* the first space of [l] ends [w] *)
      assert (X : exists a b, l = a ++ " "%char :: b /\ " "%char ∉ a).
      { clear -Hl. induction l as [|c l IH]; [by apply elem_of_nil in Hl|].
        destruct (decide (c = " "%char)) as [->|N].
        - exists [], l. split; [done|apply not_elem_of_nil].
        - apply elem_of_cons in Hl as [Hc|Hl]; [by subst c|]. destruct (IH Hl) as (a & b & -> & Ha).
          exists (c :: a), b. split; [done|]. by apply not_elem_of_cons. }
      destruct X as (a & b & -> & Ha). rewrite <- app_assoc in E. cbn [app] in E.
      destruct (app_split_no _ _ _ _ _ E S Ha) as [<- E2].
      destruct (IH b E2) as (ws1 & ws2 & Ew & -> & ->).
      exists (w :: ws1), ws2. rewrite Ew. split; [done|]. split; [|done].
      destruct ws1 as [|x ws1]; [|by rewrite (unwords_cons w)].
      exfalso. cbn [app unwords] in Ew, E2. subst ws2. rewrite Forall_cons in H.
      destruct H as [(N' & S' & _) _]. apply S'. destruct w' as [|d w']; [done|].
      destruct ws as [|y ws]; cbn in E2; injection E2 as -> E2; left.
    + destruct (app_split_no _ _ _ _ _ E S Hl) as [<- <-].
      exists [w], (w' :: ws). done.
Qed.

Lemma cut_words k t ls ws :
  (0 < k)%nat -> cut_into k t ls -> t = unwords ws -> Forall is_word ws ->
  Forall (fun w => (length w < k)%nat) ws ->
  exists wss, concat wss = ws /\ ls = map unwords wss.
Proof.
  intros K C. revert ws. induction C as [t N L|l t ls N L C IH|l u v ls N1 N2 N3 L C IH|l t ls N1 N2 L C IH];
    intros ws E F B.
  - exists [ws]. cbn. rewrite app_nil_r, E. done.
  - exfalso. apply (unwords_no_newline ws F). rewrite <- E. apply elem_of_app. right. left.
  - symmetry in E. destruct (unwords_split ws l (u ++ v) F E) as (ws1 & ws2 & -> & -> & E2).
    apply Forall_app in F as [F1 F2]. apply Forall_app in B as [B1 B2].
    destruct (IH ws2 E2 F2 B2) as (wss & <- & ->). by exists (ws1 :: wss).
  - exfalso. destruct ws as [|w ws].
    + apply app_nil in E as [-> _]. cbn in L. lia.
    + apply Forall_cons in F as [(Nw & Sw & Lw) F]. apply Forall_cons in B as [Bw B].
      destruct ws as [|w' ws].
      * cbn in E. apply (f_equal length) in E. rewrite app_length in E. lia.
      * rewrite unwords_cons in E by done.
        assert (X : l !! length w = Some " "%char).
        { rewrite <- (lookup_app_l l t) by lia. rewrite E, list_lookup_middle; done. }
        apply N2. destruct l as [|c l]; [cbn in L; lia|]. destruct w as [|d w]; [done|].
        cbn in X. by apply elem_of_list_lookup_2 in X.
Qed.
