(** * Proofs about the bounded string functions *)
From Verif Require Export SpecBuffer.
From Coq Require Import Lia.

Lemma eqb_term_false c (s : cstr) : terminator ∉ c :: s -> Ascii.eqb c terminator = false.
Proof.
  intros H. apply Ascii.eqb_neq. intros ->. apply H. left.
Qed.
Lemma strlen_holds b s rest : holds b s rest -> strlen b = Ok (length s).
Proof.
  intros [-> Hs]. revert Hs. induction s as [|c s IH]; intros Hs; cbn [map app strlen length].
  - by rewrite Ascii.eqb_refl.
  - rewrite (eqb_term_false _ _ Hs). rewrite IH; [done|]. intros H. apply Hs. by right.
Qed.
Lemma read_holds b s rest : holds b s rest -> read_string b = Ok s.
Proof.
  intros [-> Hs]. revert Hs. induction s as [|c s IH]; intros Hs; cbn [map app read_string].
  - by rewrite Ascii.eqb_refl.
  - rewrite (eqb_term_false _ _ Hs). rewrite IH; [done|]. intros H. apply Hs. by right.
Qed.
Lemma write_ok b off s :
  (off + length s <= length b)%nat ->
  write b off s = Ok (take off b ++ map Some s ++ drop (off + length s) b).
Proof. intros H. unfold write. by rewrite (proj2 (Nat.leb_le _ _) H). Qed.
Lemma map_len {A B} (f : A -> B) l : length (map f l) = length l.
Proof. apply map_length. Qed.

Lemma strcpy_ok b s :
  (length s < length b)%nat ->
  strcpy b s = Ok (map Some s ++ Some terminator :: drop (S (length s)) b).
Proof.
  intros H. unfold strcpy. rewrite write_ok by (rewrite app_length; cbn; lia).
  rewrite app_length, map_app, <- app_assoc. cbn. by rewrite Nat.add_1_r.
Qed.

Lemma append_ok b d rest s :
  holds b d rest -> (length d + length s < length b)%nat ->
  write b (length d) (s ++ [terminator]) =
  Ok (map Some (d ++ s) ++ Some terminator :: drop (length s) rest).
Proof.
  intros [-> Hd] H. rewrite app_length, map_len in H. cbn in H.
  rewrite write_ok by (rewrite !app_length, map_len; cbn; lia).
  f_equal. rewrite !map_app, <- !app_assoc.
  rewrite take_app_alt by (by rewrite map_len). f_equal. f_equal.
  rewrite app_length. cbn [length map app].
  rewrite <- drop_drop, drop_app_alt by (by rewrite map_len).
  rewrite Nat.add_1_r. by cbn [drop].
Qed.

(** ** The bounded functions *)

Lemma safe_strcpy_spec b size s :
  0 <= size <= Z.of_nat (length b) ->
  safe_strcpy (Some b) size (Some s) =
  if Z.of_nat (length s) <? size
  then Ok (true, Some (map Some s ++ Some terminator :: drop (S (length s)) b))
  else Ok (false, Some b).
Proof.
  intros H. unfold safe_strcpy.
  destruct (Z.ltb_spec (Z.of_nat (length s)) size) as [L|L].
  - rewrite (proj2 (Z.eqb_neq size 0)) by lia. rewrite (proj2 (Z.leb_gt _ _)) by lia.
    rewrite strcpy_ok by lia. done.
  - destruct (Z.eqb_spec size 0); [done|]. by rewrite (proj2 (Z.leb_le _ _)) by lia.
Qed.

Lemma safe_strcat_spec b size d rest s :
  0 <= size <= Z.of_nat (length b) -> holds b d rest ->
  Z.of_nat (length d) + Z.of_nat (length s) < two64 ->
  safe_strcat (Some b) size (Some s) =
  if Z.of_nat (length d) + Z.of_nat (length s) <? size
  then Ok (true, Some (map Some (d ++ s) ++ Some terminator :: drop (length s) rest))
  else Ok (false, Some b).
Proof.
  intros H Hd W. unfold safe_strcat. rewrite (strlen_holds _ _ _ Hd). cbn [rbind].
  rewrite Z.mod_small by lia.
  destruct (Z.ltb_spec (Z.of_nat (length d) + Z.of_nat (length s)) size) as [L|L].
  - rewrite (proj2 (Z.eqb_neq size 0)) by lia. rewrite (proj2 (Z.leb_gt _ _)) by lia.
    unfold strcat. rewrite (strlen_holds _ _ _ Hd). cbn [rbind].
    rewrite (append_ok b d rest) by (done || lia). done.
  - destruct (Z.eqb_spec size 0); [done|]. by rewrite (proj2 (Z.leb_le _ _)) by lia.
Qed.

Lemma map_rep {A B} (f : A -> B) n x : map f (replicate n x) = replicate n (f x).
Proof. induction n as [|n IH]; [done|]. cbn. by rewrite IH. Qed.
Lemma strncpy_ok b s n :
  (n <= length b)%nat ->
  strncpy b s n = Ok (map Some (take n s) ++ replicate (n - length s) (Some terminator) ++ drop n b).
Proof.
  intros H. unfold strncpy.
  assert (L : length (take n s ++ replicate (n - length s) terminator) = n)
    by (rewrite app_length, take_length, replicate_length; lia).
  rewrite write_ok by (rewrite L; lia). rewrite L. cbn [take app Nat.add].
  rewrite map_app, <- app_assoc, map_rep. done.
Qed.

(** The text is cut to [count] bytes and to the room there is. *)
Lemma safe_strncpy_spec b size s count :
  0 < size <= Z.of_nat (length b) -> 0 <= count -> terminator ∉ s ->
  let n := Z.to_nat (Z.min count (size - 1)) in
  exists rest, 
    safe_strncpy (Some b) size (Some s) count =
      Ok (true, Some (map Some (take n s) ++ Some terminator :: rest)) /\
    length (map Some (take n s) ++ Some terminator :: rest) = length b /\
    drop (Z.to_nat size) (map Some (take n s) ++ Some terminator :: rest) = drop (Z.to_nat size) b.
Proof.
  intros H Hc Hs n.
  assert (E : Z.to_nat (if count <? size - 1 then count else size - 1) = n).
  { unfold n. destruct (Z.ltb_spec count (size - 1)); f_equal; lia. }
  assert (Hn : (n < length b)%nat) by (unfold n; lia).
  unfold safe_strncpy. rewrite (proj2 (Z.eqb_neq size 0)) by lia. rewrite E.
  rewrite strncpy_ok by lia. cbn [rbind].
  rewrite app_assoc.
  assert (L : length (map Some (take n s) ++ replicate (n - length s) (Some terminator)) = n)
    by (rewrite app_length, map_len, take_length, replicate_length; lia).
  set (p := map Some (take n s) ++ replicate (n - length s) (Some terminator)) in *.
  rewrite write_ok by (rewrite app_length, L, drop_length; cbn; lia).
  cbn [rbind map length app]. rewrite take_app_alt by (by rewrite L).
  replace (n + 1)%nat with (S n) by lia.
  assert (D : drop (S n) (p ++ drop n b) = drop (S n) b).
  { rewrite drop_app_ge by lia. rewrite drop_drop. f_equal. lia. }
  rewrite D. clear D.
  assert (P : exists q, p ++ Some terminator :: drop (S n) b =
     map Some (take n s) ++ Some terminator :: q /\ True).
  { unfold p. destruct (n - length s)%nat as [|k] eqn:K; cbn [replicate].
    - rewrite app_nil_r. by eexists.
    - rewrite <- app_assoc. cbn [app]. by eexists. }
  destruct P as (q & P & _). exists q. rewrite <- P. split; [done|]. split.
  - rewrite app_length, L. cbn. rewrite drop_length. lia.
  - assert (n < Z.to_nat size)%nat by (unfold n; lia).
    rewrite drop_app_ge by lia. rewrite L.
    destruct (Z.to_nat size - n)%nat as [|k] eqn:K; [lia|]. cbn [drop].
    rewrite drop_drop. f_equal. lia.
Qed.

Lemma safe_strncat_spec b size d rest s count :
  0 < size <= Z.of_nat (length b) -> size < two64 -> holds b d rest ->
  Z.of_nat (length d) < size -> 0 <= count ->
  let room := size - 1 - Z.of_nat (length d) in
  let t := take (Z.to_nat (Z.min count room)) s in
  safe_strncat (Some b) size (Some s) count =
  if room =? 0 then Ok (false, Some b)
  else Ok (true, Some (map Some (d ++ t) ++ Some terminator :: drop (length t) rest)).
Proof.
  intros H W Hd Hl Hc room t. unfold safe_strncat.
  rewrite (proj2 (Z.eqb_neq size 0)) by lia. rewrite (strlen_holds _ _ _ Hd). cbn [rbind].
  assert (A : (size - Z.of_nat (length d) - 1) mod two64 = room).
  { unfold room. rewrite Z.mod_small by lia. lia. }
  rewrite A. destruct (Z.eqb_spec room 0); [done|].
  unfold strncat. rewrite (strlen_holds _ _ _ Hd). cbn [rbind].
  assert (E : Z.to_nat (if count <? room then count else room) = Z.to_nat (Z.min count room)).
  { destruct (Z.ltb_spec count room); f_equal; lia. }
  rewrite E. fold t.
  assert (length t <= Z.to_nat room)%nat.
  { unfold t. rewrite take_length. lia. }
  assert (length d + length t < length b)%nat by (unfold room in *; lia).
  rewrite (append_ok b d rest) by done. done.
Qed.

(** The text in the destination reaches beyond the declared size: the size has no effect. *)
Lemma safe_strncat_wrap b size d rest s count :
  0 < size <= Z.of_nat (length d) -> Z.of_nat (length b) < two64 -> holds b d rest ->
  0 <= count < two64 - Z.of_nat (length b) ->
  let t := take (Z.to_nat count) s in
  safe_strncat (Some b) size (Some s) count =
  if (length d + length t <? length b)%nat
  then Ok (true, Some (map Some (d ++ t) ++ Some terminator :: drop (length t) rest))
  else UB OutOfBounds.
Proof.
  intros H W Hd Hc t. unfold safe_strncat.
  rewrite (proj2 (Z.eqb_neq size 0)) by lia. rewrite (strlen_holds _ _ _ Hd). cbn [rbind].
  assert (Lb : length b = (length d + S (length rest))%nat).
  { destruct Hd as [-> _]. rewrite app_length, map_len. done. }
  assert (A : (size - Z.of_nat (length d) - 1) mod two64 = two64 + (size - Z.of_nat (length d) - 1)).
  { rewrite <- (Z_mod_plus_full _ 1), Z.mod_small by lia. lia. }
  rewrite A. rewrite (proj2 (Z.eqb_neq _ 0)) by lia. rewrite (proj2 (Z.ltb_lt count _)) by lia.
  unfold strncat. rewrite (strlen_holds _ _ _ Hd). cbn [rbind]. fold t.
  destruct (Nat.ltb_spec (length d + length t) (length b)) as [L|L].
  - rewrite (append_ok b d rest) by done. done.
  - unfold write. rewrite app_length. cbn [length].
    destruct (Nat.leb_spec (length d + (length t + 1)) (length b)); [lia|done].
Qed.

Lemma scan_holds s rest n b :
  holds b s rest -> scan b n = Ok (length (take n s)).
Proof.
  intros [-> Hs]. revert s Hs. induction n as [|n IH]; intros s Hs; [done|].
  destruct s as [|c s]; cbn [map app scan take length].
  - by rewrite Ascii.eqb_refl.
  - rewrite (eqb_term_false _ _ Hs), IH; [done|]. intros H. apply Hs. by right.
Qed.
(** A source that is not terminated but has at least [n] bytes. *)
Lemma scan_prefix s rest n :
  terminator ∉ s -> length s = n -> scan (map Some s ++ rest) n = Ok n.
Proof.
  revert n. induction s as [|c s IH]; intros n Hs <-; [done|]. cbn [map app scan length].
  rewrite (eqb_term_false _ _ Hs), (IH (length s)); [done| |done]. intros H. apply Hs. by right.
Qed.
Lemma omap_some (s : cstr) rest :
  omap (fun c => c) (take (length s) (map Some s ++ rest)) = s.
Proof. induction s as [|c s IH]; [done|]. cbn. f_equal. apply IH. Qed.
Lemma dup_block (s : cstr) :
  (let* b := write (replicate (length s + 1) None) O s in
   let* b' := write b (length s) [terminator] in Ok (Some b')) =
  Ok (Some (map Some s ++ [Some terminator])).
Proof.
  rewrite write_ok by (rewrite replicate_length; lia). cbn [rbind].
  set (b := take 0 _ ++ _).
  assert (E : b = map Some s ++ [None]).
  { unfold b. rewrite take_0. cbn [app Nat.add]. f_equal.
    rewrite Nat.add_1_r, replicate_S_end. rewrite drop_app_alt by (by rewrite replicate_length). done. }
  rewrite E, write_ok by (rewrite app_length, map_len; cbn; lia). cbn [rbind].
  rewrite take_app_alt by (by rewrite map_len). rewrite drop_ge; [by rewrite app_nil_r|].
  rewrite app_length, map_len. cbn. lia.
Qed.
Lemma safe_strndup_spec b s rest n :
  holds b s rest ->
  safe_strndup b n true = Ok (Some (map Some (take n s) ++ [Some terminator])).
Proof.
  intros H. unfold safe_strndup. rewrite (scan_holds _ _ _ _ H). cbn [rbind].
  destruct H as [-> _].
  assert (E : omap (fun c => c) (take (length (take n s)) (map Some s ++ Some terminator :: rest))
              = take n s).
  { rewrite <- (take_drop n s) at 2. rewrite map_app, <- app_assoc. apply omap_some. }
  rewrite E. apply dup_block.
Qed.
Lemma safe_strndup_bare s rest n :
  terminator ∉ s -> length s = n ->
  safe_strndup (map Some s ++ rest) n true = Ok (Some (map Some s ++ [Some terminator])).
Proof.
  intros Hs Hn. unfold safe_strndup. rewrite (scan_prefix _ _ _ Hs Hn). cbn [rbind].
  subst n. rewrite omap_some. apply dup_block.
Qed.
