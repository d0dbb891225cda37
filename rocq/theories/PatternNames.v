(** * The patterns for names, mail addresses, secrets, files and versions *)
From stdpp Require Import list.
From Verif Require Import RegexRun RegexProofs SpecPatterns RegexLang PatternNumbers PatternDates.

Lemma lang_rep_set k set lo hi w : same_set k set = true -> lang (RRep lo hi (RSet k)) w <-> made_of set w /\ within lo hi (length w).
Proof. intros H. rewrite lang_chars, (made_chars _ set) by auto. reflexivity. Qed.
Lemma lang_set k set w : same_set k set = true -> lang (RSet k) w <-> exists c, w = [c] /\ c ∈ set.
Proof. intros H. cbn [lang]. split; intros (c & -> & Hc); exists c; (split; [auto|]); apply (same_set_ok _ _ H); auto. Qed.
Lemma within_more lo k : within lo None k <-> (lo <= k)%nat.
Proof. unfold within. tauto. Qed.
Lemma within_some lo hi k : within lo (Some hi) k <-> (lo <= k <= hi)%nat.
Proof. unfold within. tauto. Qed.
Lemma not_nil {A} (l : list A) : l <> [] <-> (1 <= length l)%nat.
Proof. destruct l; cbn; (split; [intros H; try congruence; lia|intros H; try discriminate; lia]). Qed.
Ltac rep_set H set := apply (lang_rep_set _ set) in H; [|vm_compute; reflexivity].
Ltac as_set set := apply (lang_rep_set _ set); [vm_compute; reflexivity|].

(** ** Users *)
Lemma user_lang s : satisfies RE_USER s <-> line user_name s.
Proof.
  pattern_lang RE_USER. rewrite lang_empty_r, (lang_rep_set _ (letters ++ digits ++ $"_-")) by (vm_compute; reflexivity). reflexivity.
Qed.

(** ** Passwords *)
Lemma made_free set bad t : made_of set t -> (forall c, c ∈ set -> c ∉ bad) -> free_of bad t.
Proof. intros H Hs. eapply Forall_impl; [exact H|]. auto. Qed.
Lemma free_made bad t c : free_of bad t -> c ∈ t -> c ∉ bad.
Proof. intros H Hc. unfold free_of in H. rewrite Forall_forall in H. auto. Qed.
Definition disjointb (a b : cstr) : bool := forallb (fun c => bool_decide (c ∉ b)) a.
Lemma disjointb_ok a b : disjointb a b = true -> forall c, c ∈ a -> c ∉ b.
Proof. unfold disjointb. rewrite forallb_forall. intros H c Hc. apply elem_of_list_In in Hc. specialize (H c Hc). apply bool_decide_eq_true in H. auto. Qed.
Definition subsetb (a b : cstr) : bool := forallb (fun c => bool_decide (c ∈ b)) a.
Lemma subsetb_ok a b : subsetb a b = true -> forall c, c ∈ a -> c ∈ b.
Proof. unfold subsetb. rewrite forallb_forall. intros H c Hc. apply elem_of_list_In in Hc. specialize (H c Hc). apply bool_decide_eq_true in H. auto. Qed.
Lemma made_more a b t : subsetb a b = true -> made_of a t -> made_of b t.
Proof. intros H Ht. eapply Forall_impl; [exact Ht|]. apply subsetb_ok. auto. Qed.
Lemma not_elem_free c t : free_of [c] t -> c ∉ t.
Proof. intros H Hc. eapply free_made in H; [|exact Hc]. apply H. left. Qed.

Definition re_far (k : cset) : re := RSeq (RRep 0 None (RSet any_char)) (RSeq (RSet k) REmpty).
Lemma far_ok k set pre w post : same_set k set = true -> "010"%char ∉ set ->
  free_of ["010"%char] w -> at_end post ->
  matches (RAhead true (re_far k)) pre [] (w ++ post) <-> Exists (.∈ set) w.
Proof.
  intros Hk Hn Hw Hp. cbn [matches]. split.
  - intros [_ (u & v & E & H)]. apply (plain_lang (re_far k)) in H; [|reflexivity]. unfold re_far in H. unlang H.
    apply (same_set_ok _ _ Hk) in H. rewrite <- app_assoc in E. cbn in E.
    assert (Hc : c ∈ w ++ post) by (rewrite E; apply elem_of_app; right; left).
    apply elem_of_app in Hc as [Hc|Hc].
    + apply Exists_exists. eauto.
    + destruct Hp as [-> | ->]; [inversion Hc|]. apply elem_of_list_singleton in Hc. subst c. contradiction.
  - intros H. split; [auto|]. apply Exists_exists in H as (c & Hc & Hs). apply elem_of_list_split in Hc as (x & y & ->).
    exists (x ++ [c]), (y ++ post). split; [rewrite <- !app_assoc; reflexivity|]. apply plain_lang; [reflexivity|].
    unfold re_far. apply lang_seq. exists x, [c]. split; [auto|]. split.
    + apply lang_chars. split; [|split; [lia|auto]]. apply (free_chars _ ["010"%char]); [vm_compute; reflexivity|].
      apply Forall_app in Hw as [Hw _]. exact Hw.
    + apply lang_empty_r. exists c. split; [auto|]. apply (same_set_ok _ _ Hk). auto.
Qed.
Lemma ahead_seq a b w post : matches (RSeq (RAhead true a) b) [] w post <->
  matches (RAhead true a) [] [] (w ++ post) /\ matches b [] w post.
Proof.
  change (matches (RSeq (RAhead true a) b) [] w post) with
    (exists u v, w = u ++ v /\ matches (RAhead true a) [] u (v ++ post) /\ matches b ([] ++ u) v post). split.
  - intros (u & v & -> & H1 & H2). assert (u = []) as -> by (destruct H1; auto). auto.
  - intros [H1 H2]. exists [], w. auto.
Qed.
Lemma password_lang s : satisfies RE_PASSWD s <-> line password s.
Proof.
  set (la := CSet false [("A"%char, "Z"%char); ("a"%char, "z"%char)]).
  set (da := CSet false digit_ranges).
  set (X := RSeq (RRep 8 None (RSet (CSet false [("A"%char, "Z"%char); ("a"%char, "z"%char); ("0"%char, "9"%char)]))) (RSeq REnd REmpty)).
  rewrite (satisfies_found _ (RSeq RStart (RSeq (RAhead true (re_far la)) (RSeq (RAhead true (re_far da)) X)))) by (vm_compute; reflexivity).
  rewrite found_start, <- line_at_end.
  assert (HX : forall w post, matches X [] w post <-> (made_of (letters ++ digits) w /\ (8 <= length w)%nat) /\ at_end post).
  { intros w post. unfold X.
    match goal with |- matches ?x _ _ _ <-> _ => let y := eval vm_compute in (strip x) in
      match y with Some ?z => rewrite (strip_ok x z eq_refl) end end.
    rewrite lang_empty_r, (lang_rep_set _ (letters ++ digits)), within_more by (vm_compute; reflexivity).
    reflexivity. }
  assert (Hl : same_set la letters = true) by (vm_compute; reflexivity).
  assert (Hd : same_set da digits = true) by (vm_compute; reflexivity).
  split; intros (w & post & -> & H); exists w, post; (split; [auto|]).
  - rewrite !ahead_seq, HX in H. destruct H as (H1 & H2 & (H3 & H4) & H5).
    assert (Hf : free_of ["010"%char] w) by (eapply made_free; [exact H3|]; apply disjointb_ok; vm_compute; reflexivity).
    rewrite (far_ok la letters) in H1 by (auto; apply (bool_decide_eq_true_1 _); vm_compute; reflexivity).
    rewrite (far_ok da digits) in H2 by (auto; apply (bool_decide_eq_true_1 _); vm_compute; reflexivity).
    split; [|auto]. split; auto.
  - destruct H as [(H3 & H4 & H1 & H2) H5]. rewrite !ahead_seq, HX.
    assert (Hf : free_of ["010"%char] w) by (eapply made_free; [exact H3|]; apply disjointb_ok; vm_compute; reflexivity).
    rewrite (far_ok la letters) by (auto; apply (bool_decide_eq_true_1 _); vm_compute; reflexivity).
    rewrite (far_ok da digits) by (auto; apply (bool_decide_eq_true_1 _); vm_compute; reflexivity). auto.
Qed.

(** ** UUIDs *)
Definition re_hex (n : nat) : re := RRep n (Some n) (RSet (CSet false [("0"%char, "9"%char); ("a"%char, "f"%char); ("A"%char, "F"%char)])).
Lemma re_hex_lang n w : lang (re_hex n) w <-> made_of hexes w /\ length w = n.
Proof.
  unfold re_hex. rewrite (lang_rep_set _ hexes), within_some by (vm_compute; reflexivity). split; intros [H1 H2]; (split; [auto|lia]).
Qed.
Lemma uuid_lang s : satisfies RE_UUID s <-> line uuid4 s.
Proof.
  pattern_lang RE_UUID.
  change (lang (RSeq (re_hex 8) (RSeq (re_lit "-") (RSeq (re_hex 4) (RSeq (re_lit "-") (RSeq (re_lit "4") (RSeq (re_hex 3)
    (RSeq (re_lit "-") (RSeq (RSet (CSet false [("8"%char, "8"%char); ("9"%char, "9"%char); ("a"%char, "a"%char); ("b"%char, "b"%char); ("A"%char, "A"%char); ("B"%char, "B"%char)]))
    (RSeq (re_hex 3) (RSeq (re_lit "-") (RSeq (re_hex 12) REmpty))))))))))) t <-> uuid4 t).
  unfold uuid4. split.
  - intros H. apply lang_seq in H as (a & v & -> & Ha & H). apply lang_lit in H as (v' & -> & H).
    apply lang_seq in H as (b & v & -> & Hb & H). apply lang_lit in H as (v' & -> & H). apply lang_lit in H as (v & -> & H).
    apply lang_seq in H as (c & v' & -> & Hc & H). apply lang_lit in H as (v & -> & H). apply lang_char in H as (x & v' & -> & Hx & H).
    apply lang_seq in H as (d & v & -> & Hd & H). apply lang_lit in H as (e & -> & H). apply (proj1 (lang_empty_r _ _)) in H.
    apply re_hex_lang in Ha as [Ha La], Hb as [Hb Lb], Hc as [Hc Lc], Hd as [Hd Ld], H as [He Le].
    set_of Hx $"89abAB".
    exists a, b, ("4"%char :: c), (x :: d), e. split; [reflexivity|]. split.
    { repeat (apply Forall_cons; split); auto.
      - apply (bool_decide_eq_true_1 _). vm_compute. reflexivity.
      - revert Hx. apply subsetb_ok. vm_compute. reflexivity. }
    split_and!; try (cbn; congruence); cbn; eauto.
  - intros (a & b & c & d & e & -> & H & La & Lb & Lc & Ld & Le & Hc & x & Hd & Hx).
    apply Forall_cons in H as [Ha H]. apply Forall_cons in H as [Hb H]. apply Forall_cons in H as [Hc' H].
    apply Forall_cons in H as [Hd' H]. apply Forall_cons in H as [He _].
    destruct c as [|c0 c]; [discriminate|]. injection Hc as ->. destruct d as [|d0 d]; [discriminate|]. injection Hd as ->.
    apply Forall_cons in Hc' as [_ Hc']. apply Forall_cons in Hd' as [_ Hd']. injection Lc as Lc. injection Ld as Ld.
    apply lang_seq. do 2 eexists. split; [reflexivity|]. split; [apply re_hex_lang; auto|]. apply lang_lit. eexists. split; [reflexivity|].
    apply lang_seq. do 2 eexists. split; [reflexivity|]. split; [apply re_hex_lang; auto|]. apply lang_lit. eexists. split; [reflexivity|].
    apply lang_lit. eexists. split; [reflexivity|].
    apply lang_seq. do 2 eexists. split; [reflexivity|]. split; [apply re_hex_lang; auto|]. apply lang_lit. eexists. split; [reflexivity|].
    apply lang_char. do 2 eexists. split; [reflexivity|]. split; [to_set $"89abAB"; auto|].
    apply lang_seq. do 2 eexists. split; [reflexivity|]. split; [apply re_hex_lang; auto|]. apply lang_lit. eexists. split; [reflexivity|].
    apply lang_empty_r, re_hex_lang. auto.
Qed.

(** ** Joined parts *)
Lemma joined_cons sep x l : joined sep (x :: l) = x ++ concat (map (app sep) l).
Proof.
  revert x. induction l as [|y l IH]; intros x; [cbn; rewrite app_nil_r; auto|].
  change (joined sep (x :: y :: l)) with (x ++ sep ++ joined sep (y :: l)). rewrite IH. cbn. rewrite <- app_assoc. auto.
Qed.
Lemma ltimes_prefixed c a n w : ltimes (lang (RSeq (re_lit c) (RSeq a REmpty))) n w <->
  exists l, length l = n /\ Forall (lang a) l /\ w = concat (map (app [c]) l).
Proof.
  rewrite ltimes_concat. split.
  - intros (l & <- & Hl & ->). induction Hl as [|x l Hx Hl IH]; [exists []; auto|].
    apply lang_lit in Hx as (v & -> & Hx). apply (proj1 (lang_empty_r _ _)) in Hx. destruct IH as (l' & H1 & H2 & H3).
    exists (v :: l'). cbn. rewrite H3. split; [congruence|]. split; [apply Forall_cons; auto|]. auto.
  - intros (l & <- & Hl & ->). exists (map (app [c]) l). split; [rewrite map_length; auto|]. split; [|auto].
    induction Hl as [|x l Hx Hl IH]; [apply Forall_nil; auto|]. cbn [map]. apply Forall_cons. split; [|auto].
    apply lang_lit. exists x. split; [auto|]. apply lang_empty_r. auto.
Qed.
Lemma ltimes_suffixed c a n w : ltimes (lang (RSeq a (RSeq (re_lit c) REmpty))) n w <->
  exists l, length l = n /\ Forall (lang a) l /\ w = concat (map (fun x => x ++ [c]) l).
Proof.
  rewrite ltimes_concat. split.
  - intros (l & <- & Hl & ->). induction Hl as [|x l Hx Hl IH]; [exists []; auto|].
    apply lang_seq in Hx as (u & v & -> & Hx & H). apply lang_lit in H as (v' & -> & ->). destruct IH as (l' & H1 & H2 & H3).
    exists (u :: l'). cbn. rewrite H3. split; [congruence|]. split; [apply Forall_cons; auto|]. auto.
  - intros (l & <- & Hl & ->). exists (map (fun x => x ++ [c]) l). split; [rewrite map_length; auto|]. split; [|auto].
    induction Hl as [|x l Hx Hl IH]; [apply Forall_nil; auto|]. cbn [map]. apply Forall_cons. split; [|auto].
    apply lang_seq. exists x, [c]. split; [auto|]. split; [auto|]. apply lang_lit. exists []. split; [auto|]. cbn. auto.
Qed.
(** one [a], then any number of [a] after a separator *)
Lemma lang_joined c a b w : lang (RSeq a (RSeq (RRep 0 None (RSeq (re_lit c) (RSeq a REmpty))) b)) w <->
  exists l v, l <> [] /\ Forall (lang a) l /\ w = joined [c] l ++ v /\ lang b v.
Proof.
  rewrite lang_seq. split.
  - intros (x & y & -> & Hx & H). apply lang_seq in H as (z & v & -> & H & Hb). apply lang_rep in H as (k & _ & H).
    apply ltimes_prefixed in H as (l & _ & Hl & ->). exists (x :: l), v. split; [discriminate|]. split; [apply Forall_cons; auto|].
    rewrite joined_cons, <- app_assoc. auto.
  - intros (l & v & Hn & Hl & -> & Hb). destruct l as [|x l]; [congruence|]. apply Forall_cons in Hl as [Hx Hl].
    rewrite joined_cons, <- app_assoc. do 2 eexists. split; [reflexivity|]. split; [auto|]. apply lang_seq. do 2 eexists.
    split; [reflexivity|]. split; [|auto]. apply lang_rep. exists (length l). split; [apply within_more; lia|]. apply ltimes_prefixed. eauto.
Qed.

(** ** Labels *)
Definition alnum : cset := CSet false [("a"%char, "z"%char); ("A"%char, "Z"%char); ("0"%char, "9"%char)].
Definition alnum_dash : cset := CSet false [("a"%char, "z"%char); ("A"%char, "Z"%char); ("0"%char, "9"%char); ("-"%char, "-"%char)].
Definition re_label : re :=
  RSeq (RSet alnum) (RSeq (RRep 0 (Some 1%nat) (RSeq (RRep 0 (Some 61%nat) (RSet alnum_dash)) (RSeq (RSet alnum) REmpty))) REmpty).
Lemma alnum_not_dash c : c ∈ letters ++ digits -> c <> "-"%char.
Proof. intros H ->. revert H. apply (bool_decide_eq_true_1 _). vm_compute. reflexivity. Qed.
Lemma alnum_more c : c ∈ letters ++ digits -> c ∈ letters ++ digits ++ $"-".
Proof. rewrite !elem_of_app. tauto. Qed.
Lemma alnum_back c : c ∈ letters ++ digits ++ $"-" -> c <> "-"%char -> c ∈ letters ++ digits.
Proof. rewrite !elem_of_app. intros [H|[H|H]] Hn; auto. apply elem_of_list_singleton in H. contradiction. Qed.
Lemma label_lang w : lang re_label w <-> label w.
Proof.
  assert (Ha : same_set alnum (letters ++ digits) = true) by (vm_compute; reflexivity).
  assert (Hd : same_set alnum_dash (letters ++ digits ++ $"-") = true) by (vm_compute; reflexivity).
  unfold re_label, label, sized. split.
  - intros H. apply lang_char in H as (c & v & -> & Hc & H). apply (same_set_ok _ _ Ha) in Hc.
    apply (proj1 (lang_empty_r _ _)), lang_option in H as [-> | H].
    + split; [apply Forall_cons; split; [apply alnum_more; auto|apply Forall_nil; auto]|]. split; [cbn; lia|].
      split; intros [= ->]; apply alnum_not_dash in Hc; auto.
    + apply lang_seq in H as (u & v' & -> & Hu & H). apply (lang_rep_set _ _ _ _ _ Hd) in Hu as [Hu Hk].
      apply (proj1 (lang_empty_r _ _)), (lang_set _ _ _ Ha) in H as (e & -> & He).
      split; [apply Forall_cons; split; [apply alnum_more; auto|apply Forall_app; split; [auto|apply Forall_cons; split; [apply alnum_more; auto|apply Forall_nil; auto]]]|].
      split; [cbn; rewrite app_length; cbn; destruct Hk; lia|]. split; [intros [= ->]; apply alnum_not_dash in Hc; auto|].
      rewrite app_comm_cons, last_snoc. intros [= ->]. apply alnum_not_dash in He; auto.
  - intros (Hm & Hk & Hh & Hl). destruct w as [|c v]; [cbn in Hk; lia|]. apply Forall_cons in Hm as [Hc Hv].
    apply lang_char. exists c, v. split; [auto|]. split; [apply (same_set_ok _ _ Ha), alnum_back; [auto|intros ->; apply Hh; auto]|].
    apply lang_empty_r, lang_option. destruct v as [|e u _] using rev_ind; [auto|]. right.
    rewrite app_comm_cons, last_snoc in Hl. apply Forall_app in Hv as [Hu He]. apply Forall_cons in He as [He _].
    apply lang_seq. exists u, [e]. split; [auto|]. split.
    + apply (lang_rep_set _ _ _ _ _ Hd). split; [auto|]. cbn in Hk. rewrite app_length in Hk. cbn in Hk. split; lia.
    + apply lang_empty_r, (lang_set _ _ _ Ha). exists e. split; [auto|]. apply alnum_back; [auto|intros ->; apply Hl; auto].
Qed.

(** ** Mail *)
Lemma email_lang s : satisfies RE_EMAIL s <-> line email s.
Proof.
  pattern_lang RE_EMAIL.
  match goal with |- lang (RSeq (RRep 1 None (RSet ?a)) (RSeq _ (RSeq (RRep 1 None (RSet ?b)) (RSeq _ (RSeq ?c REmpty))))) _ <-> _ =>
    change (lang (RSeq (RRep 1 None (RSet a)) (RSeq (re_lit "@") (RSeq (RRep 1 None (RSet b)) (RSeq (re_lit ".") (RSeq c REmpty))))) t <-> email t) end.
  unfold email. split.
  - intros H. apply lang_seq in H as (l & v & -> & Hl & H). apply lang_lit in H as (v' & -> & H).
    apply lang_seq in H as (d & v & -> & Hd & H). apply lang_lit in H as (top & -> & H). apply (proj1 (lang_empty_r _ _)) in H.
    rep_set Hl (letters ++ digits ++ $"._%+-"). rep_set Hd (letters ++ digits ++ $".-"). rep_set H letters.
    rewrite within_more in *. exists l, d, top. rewrite !not_nil. split; [auto|]. tauto.
  - intros (l & d & top & -> & Hl & Nl & Hd & Nd & Ht & Nt). rewrite not_nil in Nl, Nd.
    apply lang_seq. do 2 eexists. split; [reflexivity|]. split; [as_set (letters ++ digits ++ $"._%+-"); rewrite within_more; auto|].
    apply lang_lit. eexists. split; [reflexivity|].
    apply lang_seq. do 2 eexists. split; [reflexivity|]. split; [as_set (letters ++ digits ++ $".-"); rewrite within_more; auto|].
    apply lang_lit. eexists. split; [reflexivity|]. apply lang_empty_r. as_set letters. rewrite within_more. auto.
Qed.
Lemma strict_email_lang s : satisfies RE_EMAIL_STRICT s <-> line strict_email s.
Proof.
  pattern_lang RE_EMAIL_STRICT.
  (* the label is written out in the sequence *)
  match goal with |- lang (RSeq (RRep 1 None (RSet ?a)) _) _ <-> _ =>
    change (lang (RSeq (RRep 1 None (RSet a)) (RSeq (re_lit "@") (RSeq (RSet alnum) (RSeq (RRep 0 (Some 1%nat) (RSeq (RRep 0 (Some 61%nat) (RSet alnum_dash)) (RSeq (RSet alnum) REmpty)))
      (RSeq (RRep 0 None (RSeq (re_lit ".") (RSeq (RSet alnum) (RSeq (RRep 0 (Some 1%nat) (RSeq (RRep 0 (Some 61%nat) (RSet alnum_dash)) (RSeq (RSet alnum) REmpty))) REmpty)))) REmpty))))) t <-> strict_email t);
    set (ka := a) end.
  set (X := RRep 0 (Some 1%nat) (RSeq (RRep 0 (Some 61%nat) (RSet alnum_dash)) (RSeq (RSet alnum) REmpty))).
  assert (Hx : forall b w, lang (RSeq (RSet alnum) (RSeq X b)) w <-> lang (RSeq re_label b) w).
  { intros b w. unfold re_label. fold X. rewrite lang_char, lang_seq. split.
    - intros (c & v & -> & Hc & H). apply lang_seq in H as (u & v' & -> & Hu & H). exists (c :: u), v'. split; [auto|]. split; [|auto].
      apply lang_char. exists c, u. split; [auto|]. split; [auto|]. apply lang_empty_r. auto.
    - intros (u & v & -> & H & Hb). apply lang_char in H as (c & u' & -> & Hc & H). exists c, (u' ++ v). split; [auto|]. split; [auto|].
      apply lang_seq. exists u', v. split; [auto|]. split; [|auto]. apply (proj1 (lang_empty_r _ _)) in H. auto. }
  assert (Hr : forall n w, ltimes (lang (RSeq (re_lit ".") (RSeq (RSet alnum) (RSeq X REmpty)))) n w <-> ltimes (lang (RSeq (re_lit ".") (RSeq re_label REmpty))) n w).
  { induction n as [|n IH]; intros w; cbn [ltimes]; [reflexivity|].
    split; intros (u & v & -> & H1 & H2); exists u, v; (split; [auto|]); (split; [|apply IH; auto]);
      apply lang_lit in H1 as (u' & -> & H1); apply lang_lit; exists u'; (split; [auto|]); apply Hx; auto. }
  assert (Hj : forall w, lang (RSeq (RSet alnum) (RSeq X (RSeq (RRep 0 None (RSeq (re_lit ".") (RSeq (RSet alnum) (RSeq X REmpty)))) REmpty))) w <->
    exists ls, ls <> [] /\ Forall label ls /\ w = joined $"." ls).
  { intros w. rewrite Hx.
    transitivity (lang (RSeq re_label (RSeq (RRep 0 None (RSeq (re_lit ".") (RSeq re_label REmpty))) REmpty)) w).
    - rewrite !lang_seq. split; intros (u & v & -> & Hu & H); exists u, v; (split; [auto|]); (split; [auto|]);
        apply (proj1 (lang_empty_r _ _)) in H; apply lang_empty_r; apply lang_rep in H as (k & Hk & H); apply lang_rep; exists k; (split; [auto|]); apply Hr; auto.
    - rewrite lang_joined. split.
      + intros (l & v & Hn & Hl & -> & ->). rewrite app_nil_r. exists l. split; [auto|]. split; [|auto].
        eapply Forall_impl; [exact Hl|]. intros x. apply label_lang.
      + intros (l & Hn & Hl & ->). exists l, []. rewrite app_nil_r. split; [auto|]. split; [|split; [auto|cbn; auto]].
        eapply Forall_impl; [exact Hl|]. intros x. apply label_lang. }
  unfold strict_email. split.
  - intros H. apply lang_seq in H as (l & v & -> & Hl & H). apply lang_lit in H as (v' & -> & H). apply Hj in H as (ls & Hn & Hls & ->).
    rep_set Hl (letters ++ digits ++ $".!#$%&'*+/=?^_`{|}~-"). rewrite within_more in Hl. exists l, ls. rewrite (not_nil l). split; [auto|]. tauto.
  - intros (l & ls & -> & Hl & Nl & Hn & Hls). rewrite not_nil in Nl. apply lang_seq. do 2 eexists. split; [reflexivity|].
    split; [as_set (letters ++ digits ++ $".!#$%&'*+/=?^_`{|}~-"); rewrite within_more; auto|]. apply lang_lit. eexists. split; [reflexivity|].
    apply Hj. eauto.
Qed.

(** ** Files *)
Lemma filename_lang s : satisfies RE_FILENAME s <-> line file_name s.
Proof.
  pattern_lang RE_FILENAME.
  match goal with |- lang (RSeq ?a (RSeq _ (RSeq ?b REmpty))) _ <-> _ =>
    change (lang (RSeq a (RSeq (re_lit ".") (RSeq b REmpty))) t <-> file_name t) end.
  unfold file_name, sized. split.
  - intros H. apply lang_seq in H as (n & v & -> & Hn & H). apply lang_lit in H as (e & -> & H). apply (proj1 (lang_empty_r _ _)) in H.
    rep_set Hn (letters ++ digits ++ $"_,-" ++ blanks). rep_set H letters. rewrite within_more in Hn. rewrite within_some in H.
    exists n, e. rewrite not_nil. split; [auto|]. tauto.
  - intros (n & e & -> & Hn & Nn & He & Ne). rewrite not_nil in Nn. apply lang_seq. do 2 eexists. split; [reflexivity|].
    split; [as_set (letters ++ digits ++ $"_,-" ++ blanks); rewrite within_more; auto|]. apply lang_lit. eexists. split; [reflexivity|].
    apply lang_empty_r. as_set letters. rewrite within_some. auto.
Qed.
Definition not_slash : cset := CSet true [("/"%char, "/"%char); (" "%char, " "%char)].
Definition re_step : re := RSeq (re_lit "/") (RSeq (RRep 0 None (RSet not_slash)) REmpty).
Lemma step_lang w : lang re_step w <-> exists v, w = "/"%char :: v /\ free_of $"/ " v.
Proof.
  unfold re_step. rewrite lang_lit. split; intros (v & -> & H); exists v; (split; [auto|]).
  - apply (proj1 (lang_empty_r _ _)), lang_chars in H as [H _]. apply (free_chars not_slash); [vm_compute; reflexivity|auto].
  - apply lang_empty_r, lang_chars. split; [apply (free_chars not_slash $"/ "); [vm_compute; reflexivity|auto]|split; [lia|auto]].
Qed.
Lemma free_space v : free_of $"/ " v -> free_of $" " v.
Proof. intros H. eapply Forall_impl; [exact H|]. intros c Hc Hx. apply Hc. right. auto. Qed.
(** A path is a row of steps. *)
Lemma path_steps t : unix_path t <-> exists n, (1 <= n)%nat /\ ltimes (lang re_step) n t.
Proof.
  split.
  - intros [Hh Hf]. destruct t as [|c t]; [discriminate|]. injection Hh as ->. apply Forall_cons in Hf as [_ Hf].
    assert (Hg : exists u v, t = u ++ v /\ free_of $"/ " u /\ (v = [] \/ unix_path v) /\ exists n, ltimes (lang re_step) n v).
    { induction t as [|c t IH]; [exists [], []; split; [auto|]; split; [apply Forall_nil; auto|]; split; [auto|]; exists O; reflexivity|].
      apply Forall_cons in Hf as [Hc Hf]. destruct (IH Hf) as (u & v & -> & Hu & Hv & n & Hn).
      destruct (Ascii.eqb_spec c "/") as [->|Hne].
      - exists [], ("/"%char :: u ++ v). split; [auto|]. split; [apply Forall_nil; auto|]. split.
        + right. split; [auto|]. apply Forall_cons. auto.
        + exists (S n). cbn [ltimes]. exists ("/"%char :: u), v. split; [auto|]. split; [apply step_lang; eauto|auto].
      - exists (c :: u), v. split; [auto|]. split; [|eauto]. apply Forall_cons. split; [|auto].
        intros Hx. apply elem_of_cons in Hx as [->|Hx]; [congruence|contradiction]. }
    destruct Hg as (u & v & -> & Hu & _ & n & Hn). exists (S n). split; [lia|]. cbn [ltimes]. exists ("/"%char :: u), v.
    split; [auto|]. split; [apply step_lang; eauto|auto].
  - intros (n & Hn & H). apply ltimes_concat in H as (l & Hl & H & ->). destruct l as [|x l]; [cbn in Hl; lia|].
    split.
    + apply Forall_cons in H as [H _]. apply step_lang in H as (v & -> & _). reflexivity.
    + clear Hl. revert H. generalize (x :: l). intros l'. induction 1 as [|y l' Hy Hl' IH]; [apply Forall_nil; auto|].
      cbn. apply Forall_app. split; [|auto]. apply step_lang in Hy as (v & -> & Hv). apply Forall_cons. split; [|apply free_space; auto].
      apply (bool_decide_eq_true_1 _). vm_compute. reflexivity.
Qed.
Lemma path_lang s : satisfies RE_UNIX_PATH s <-> unix_path s.
Proof.
  transitivity (line unix_path s).
  - pattern_lang RE_UNIX_PATH.
    change (lang (RSeq (RRep 1 None re_step) (RSeq (RRep 0 (Some 1%nat) (re_lit "/")) REmpty)) t <-> unix_path t). split.
    + intros H. apply lang_seq in H as (u & v & -> & Hu & H). apply (proj1 (lang_empty_r _ _)), lang_option in H.
      apply lang_rep in Hu as (n & Hn & Hu). apply within_more in Hn.
      assert (Hp : unix_path u) by (apply path_steps; eauto). destruct H as [->|(c & -> & Hc)]; [rewrite app_nil_r; auto|].
      is_char Hc. destruct Hp as [Hh Hf]. split; [destruct u; [discriminate|auto]|]. apply Forall_app. split; [auto|].
      apply Forall_cons. split; [|apply Forall_nil; auto]. apply (bool_decide_eq_true_1 _). vm_compute. reflexivity.
    + intros H. apply path_steps in H as (n & Hn & H). apply lang_seq. exists t, []. rewrite app_nil_r. split; [auto|].
      split; [apply lang_rep; exists n; split; [apply within_more; auto|auto]|]. apply lang_empty_r, lang_option. auto.
  - unfold line. split; [|auto]. intros [H|(t & -> & Hh & Hf)]; [auto|]. split; [destruct t; [discriminate|auto]|].
    apply Forall_app. split; [auto|]. apply Forall_cons. split; [|apply Forall_nil; auto]. apply (bool_decide_eq_true_1 _). vm_compute. reflexivity.
Qed.
