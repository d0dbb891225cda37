(** * The patterns for URLs, domains and versions *)
From stdpp Require Import list.
From Verif Require Import RegexRun RegexProofs SpecPatterns RegexLang PatternNumbers PatternDates PatternNames PatternNet.

(** ** URLs *)
Definition not_blank : cset := CSet true space_ranges.
Definition re_rest : re :=
  RSeq (RSet (CSet true (space_ranges ++ [("/"%char, "/"%char); ("$"%char, "$"%char); ("."%char, "."%char); ("?"%char, "?"%char); ("#"%char, "#"%char)])))
    (RSeq (RSet any_char) (RSeq (RRep 0 None (RSet not_blank)) REmpty)).
Lemma rest_lang w : lang re_rest w <-> after_scheme w.
Proof.
  unfold re_rest, after_scheme. split.
  - intros H. apply lang_char in H as (c & v & -> & Hc & H). apply lang_char in H as (d & r & -> & Hd & H).
    apply (proj1 (lang_empty_r _ _)), lang_chars in H as [H _]. exists c, d, r. split; [auto|].
    split; [apply (diff_set_ok _ (blanks ++ $"/$.?#")) in Hc; [auto|vm_compute; reflexivity]|].
    split; [intros ->; vm_compute in Hd; discriminate|]. apply (free_chars not_blank); [vm_compute; reflexivity|auto].
  - intros (c & d & r & -> & Hc & Hd & H). apply lang_char. exists c, (d :: r). split; [auto|].
    split; [apply (diff_set_ok _ (blanks ++ $"/$.?#")); [vm_compute; reflexivity|auto]|]. apply lang_char. exists d, r. split; [auto|].
    split; [apply (diff_set_ok _ ["010"%char]); [vm_compute; reflexivity|]; intros Hx; apply elem_of_list_singleton in Hx; auto|].
    apply lang_empty_r, lang_chars. split; [apply (free_chars not_blank blanks); [vm_compute; reflexivity|auto]|]. split; [lia|auto].
Qed.
Lemma url_lang s : satisfies RE_URL s <-> line url s.
Proof.
  pattern_lang RE_URL.
  match goal with |- lang (RSeq ?a _) _ <-> _ =>
    change (lang (RSeq a (RSeq (re_lit ":") (RSeq (re_lit "/") (RSeq (re_lit "/") re_rest)))) t <-> url t) end.
  unfold url, scheme. split.
  - intros H. apply lang_seq in H as (a & v & -> & Ha & H). apply lang_lit in H as (v' & -> & H). apply lang_lit in H as (v & -> & H).
    apply lang_lit in H as (v' & -> & H). apply rest_lang in H. apply lang_char in Ha as (c & r & -> & Hc & Ha).
    apply (proj1 (lang_empty_r _ _)) in Ha. rep_set Ha (letters ++ digits ++ $"+.-"). destruct Ha as [Ha _]. set_of Hc letters.
    exists (c :: r), v'. split; [reflexivity|]. split; [eauto|auto].
  - intros (a & b & -> & (c & r & -> & Hc & Hr) & Hb). apply lang_seq. do 2 eexists. split; [reflexivity|]. split.
    + apply lang_char. exists c, r. split; [auto|]. split; [to_set letters; auto|]. apply lang_empty_r. as_set (letters ++ digits ++ $"+.-").
      rewrite within_more. split; [auto|lia].
    + do 3 (apply lang_lit; eexists; split; [reflexivity|]). apply rest_lang. auto.
Qed.
Lemma http_lang s : satisfies RE_HTTP s <-> line http_url s.
Proof.
  pattern_lang RE_HTTP.
  change (lang (RSeq (re_lit "h") (RSeq (re_lit "t") (RSeq (re_lit "t") (RSeq (re_lit "p") (RSeq (RRep 0 (Some 1%nat) (re_lit "s"))
    (RSeq (re_lit ":") (RSeq (re_lit "/") (RSeq (re_lit "/") re_rest)))))))) t <-> http_url t).
  unfold http_url. split.
  - intros H. do 4 (apply lang_lit in H as (? & -> & H)). apply lang_seq in H as (o & v & -> & Ho & H). do 3 (apply lang_lit in H as (? & -> & H)).
    apply rest_lang in H. apply lang_option in Ho as [->|(c & -> & Hc)].
    + eexists $"http", _. split; [reflexivity|]. auto.
    + is_char Hc. eexists $"https", _. split; [reflexivity|]. auto.
  - intros (a & b & -> & Ha & Hb). assert (Hg : exists o, a = $"http" ++ o /\ (o = [] \/ o = $"s")) by (destruct Ha as [->| ->]; [exists []|exists $"s"]; auto).
    destruct Hg as (o & -> & Ho). do 4 (apply lang_lit; eexists; split; [reflexivity|]). apply lang_seq. do 2 eexists. split; [reflexivity|]. split.
    + apply lang_option. destruct Ho as [->| ->]; [auto|]. right. exists "s"%char. auto.
    + do 3 (apply lang_lit; eexists; split; [reflexivity|]). apply rest_lang. auto.
Qed.

(** ** Domains *)
Definition dash : cset := single "-".
Definition ld_set : cset := CSet false [("A"%char, "Z"%char); ("a"%char, "z"%char); ("0"%char, "9"%char); ("-"%char, "-"%char)].
Definition re_part : re :=
  RSeq (RAhead false (RSeq (RSet dash) REmpty)) (RSeq (RRep 1 (Some 63%nat) (RSet ld_set)) (RSeq (RBehind false dash) (RSeq (re_lit ".") REmpty))).
Lemma part_lang pre w post : matches re_part pre w post <-> exists t, w = t ++ $"." /\ label t.
Proof.
  assert (Hs : same_set ld_set (letters ++ digits ++ $"-") = true) by (vm_compute; reflexivity).
  unfold label, sized.
  change (matches re_part pre w post) with (exists u v, w = u ++ v /\
    (u = [] /\ ~ exists x y, v ++ post = x ++ y /\ matches (RSeq (RSet dash) REmpty) pre x y) /\
    exists u' v', v = u' ++ v' /\ matches (RRep 1 (Some 63%nat) (RSet ld_set)) (pre ++ u) u' (v' ++ post) /\
      exists u'' v'', v' = u'' ++ v'' /\ (u'' = [] /\ ~ exists p c, (pre ++ u) ++ u' = p ++ [c] /\ in_set dash c = true) /\
        matches (RSeq (re_lit ".") REmpty) (((pre ++ u) ++ u') ++ u'') v'' post). split.
  - intros (u & v & -> & (-> & Ha) & t & v' & -> & Ht & u'' & v'' & -> & (-> & Hb) & Hd). exists t.
    rewrite plain_lang in Ht by reflexivity. rewrite plain_lang in Hd by reflexivity.
    apply lang_lit in Hd as (e & -> & ->). apply (lang_rep_set _ _ _ _ _ Hs) in Ht as [Ht Hk]. rewrite within_some in Hk.
    split; [auto|]. split; [auto|]. split; [auto|]. split.
    + intros E. destruct t as [|c t]; [discriminate|]. injection E as ->. apply Ha. exists $"-". eexists. split; [reflexivity|].
      apply plain_lang; [reflexivity|]. apply lang_empty_r. exists "-"%char. auto.
    + intros E. apply last_Some in E as (t' & ->). apply Hb. exists ((pre ++ []) ++ t'), "-"%char. split; [rewrite <- !app_assoc; auto|auto].
  - intros (t & -> & Ht & Hk & Hh & Hl). exists [], (t ++ $"."). split; [auto|]. split; [split; [auto|]|].
    { intros (x & y & E & H). apply plain_lang in H; [|reflexivity]. apply (proj1 (lang_empty_r _ _)) in H. destruct H as (c & -> & Hc). is_char Hc.
      destruct t as [|c t]; [cbn in Hk; lia|]. injection E as -> _. apply Hh. auto. }
    exists t, $".". split; [auto|]. split; [rewrite plain_lang by reflexivity; apply (lang_rep_set _ _ _ _ _ Hs); rewrite within_some; auto|].
    exists [], $".". split; [auto|]. split; [split; [auto|]|].
    + intros (p & c & E & Hc). is_char Hc. destruct t as [|e t _] using rev_ind; [cbn in Hk; lia|]. rewrite last_snoc in Hl.
      rewrite app_assoc in E. apply app_inj_tail in E as [_ E]. congruence.
    + rewrite plain_lang by reflexivity. apply lang_lit. exists []. cbn. auto.
Qed.
Definition re_total : re := RAhead true (RSeq (RRep 1 (Some 253%nat) (RSet any_char)) (RSeq REnd REmpty)).
Lemma total_lang w post : free_of ["010"%char] w -> w <> [] -> at_end post ->
  matches re_total [] [] (w ++ post) <-> (length w <= 253)%nat.
Proof.
  intros Hf Hn Hp. unfold re_total.
  change (matches (RAhead true (RSeq (RRep 1 (Some 253%nat) (RSet any_char)) (RSeq REnd REmpty))) [] [] (w ++ post)) with
    ([] = ([] : cstr) /\ exists u v, w ++ post = u ++ v /\ matches (RSeq (RRep 1 (Some 253%nat) (RSet any_char)) (RSeq REnd REmpty)) [] u v).
  assert (Hm : forall u v, matches (RSeq (RRep 1 (Some 253%nat) (RSet any_char)) (RSeq REnd REmpty)) [] u v <->
    (free_of ["010"%char] u /\ (1 <= length u <= 253)%nat) /\ at_end v).
  { intros u v. rewrite (strip_ok _ (RSeq (RRep 1 (Some 253%nat) (RSet any_char)) REmpty)) by reflexivity.
    rewrite lang_empty_r, lang_chars, within_some, (free_chars _ ["010"%char]) by (vm_compute; reflexivity). reflexivity. }
  split.
  - intros [_ (u & v & E & H)]. apply Hm in H as [[Hu Hk] Hv].
    apply not_elem_free in Hu, Hf. destruct Hp as [->| ->], Hv as [->| ->]; rewrite ?app_nil_r in E.
    + subst u. lia.
    + subst w. destruct Hf. apply elem_of_app. right. left.
    + subst u. destruct Hu. apply elem_of_app. right. left.
    + apply app_inj_tail in E as [-> _]. lia.
  - intros Hk. split; [auto|]. exists w, post. split; [auto|]. apply Hm. split; [|auto]. split; [auto|]. apply not_nil in Hn. lia.
Qed.
Lemma joined_snoc sep ls top : joined sep (ls ++ [top]) = concat (map (fun x => x ++ sep) ls) ++ top.
Proof.
  induction ls as [|x ls IH]; [reflexivity|]. cbn [app map concat]. rewrite <- !app_assoc, <- IH.
  destruct (ls ++ [top]) eqn:E; [destruct ls; discriminate|]. reflexivity.
Qed.
Lemma domain_lang s : satisfies RE_DOMAIN s <-> line domain s.
Proof.
  set (tops := CSet false [("A"%char, "Z"%char); ("a"%char, "z"%char)]).
  set (X := RSeq (RRep 2 None (RSet tops)) (RSeq REnd REmpty)).
  rewrite (satisfies_found _ (RSeq RStart (RSeq re_total (RSeq (RRep 1 None re_part) X)))) by (vm_compute; reflexivity).
  rewrite found_start, <- line_at_end. unfold re_total at 1.
  assert (HX : forall pre w post, matches X pre w post <-> (made_of letters w /\ (2 <= length w)%nat) /\ at_end post).
  { intros pre w post. unfold X. rewrite (strip_ok _ (RSeq (RRep 2 None (RSet tops)) REmpty)) by reflexivity.
    rewrite lang_empty_r, (lang_rep_set _ letters), within_more by (vm_compute; reflexivity). reflexivity. }
  assert (HY : forall w post, matches (RSeq (RRep 1 None re_part) X) [] w post <->
    (exists ls top, w = joined $"." (ls ++ [top]) /\ ls <> [] /\ Forall label ls /\ made_of letters top /\ (2 <= length top)%nat) /\ at_end post).
  { intros w post.
    change (matches (RSeq (RRep 1 None re_part) X) [] w post) with
      (exists u v, w = u ++ v /\ (exists k, (1 <= k)%nat /\ (forall h, None = Some h -> (k <= h)%nat) /\ times (matches re_part) k [] u (v ++ post)) /\ matches X ([] ++ u) v post).
    split.
    - intros (u & top & -> & (k & Hk & _ & H) & HX'). apply HX in HX' as [[H1 H2] H3]. split; [|auto].
      rewrite (times_ltimes _ (fun w => exists t, w = t ++ $"." /\ label t)) in H by apply part_lang.
      apply ltimes_concat in H as (l & <- & Hl & ->). assert (Hg : exists ls, Forall label ls /\ l = map (fun x => x ++ $".") ls).
      { clear -Hl. induction Hl as [|x l (t & -> & Ht) Hl (ls & Hls & ->)]; [exists []; auto|]. exists (t :: ls). split; [apply Forall_cons; auto|auto]. }
      destruct Hg as (ls & Hls & ->). rewrite map_length in Hk. exists ls, top. rewrite joined_snoc. split; [auto|]. split; [apply not_nil; lia|]. auto.
    - intros [(ls & top & -> & Hn & Hls & H1 & H2) H3]. rewrite joined_snoc. do 2 eexists. split; [reflexivity|]. split; [|apply HX; auto].
      exists (length ls). split; [apply not_nil; auto|]. split; [discriminate|].
      rewrite (times_ltimes _ (fun w => exists t, w = t ++ $"." /\ label t)) by apply part_lang. apply ltimes_concat.
      exists (map (fun x => x ++ $".") ls). split; [apply map_length|]. split; [|auto]. clear -Hls. induction Hls as [|x ls Hx Hls IH]; [apply Forall_nil; auto|].
      cbn [map]. apply Forall_cons. eauto. }
  assert (HF : forall ls top, Forall label ls -> made_of letters top -> (2 <= length top)%nat ->
    free_of ["010"%char] (joined $"." (ls ++ [top])) /\ joined $"." (ls ++ [top]) <> []).
  { intros ls top Hls H1 H2. rewrite joined_snoc. split.
    - apply Forall_app. split.
      + clear -Hls. induction Hls as [|x ls Hx Hls IH]; [apply Forall_nil; auto|]. cbn [map concat]. apply Forall_app. split; [|auto].
        apply Forall_app. split.
        * destruct Hx as [Hx _]. eapply made_free; [exact Hx|]. apply disjointb_ok. vm_compute. reflexivity.
        * apply Forall_cons. split; [|apply Forall_nil; auto]. apply (bool_decide_eq_true_1 _). vm_compute. reflexivity.
      + eapply made_free; [exact H1|]. apply disjointb_ok. vm_compute. reflexivity.
    - intros E. apply app_eq_nil in E as [_ ->]. cbn in H2. lia. }
  unfold domain. split; intros (w & post & -> & H); exists w, post; (split; [auto|]).
  - rewrite ahead_seq, HY in H. destruct H as [H1 [(ls & top & -> & Hn & Hls & Ht & Hk) H2]]. destruct (HF ls top Hls Ht Hk) as [Hf Hne].
    apply (total_lang _ post Hf Hne H2) in H1. split; [|auto]. exists ls, top. auto 10.
  - destruct H as [(ls & top & -> & Hn & Hls & Ht & Hk & H1) H2]. destruct (HF ls top Hls Ht Hk) as [Hf Hne]. rewrite ahead_seq, HY.
    split; [apply total_lang; auto|]. split; [eauto 10|auto].
Qed.

(** ** Versions *)
Definition re_number : re := RAlt (RSeq (re_lit "0") REmpty) (RSeq (rng "1" "9") (RSeq (RRep 0 None (rng "0" "9")) REmpty)).
Lemma number_lang w : lang re_number w <-> plain_number w.
Proof.
  unfold re_number, plain_number. rewrite lang_alt, lang_rng_seq. split.
  - intros [H|(c & v & -> & Hc & H)].
    + apply lang_lit in H as (v & -> & ->). split; [|split; [discriminate|auto]].
      apply Forall_cons. split; [apply digit_code; codes; lia|apply Forall_nil; auto].
    + codes. apply (proj1 (lang_empty_r _ _)) in H. unfold rng in H. rep_set H digits. split; [apply Forall_cons; split; [apply digit_code; lia|tauto]|].
      split; [discriminate|]. intros [= ->]. codes. lia.
  - intros (Hd & Hn & Hz). destruct w as [|c v]; [congruence|]. apply Forall_cons in Hd as [Hc Hv]. apply digit_code in Hc.
    destruct (Z.eq_dec (code c) 48) as [E|E].
    + left. assert (c = "0"%char) as -> by (apply code_inj; auto). rewrite Hz by auto. apply lang_lit. exists []. cbn. auto.
    + right. exists c, v. codes. split; [auto|]. split; [lia|]. apply lang_empty_r. unfold rng. as_set digits. rewrite within_more. split; [auto|lia].
Qed.
Definition id_set : cset := CSet false [("0"%char, "9"%char); ("a"%char, "z"%char); ("A"%char, "Z"%char); ("-"%char, "-"%char)].
Definition id_other : cset := CSet false [("a"%char, "z"%char); ("A"%char, "Z"%char); ("-"%char, "-"%char)].
Definition re_pre : re :=
  RAlt (RSeq (re_lit "0") REmpty) (RAlt (RSeq (rng "1" "9") (RSeq (RRep 0 None (rng "0" "9")) REmpty))
    (RSeq (RRep 0 None (rng "0" "9")) (RSeq (RSet id_other) (RSeq (RRep 0 None (RSet id_set)) REmpty)))).
Lemma pre_lang w : lang re_pre w <-> pre_release w.
Proof.
  assert (Hi : same_set id_set (letters ++ digits ++ $"-") = true) by (vm_compute; reflexivity).
  assert (Ho : same_set id_other (letters ++ $"-") = true) by (vm_compute; reflexivity).
  transitivity (lang re_number w \/ lang (RSeq (RRep 0 None (rng "0" "9")) (RSeq (RSet id_other) (RSeq (RRep 0 None (RSet id_set)) REmpty))) w).
  { unfold re_pre, re_number. rewrite !lang_alt. tauto. }
  rewrite number_lang. unfold pre_release, identifier. split.
  - intros [H|H].
    + pose proof H as (Hd & Hn & _). split; [|auto]. split; [|auto]. eapply made_more; [|exact Hd]. vm_compute. reflexivity.
    + apply lang_seq in H as (u & v & -> & Hu & H). unfold rng in Hu. rep_set Hu digits. destruct Hu as [Hu _].
      apply lang_char in H as (c & v' & -> & Hc & H). apply (same_set_ok _ _ Ho) in Hc. apply (proj1 (lang_empty_r _ _)), (lang_rep_set _ _ _ _ _ Hi) in H as [H _].
      split; [split|].
      * apply Forall_app. split; [eapply made_more; [|exact Hu]; vm_compute; reflexivity|]. apply Forall_cons. split; [|auto].
        revert Hc. apply subsetb_ok. vm_compute. reflexivity.
      * intros E. apply app_eq_nil in E as [_ E]. discriminate.
      * intros Hx. apply Forall_app in Hx as [_ Hx]. apply Forall_cons in Hx as [Hx _]. exfalso. revert Hx. revert Hc. apply disjointb_ok. vm_compute. reflexivity.
  - intros [[H Hn] Hd].
    assert (Hg : made_of digits w \/ exists u c v, w = u ++ c :: v /\ made_of digits u /\ c ∈ letters ++ $"-" /\ made_of (letters ++ digits ++ $"-") v).
    { clear Hn Hd. induction w as [|c w IH]; [left; apply Forall_nil; auto|]. apply Forall_cons in H as [Hc H].
      destruct (decide (c ∈ digits)) as [Hcd|Hcd].
      - destruct (IH H) as [Hw|(u & x & v & -> & Hu & Hx & Hv)]; [left; apply Forall_cons; auto|]. right. exists (c :: u), x, v.
        split; [auto|]. split; [apply Forall_cons; auto|auto].
      - right. exists [], c, w. split; [auto|]. split; [apply Forall_nil; auto|]. split; [|auto]. rewrite !elem_of_app in *. tauto. }
    destruct Hg as [Hg|(u & c & v & -> & Hu & Hc & Hv)]; [left; auto|]. right. apply lang_seq. do 2 eexists. split; [reflexivity|].
    split; [unfold rng; as_set digits; rewrite within_more; split; [auto|lia]|]. apply lang_char. exists c, v. split; [auto|].
    split; [apply (same_set_ok _ _ Ho); auto|]. apply lang_empty_r, (lang_rep_set _ _ _ _ _ Hi). rewrite within_more. split; [auto|lia].
Qed.
Definition re_id : re := RRep 1 None (RSet id_set).
Lemma id_lang w : lang re_id w <-> identifier w.
Proof.
  unfold re_id, identifier. rewrite (lang_rep_set _ (letters ++ digits ++ $"-")), within_more, not_nil by (vm_compute; reflexivity). reflexivity.
Qed.
(** A mark and joined parts, or nothing. *)
Lemma marked_lang c a P w : (forall t, lang a t <-> P t) ->
  lang (RRep 0 (Some 1%nat) (RSeq (re_lit c) (RSeq (RSeq a (RSeq (RRep 0 None (RSeq (re_lit ".") (RSeq a REmpty))) REmpty)) REmpty))) w <->
  exists l, w = marked [c] l /\ Forall P l.
Proof.
  intros Ha. assert (Hf : forall l, Forall (lang a) l <-> Forall P l).
  { intros l. split; intros H; (eapply Forall_impl; [exact H|]); intros x; apply Ha. }
  rewrite lang_option. split.
  - intros [->|H]; [exists []; auto|]. apply lang_lit in H as (v & -> & H). apply (proj1 (lang_empty_r _ _)), lang_joined in H as (l & v' & Hn & Hl & -> & ->).
    exists l. rewrite app_nil_r. split; [destruct l; [congruence|reflexivity]|apply Hf; auto].
  - intros (l & -> & Hl). destruct l as [|x l]; [auto|]. right. apply lang_lit. eexists. split; [reflexivity|]. apply lang_empty_r, lang_joined.
    exists (x :: l), []. rewrite app_nil_r. split; [discriminate|]. split; [apply Hf; auto|]. split; [auto|reflexivity].
Qed.
Lemma semver_lang s : satisfies RE_SEMVER s <-> line semver s.
Proof.
  pattern_lang RE_SEMVER.
  change (lang (RSeq re_number (RSeq (re_lit ".") (RSeq re_number (RSeq (re_lit ".") (RSeq re_number
    (RSeq (RRep 0 (Some 1%nat) (RSeq (re_lit "-") (RSeq (RSeq re_pre (RSeq (RRep 0 None (RSeq (re_lit ".") (RSeq re_pre REmpty))) REmpty)) REmpty)))
    (RSeq (RRep 0 (Some 1%nat) (RSeq (re_lit "+") (RSeq (RSeq re_id (RSeq (RRep 0 None (RSeq (re_lit ".") (RSeq re_id REmpty))) REmpty)) REmpty))) REmpty))))))) t <-> semver t).
  unfold semver. split.
  - intros H. apply lang_seq in H as (a & v & -> & Ha & H). apply lang_lit in H as (v' & -> & H). apply lang_seq in H as (b & v & -> & Hb & H).
    apply lang_lit in H as (v' & -> & H). apply lang_seq in H as (c & v & -> & Hc & H). apply lang_seq in H as (p & q & -> & Hp & H).
    apply (proj1 (lang_empty_r _ _)) in H. apply (marked_lang _ _ _ _ pre_lang) in Hp as (pre & -> & Hp). apply (marked_lang _ _ _ _ id_lang) in H as (build & -> & Hq).
    exists a, b, c, pre, build. split; [apps|]. rewrite <- !number_lang. auto.
  - intros (a & b & c & pre & build & -> & Ha & Hb & Hc & Hp & Hq). rewrite <- !number_lang in *.
    apply lang_seq. exists a, ("."%char :: b ++ "."%char :: c ++ marked $"-" pre ++ marked $"+" build). split; [apps|]. split; [auto|].
    apply lang_lit. eexists. split; [reflexivity|]. apply lang_seq. do 2 eexists. split; [reflexivity|]. split; [auto|].
    apply lang_lit. eexists. split; [reflexivity|]. apply lang_seq. do 2 eexists. split; [reflexivity|]. split; [auto|].
    apply lang_seq. do 2 eexists. split; [reflexivity|]. split; [apply (marked_lang _ _ _ _ pre_lang); eauto|].
    apply lang_empty_r. apply (marked_lang _ _ _ _ id_lang). eauto.
Qed.
