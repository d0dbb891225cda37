(** * The patterns for addresses, domains and URLs *)
From stdpp Require Import list.
From Verif Require Import RegexRun RegexProofs SpecPatterns RegexLang PatternNumbers PatternDates PatternNames.

(** ** Octets *)
Lemma octet_codes w : octet w <->
  (exists a, w = [a] /\ 48 <= code a <= 57) \/
  (exists a b, w = [a; b] /\ 48 <= code a <= 57 /\ 48 <= code b <= 57) \/
  (exists a b c, w = [a; b; c] /\ 48 <= code a <= 57 /\ 48 <= code b <= 57 /\ 48 <= code c <= 57 /\
     100 * (code a - 48) + 10 * (code b - 48) + (code c - 48) <= 255).
Proof.
  unfold octet, sized. split.
  - intros (Hd & Hl & Hn). destruct w as [|a [|b [|c [|? w]]]]; cbn [length] in Hl; try lia;
      repeat (apply Forall_cons in Hd as [?Hc Hd]); rewrite digit_code in *; cbn [number fold_left] in Hn.
    + left. eauto.
    + right; left. eauto.
    + right; right. exists a, b, c. split; [auto|]. split; [auto|]. split; [auto|]. split; [auto|]. lia.
  - intros [(a & -> & Ha)|[(a & b & -> & Ha & Hb)|(a & b & c & -> & Ha & Hb & Hc & Hn)]]; cbn [number fold_left length].
    + split; [repeat (apply Forall_cons; split; [apply digit_code; auto|]); apply Forall_nil; auto|]. split; lia.
    + split; [repeat (apply Forall_cons; split; [apply digit_code; auto|]); apply Forall_nil; auto|]. split; lia.
    + split; [repeat (apply Forall_cons; split; [apply digit_code; auto|]); apply Forall_nil; auto|]. split; lia.
Qed.
Definition re_octet : re :=
  RAlt (RSeq (rng "2" "2") (RSeq (rng "5" "5") (RSeq (rng "0" "5") REmpty)))
    (RAlt (RSeq (rng "2" "2") (RSeq (rng "0" "4") (RSeq (rng "0" "9") REmpty)))
      (RSeq (RRep 0 (Some 1%nat) (RSet (CSet false [("0"%char, "0"%char); ("1"%char, "1"%char)])))
        (RSeq (rng "0" "9") (RSeq (RRep 0 (Some 1%nat) (rng "0" "9")) REmpty)))).
Lemma lang_rng a b w : lang (rng a b) w <-> exists c, w = [c] /\ code a <= code c <= code b.
Proof. unfold rng. cbn [lang]. split; intros (c & -> & H); exists c; (split; [auto|]); apply in_range_set; auto. Qed.
Lemma lang_rng_seq a b r w : lang (RSeq (rng a b) r) w <-> exists c v, w = c :: v /\ code a <= code c <= code b /\ lang r v.
Proof. unfold rng. rewrite lang_char. split; intros (c & v & -> & H & Hr); exists c, v; (split; [auto|]); (split; [apply in_range_set; auto|auto]). Qed.
Lemma lang_three a b a' b' a'' b'' w : lang (RSeq (rng a b) (RSeq (rng a' b') (RSeq (rng a'' b'') REmpty))) w <->
  exists c d e, w = [c; d; e] /\ code a <= code c <= code b /\ code a' <= code d <= code b' /\ code a'' <= code e <= code b''.
Proof.
  rewrite lang_rng_seq. split.
  - intros (c & v & -> & Hc & H). apply lang_two in H as (d & e & -> & Hd & He). exists c, d, e. auto.
  - intros (c & d & e & -> & Hc & Hd & He). exists c, [d; e]. split; [auto|]. split; [auto|]. apply lang_two. eauto.
Qed.
Lemma zero_one c : in_set (CSet false [("0"%char, "0"%char); ("1"%char, "1"%char)]) c = true <-> 48 <= code c <= 49.
Proof.
  rewrite <- (in_range_set "0" "1" c : _ <-> 48 <= code c <= 49).
  rewrite (same_set_ok _ $"01") by (vm_compute; reflexivity). rewrite (same_set_ok (CSet false [("0"%char, "1"%char)]) $"01") by (vm_compute; reflexivity).
  reflexivity.
Qed.
Lemma octet_lang w : lang re_octet w <-> octet w.
Proof.
  rewrite octet_codes. unfold re_octet. rewrite !lang_alt, !lang_three. codes. split.
  - intros [(a & b & c & -> & H)|[(a & b & c & -> & H)|H]].
    + right; right. exists a, b, c. split; [auto|]. lia.
    + right; right. exists a, b, c. split; [auto|]. lia.
    + apply lang_seq in H as (u & v & -> & Hu & H). apply lang_option in Hu. apply lang_rng_seq in H as (b & v' & -> & Hb & H).
      apply (proj1 (lang_empty_r _ _)), lang_option in H. rewrite lang_rng in H. codes.
      destruct Hu as [->|(a & -> & Ha)]; [|apply zero_one in Ha]; (destruct H as [->|(c & -> & Hc)]).
      * left. exists b. split; [auto|]. lia.
      * right; left. exists b, c. split; [auto|]. lia.
      * right; left. exists a, b. split; [auto|]. lia.
      * right; right. exists a, b, c. split; [auto|]. lia.
  - intros [(a & -> & Ha)|[(a & b & -> & Ha & Hb)|(a & b & c & -> & Ha & Hb & Hc & Hn)]].
    + right; right. apply lang_seq. exists [], [a]. split; [auto|]. split; [apply lang_option; auto|].
      apply lang_rng_seq. exists a, []. split; [auto|]. split; [codes; lia|]. apply lang_empty_r, lang_option. auto.
    + right; right. apply lang_seq. exists [], [a; b]. split; [auto|]. split; [apply lang_option; auto|].
      apply lang_rng_seq. exists a, [b]. split; [auto|]. split; [codes; lia|]. apply lang_empty_r, lang_option. right. apply lang_rng. exists b. codes. auto.
    + destruct (Z_le_gt_dec (code a) 49) as [Hle|Hgt].
      * right; right. apply lang_seq. exists [a], [b; c]. split; [auto|]. split; [apply lang_option; right; exists a; split; [auto|]; apply zero_one; lia|].
        apply lang_rng_seq. exists b, [c]. split; [auto|]. split; [codes; lia|]. apply lang_empty_r, lang_option. right. apply lang_rng. exists c. codes. auto.
      * destruct (Z_le_gt_dec (code b) 52) as [Hle'|Hgt']; [right; left|left]; exists a, b, c; (split; [auto|]); lia.
Qed.
Definition re_octet6 : re :=
  RAlt (RSeq (rng "2" "2") (RSeq (rng "5" "5") (RSeq (rng "0" "5") REmpty)))
    (RSeq (RRep 0 (Some 1%nat) (RAlt (RSeq (rng "2" "2") (RSeq (rng "0" "4") REmpty)) (RSeq (RRep 0 (Some 1%nat) (rng "1" "1")) (RSeq (rng "0" "9") REmpty))))
      (RSeq (rng "0" "9") REmpty)).
Lemma octet6_lang w : lang re_octet6 w <-> octet6 w.
Proof.
  unfold octet6. rewrite octet_codes. unfold re_octet6. rewrite lang_alt, lang_three. codes. split.
  - intros [(a & b & c & -> & H)|H].
    + split; [right; right; exists a, b, c; split; [auto|]; lia|]. intros _ [= ->]. codes. lia.
    + apply lang_seq in H as (u & v & -> & Hu & H). apply (proj1 (lang_empty_r _ _)), lang_rng in H as (c & -> & Hc). codes.
      apply lang_option in Hu as [->|Hu].
      * split; [left; exists c; split; [auto|]; lia|]. discriminate.
      * apply lang_alt in Hu as [Hu|Hu].
        -- apply lang_two in Hu as (a & b & -> & Ha & Hb). codes. split; [right; right; exists a, b, c; split; [auto|]; lia|].
           intros _ [= ->]. codes. lia.
        -- apply lang_seq in Hu as (x & y & -> & Hx & Hy). apply (proj1 (lang_empty_r _ _)), lang_rng in Hy as (b & -> & Hb). codes.
           apply lang_option in Hx as [->|Hx].
           ++ split; [right; left; exists b, c; split; [auto|]; lia|]. discriminate.
           ++ apply lang_rng in Hx as (a & -> & Ha). codes. split; [right; right; exists a, b, c; split; [auto|]; lia|].
              intros _ [= ->]. codes. lia.
  - intros [H Hz].
    assert (Hlast : forall c u, 48 <= code c <= 57 -> lang (RRep 0 (Some 1%nat) (RAlt (RSeq (rng "2" "2") (RSeq (rng "0" "4") REmpty)) (RSeq (RRep 0 (Some 1%nat) (rng "1" "1")) (RSeq (rng "0" "9") REmpty)))) u ->
      lang (RSeq (RRep 0 (Some 1%nat) (RAlt (RSeq (rng "2" "2") (RSeq (rng "0" "4") REmpty)) (RSeq (RRep 0 (Some 1%nat) (rng "1" "1")) (RSeq (rng "0" "9") REmpty)))) (RSeq (rng "0" "9") REmpty)) (u ++ [c])).
    { intros c u Hc Hu. apply lang_seq. exists u, [c]. split; [auto|]. split; [auto|]. apply lang_empty_r, lang_rng. exists c. codes. auto. }
    destruct H as [(a & -> & Ha)|[(a & b & -> & Ha & Hb)|(a & b & c & -> & Ha & Hb & Hc & Hn)]].
    + right. apply (Hlast a []); [auto|]. apply lang_option. auto.
    + right. apply (Hlast b [a]); [auto|]. apply lang_option. right. apply lang_alt. right. apply lang_seq. exists [], [a]. split; [auto|].
      split; [apply lang_option; auto|]. apply lang_empty_r, lang_rng. exists a. codes. auto.
    + assert (Hne : code a <> 48). { intros E. apply Hz; [auto|]. cbn. f_equal. apply code_inj. auto. }
      destruct (Z.eq_dec (code a) 49) as [E|E].
      * right. apply (Hlast c [a; b]); [auto|]. apply lang_option. right. apply lang_alt. right. apply lang_seq. exists [a], [b]. split; [auto|].
        split; [apply lang_option; right; apply lang_rng; exists a; codes; split; [auto|lia]|]. apply lang_empty_r, lang_rng. exists b. codes. auto.
      * destruct (Z_le_gt_dec (code b) 52) as [Hle'|Hgt'].
        -- right. apply (Hlast c [a; b]); [auto|]. apply lang_option. right. apply lang_alt. left. apply lang_two. exists a, b. codes. split; [auto|]. lia.
        -- left. exists a, b, c. split; [auto|]. lia.
Qed.
Ltac apps := cbn; repeat (rewrite <- !app_assoc; cbn); rewrite ?app_nil_r; reflexivity.
(** four of them *)
Lemma four_lang (o : re) (P : cstr -> Prop) w : (forall t, lang o t <-> P t) ->
  lang (RSeq (RRep 3 (Some 3%nat) (RSeq o (RSeq (re_lit ".") REmpty))) (RSeq o REmpty)) w <->
  exists a b c d, w = joined $"." [a; b; c; d] /\ P a /\ P b /\ P c /\ P d.
Proof.
  intros Ho. rewrite lang_seq. split.
  - intros (u & d & -> & Hu & Hd). apply (proj1 (lang_empty_r _ _)) in Hd. apply lang_rep in Hu as (k & Hk & Hu).
    apply within_exact in Hk as ->. apply ltimes_suffixed in Hu as (l & Hl & Hf & ->).
    destruct l as [|a [|b [|c [|? l]]]]; try discriminate Hl. exists a, b, c, d.
    apply Forall_cons in Hf as [Ha Hf]. apply Forall_cons in Hf as [Hb Hf]. apply Forall_cons in Hf as [Hc _].
    split; [apps|]. rewrite <- !Ho. auto.
  - intros (a & b & c & d & -> & Ha & Hb & Hc & Hd). exists (concat (map (fun x => x ++ ["."%char]) [a; b; c])), d.
    split; [apps|]. rewrite <- !Ho in *. split; [|apply lang_empty_r; auto].
    apply lang_rep. exists 3%nat. split; [split; lia|]. apply ltimes_suffixed. exists [a; b; c].
    split; [auto|]. split; [|auto]. apply Forall_cons; split; [auto|]. apply Forall_cons; split; [auto|]. apply Forall_cons; split; [auto|]. apply Forall_nil; auto.
Qed.
Lemma ipv4_lang s : satisfies RE_IPV4 s <-> exists t rest, s = t ++ rest /\ ipv4 t.
Proof.
  rewrite (satisfies_found _ (RSeq RStart (RSeq (RRep 3 (Some 3%nat) (RSeq re_octet (RSeq (re_lit ".") REmpty))) (RSeq re_octet REmpty))))
    by (vm_compute; reflexivity).
  rewrite found_start. unfold ipv4. split; intros (w & post & -> & H); exists w, post; (split; [auto|]).
  - rewrite plain_lang in H by reflexivity. apply (four_lang re_octet octet); [apply octet_lang|auto].
  - rewrite plain_lang by reflexivity. apply (four_lang re_octet octet); [apply octet_lang|auto].
Qed.

(** ** Groups *)
Definition hex_set : cset := CSet false [("0"%char, "9"%char); ("a"%char, "f"%char); ("A"%char, "F"%char)].
Definition re_group : re := RRep 1 (Some 4%nat) (RSet hex_set).
Lemma group_lang w : lang re_group w <-> group w.
Proof. unfold re_group, group, sized. rewrite (lang_rep_set _ hexes), within_some by (vm_compute; reflexivity). reflexivity. Qed.
Definition re_left (hi : nat) : re := RRep 1 (Some hi) (RSeq re_group (RSeq (re_lit ":") REmpty)).
Definition re_right (hi : nat) : re := RRep 1 (Some hi) (RSeq (re_lit ":") (RSeq re_group REmpty)).
Definition lefts (l : list cstr) : cstr := concat (map (fun x => x ++ [":"%char]) l).
Definition rights (l : list cstr) : cstr := concat (map (app [":"%char]) l).
Lemma groups l : Forall (lang re_group) l <-> Forall group l.
Proof. split; intros H; (eapply Forall_impl; [exact H|]); intros x; apply group_lang. Qed.
Lemma left_lang hi w : lang (re_left hi) w <-> exists l, (1 <= length l <= hi)%nat /\ Forall group l /\ w = lefts l.
Proof.
  unfold re_left. rewrite lang_rep. split.
  - intros (k & Hk & H). apply ltimes_suffixed in H as (l & <- & Hl & ->). rewrite within_some in Hk. exists l. rewrite <- groups. auto.
  - intros (l & Hk & Hl & ->). exists (length l). split; [apply within_some; auto|]. apply ltimes_suffixed. exists l. rewrite groups. auto.
Qed.
Lemma right_lang hi w : lang (re_right hi) w <-> exists l, (1 <= length l <= hi)%nat /\ Forall group l /\ w = rights l.
Proof.
  unfold re_right. rewrite lang_rep. split.
  - intros (k & Hk & H). apply ltimes_prefixed in H as (l & <- & Hl & ->). rewrite within_some in Hk. exists l. rewrite <- groups. auto.
  - intros (l & Hk & Hl & ->). exists (length l). split; [apply within_some; auto|]. apply ltimes_prefixed. exists l. rewrite groups. auto.
Qed.
Lemma lefts_joined l : l <> [] -> lefts l = joined $":" l ++ $":".
Proof.
  induction l as [|x l IH]; intros H; [congruence|]. unfold lefts in *. cbn [map concat]. destruct l as [|y l].
  - cbn. rewrite app_nil_r. auto.
  - rewrite IH by discriminate. change (joined $":" (x :: y :: l)) with (x ++ $":" ++ joined $":" (y :: l)).
    rewrite <- !app_assoc. reflexivity.
Qed.
Lemma rights_joined l : l <> [] -> rights l = $":" ++ joined $":" l.
Proof. destruct l as [|x l]; intros H; [congruence|]. rewrite joined_cons. reflexivity. Qed.
Lemma not_nil_1 {A} (l : list A) : (1 <= length l)%nat -> l <> [].
Proof. destruct l; cbn; [lia|discriminate]. Qed.
Lemma split_lang i j w : lang (RSeq (re_left i) (RSeq (re_right j) REmpty)) w <->
  exists l r, (1 <= length l <= i)%nat /\ (1 <= length r <= j)%nat /\ Forall group l /\ Forall group r /\ w = joined $":" l ++ $"::" ++ joined $":" r.
Proof.
  rewrite lang_seq. split.
  - intros (u & v & -> & Hu & Hv). apply (proj1 (lang_empty_r _ _)), right_lang in Hv as (r & Hr & Fr & ->). apply left_lang in Hu as (l & Hl & Fl & ->).
    exists l, r. rewrite lefts_joined, rights_joined by (apply not_nil_1; lia). rewrite <- !app_assoc. auto.
  - intros (l & r & Hl & Hr & Fl & Fr & ->). exists (lefts l), (rights r). rewrite lefts_joined, rights_joined by (apply not_nil_1; lia).
    split; [rewrite <- !app_assoc; auto|]. rewrite <- lefts_joined, <- rights_joined by (apply not_nil_1; lia).
    split; [apply left_lang; eauto|]. apply lang_empty_r, right_lang. eauto.
Qed.

Definition re_eight : re := RSeq (RRep 7 (Some 7%nat) (RSeq re_group (RSeq (re_lit ":") REmpty))) (RSeq re_group REmpty).
Lemma eight_lang w : lang re_eight w <-> exists gs, length gs = 8%nat /\ Forall group gs /\ w = joined $":" gs.
Proof.
  unfold re_eight. rewrite lang_seq. split.
  - intros (u & g & -> & Hu & Hg). apply (proj1 (lang_empty_r _ _)), group_lang in Hg. apply lang_rep in Hu as (k & Hk & Hu).
    apply within_exact in Hk as ->. apply ltimes_suffixed in Hu as (l & Hl & Fl & ->). apply groups in Fl.
    exists (l ++ [g]). split; [rewrite app_length, Hl; auto|]. split; [apply Forall_app; split; [auto|apply Forall_cons; auto]|].
    fold (lefts l). clear. induction l as [|x l IH]; [auto|]. cbn [app]. change (lefts (x :: l)) with ((x ++ [":"%char]) ++ lefts l).
    rewrite <- app_assoc, IH. destruct (l ++ [g]) eqn:E; [destruct l; discriminate|]. rewrite <- app_assoc. reflexivity.
  - intros (gs & Hl & Fg & ->). destruct gs as [|g l _] using rev_ind; [discriminate|]. rewrite app_length in Hl. cbn in Hl.
    apply Forall_app in Fg as [Fl Fg]. apply Forall_cons in Fg as [Fg _]. exists (lefts l), g. split.
    + clear. induction l as [|x l IH]; [auto|]. cbn [app]. change (lefts (x :: l)) with ((x ++ [":"%char]) ++ lefts l).
      rewrite <- app_assoc, <- IH. destruct (l ++ [g]) eqn:E; [destruct l; discriminate|]. rewrite <- app_assoc. reflexivity.
    + split; [|apply lang_empty_r, group_lang; auto]. apply lang_rep. exists 7%nat. split; [split; lia|]. apply ltimes_suffixed.
      exists l. rewrite groups. split; [lia|]. auto.
Qed.

Definition re_zone : re :=
  RSeq (re_lit "f") (RSeq (re_lit "e") (RSeq (re_lit "8") (RSeq (re_lit "0") (RSeq (re_lit ":")
    (RSeq (RRep 0 (Some 4%nat) (RSeq (re_lit ":") (RSeq (RRep 0 (Some 4%nat) (RSet hex_set)) REmpty)))
      (RSeq (re_lit "%") (RSeq (RRep 1 None (RSet (CSet false [("0"%char, "9"%char); ("a"%char, "z"%char); ("A"%char, "Z"%char)]))) REmpty))))))).
Lemma zone_lang w : lang re_zone w <-> zoned w.
Proof.
  unfold re_zone, zoned, sized. split.
  - intros H. do 5 (apply lang_lit in H as (? & -> & H)). apply lang_seq in H as (u & v & -> & Hu & H). apply lang_lit in H as (z & -> & H).
    apply (proj1 (lang_empty_r _ _)) in H. rep_set H (letters ++ digits). apply lang_rep in Hu as (k & Hk & Hu).
    apply ltimes_prefixed in Hu as (gs & <- & Hg & ->). rewrite within_some in Hk. rewrite within_more in H. exists gs, z. rewrite not_nil.
    split; [reflexivity|]. split; [lia|]. split; [|tauto]. eapply Forall_impl; [exact Hg|]. intros g Hx. rep_set Hx hexes.
    rewrite within_some in Hx. auto.
  - intros (gs & z & -> & Hk & Hg & Hz & Nz). rewrite not_nil in Nz. do 5 (apply lang_lit; eexists; split; [reflexivity|]).
    apply lang_seq. do 2 eexists. split; [reflexivity|]. split.
    + apply lang_rep. exists (length gs). split; [apply within_some; lia|]. apply ltimes_prefixed. exists gs. split; [auto|]. split; [|auto].
      eapply Forall_impl; [exact Hg|]. intros g Hx. as_set hexes. rewrite within_some. auto.
    + apply lang_lit. eexists. split; [reflexivity|]. apply lang_empty_r. as_set (letters ++ digits). rewrite within_more. auto.
Qed.

Definition re_mapped : re :=
  RSeq (re_lit "f") (RSeq (re_lit "f") (RSeq (re_lit "f") (RSeq (re_lit "f")
    (RSeq (RRep 0 (Some 1%nat) (RSeq (re_lit ":") (RSeq (RRep 1 (Some 4%nat) (rng "0" "0")) REmpty))) (RSeq (re_lit ":") REmpty))))).
Definition re_four6 : re := RSeq (RRep 3 (Some 3%nat) (RSeq re_octet6 (RSeq (re_lit ".") REmpty))) (RSeq re_octet6 REmpty).
Definition re_emb1 : re := RSeq (re_lit ":") (RSeq (re_lit ":") (RSeq (RRep 0 (Some 1%nat) re_mapped) re_four6)).
Definition re_emb2 : re := RSeq (re_left 4) (RSeq (re_lit ":") re_four6).
Lemma mapped_lang w : lang re_mapped w <-> w = $"ffff:" \/ exists z, w = $"ffff:" ++ z ++ $":" /\ made_of $"0" z /\ sized 1 4 z.
Proof.
  unfold re_mapped, sized. split.
  - intros H. do 4 (apply lang_lit in H as (? & -> & H)). apply lang_seq in H as (u & v & -> & Hu & H). apply lang_lit in H as (e & -> & H).
    cbn in H. subst e. apply lang_option in Hu as [->|Hu]; [auto|]. right. apply lang_lit in Hu as (z & -> & Hz).
    apply (proj1 (lang_empty_r _ _)) in Hz. unfold rng in Hz. rep_set Hz $"0". rewrite within_some in Hz. exists z. auto.
  - intros H. assert (Hg : exists u, w = $"ffff" ++ u ++ $":" /\ (u = [] \/ exists z, u = ":"%char :: z /\ made_of $"0" z /\ (1 <= length z <= 4)%nat)).
    { destruct H as [->|(z & -> & Hz & Nz)]; [exists []; auto|]. exists (":"%char :: z). split; [reflexivity|]. right. exists z. auto. }
    destruct Hg as (u & -> & Hu). do 4 (apply lang_lit; eexists; split; [reflexivity|]). apply lang_seq. do 2 eexists. split; [reflexivity|]. split.
    + apply lang_option. destruct Hu as [->|(z & -> & Hz & Nz)]; [auto|]. right. apply lang_lit. eexists. split; [reflexivity|].
      apply lang_empty_r. unfold rng. as_set $"0". rewrite within_some. auto.
    + apply lang_lit. exists []. split; [auto|]. cbn. auto.
Qed.
Lemma four6_lang w : lang re_four6 w <-> exists a b c d, w = joined $"." [a; b; c; d] /\ octet6 a /\ octet6 b /\ octet6 c /\ octet6 d.
Proof. apply four_lang, octet6_lang. Qed.
Lemma embedded_lang w : lang re_emb1 w \/ lang re_emb2 w <-> embedded w.
Proof.
  unfold re_emb1, re_emb2, embedded, embedding. split.
  - intros [H|H].
    + apply lang_lit in H as (v & -> & H). apply lang_lit in H as (v' & -> & H). apply lang_seq in H as (p & q & -> & Hp & H).
      apply four6_lang in H as (a & b & c & d & -> & H). exists ($"::" ++ p), a, b, c, d. split; [reflexivity|]. split; [|auto].
      apply lang_option in Hp as [->|Hp]; [auto|]. apply mapped_lang in Hp as [->|(z & -> & Hz & Nz)]; [auto|]. right; right; left. exists z. auto.
    + apply lang_seq in H as (p & q & -> & Hp & H). apply lang_lit in H as (v & -> & H). apply four6_lang in H as (a & b & c & d & -> & H).
      apply left_lang in Hp as (l & Hl & Fl & ->). exists (lefts l ++ $":"), a, b, c, d. rewrite <- app_assoc. split; [reflexivity|]. split; [|auto].
      right; right; right. exists l. rewrite lefts_joined by (apply not_nil_1; lia). rewrite <- app_assoc. auto.
  - intros (p & a & b & c & d & -> & Hp & Ha & Hb & Hc & Hd).
    assert (H4 : lang re_four6 (joined $"." [a; b; c; d])) by (apply four6_lang; eauto 10).
    destruct Hp as [->|[->|[(z & -> & Hz & Nz)|(gs & -> & Hk & Fg)]]].
    + left. do 2 (apply lang_lit; eexists; split; [reflexivity|]). apply lang_seq. exists [], (joined $"." [a; b; c; d]).
      split; [auto|]. split; [apply lang_option; auto|auto].
    + left. do 2 (apply lang_lit; eexists; split; [reflexivity|]). apply lang_seq. exists $"ffff:", (joined $"." [a; b; c; d]).
      split; [auto|]. split; [apply lang_option; right; apply mapped_lang; auto|auto].
    + left. do 2 (apply lang_lit; eexists; split; [reflexivity|]). apply lang_seq. exists ($"ffff:" ++ z ++ $":"), (joined $"." [a; b; c; d]).
      split; [reflexivity|]. split; [apply lang_option; right; apply mapped_lang; right; exists z; auto|auto].
    + right. apply lang_seq. exists (lefts gs), ($":" ++ joined $"." [a; b; c; d]). split.
      * rewrite lefts_joined by (apply not_nil_1; lia). rewrite <- !app_assoc. reflexivity.
      * split; [apply left_lang; eauto|]. apply lang_lit. eexists. split; [reflexivity|auto].
Qed.

Definition re_ipv6 : re :=
  RAlt re_eight
  (RAlt (RSeq (re_left 7) (RSeq (re_lit ":") REmpty))
  (RAlt (RSeq (re_left 6) (RSeq (re_lit ":") (RSeq re_group REmpty)))
  (RAlt (RSeq (re_left 5) (RSeq (re_right 2) REmpty))
  (RAlt (RSeq (re_left 4) (RSeq (re_right 3) REmpty))
  (RAlt (RSeq (re_left 3) (RSeq (re_right 4) REmpty))
  (RAlt (RSeq (re_left 2) (RSeq (re_right 5) REmpty))
  (RAlt (RSeq re_group (RSeq (re_lit ":") (RSeq (RSeq (re_right 6) REmpty) REmpty)))
  (RAlt (RSeq (re_lit ":") (RSeq (RAlt (RSeq (re_right 7) REmpty) (RSeq (re_lit ":") REmpty)) REmpty))
  (RAlt re_zone (RAlt re_emb1 re_emb2)))))))))).
Lemma ipv6_lang s : satisfies RE_IPV6 s <-> line (fun t => ipv6 t \/ zoned t \/ embedded t) s.
Proof.
  pattern_lang RE_IPV6. change (lang (RSeq re_ipv6 REmpty) t <-> ipv6 t \/ zoned t \/ embedded t).
  rewrite lang_empty_r. unfold re_ipv6. rewrite !lang_alt, zone_lang, embedded_lang, !split_lang, eight_lang. unfold ipv6. split.
  - intros [H|[H|[H|[H|[H|[H|[H|[H|[H|[H|H]]]]]]]]]]; [auto| | | | | | | | |auto|auto]; left; right.
    + apply lang_seq in H as (u & v & -> & Hu & Hv). apply lang_lit in Hv as (v' & -> & Hv). cbn in Hv. subst v'.
      apply left_lang in Hu as (l & Hl & Fl & ->). exists l, []. rewrite lefts_joined by (apply not_nil_1; lia).
      split; [cbn; lia|]. split; [auto|]. split; [apply Forall_nil; auto|]. rewrite <- !app_assoc. auto.
    + apply lang_seq in H as (u & v & -> & Hu & Hv). apply lang_lit in Hv as (v' & -> & Hv). apply (proj1 (lang_empty_r _ _)), group_lang in Hv.
      apply left_lang in Hu as (l & Hl & Fl & ->). exists l, [v']. rewrite lefts_joined by (apply not_nil_1; lia).
      split; [cbn; lia|]. split; [auto|]. split; [apply Forall_cons; auto|]. rewrite <- !app_assoc. auto.
    + destruct H as (l & r & Hl & Hr & Fl & Fr & ->). exists l, r. split; [lia|]. auto.
    + destruct H as (l & r & Hl & Hr & Fl & Fr & ->). exists l, r. split; [lia|]. auto.
    + destruct H as (l & r & Hl & Hr & Fl & Fr & ->). exists l, r. split; [lia|]. auto.
    + destruct H as (l & r & Hl & Hr & Fl & Fr & ->). exists l, r. split; [lia|]. auto.
    + apply lang_seq in H as (g & v & -> & Hg & Hv). apply lang_lit in Hv as (v' & -> & Hv).
      apply (proj1 (lang_empty_r _ _)), (proj1 (lang_empty_r _ _)), right_lang in Hv as (r & Hr & Fr & ->). apply group_lang in Hg.
      exists [g], r. rewrite rights_joined by (apply not_nil_1; lia). split; [cbn; lia|]. split; [apply Forall_cons; auto|]. auto.
    + apply lang_lit in H as (v & -> & H). apply (proj1 (lang_empty_r _ _)) in H. apply lang_alt in H as [H|H].
      * apply (proj1 (lang_empty_r _ _)), right_lang in H as (r & Hr & Fr & ->). exists [], r. rewrite rights_joined by (apply not_nil_1; lia).
        split; [cbn; lia|]. split; [apply Forall_nil; auto|]. auto.
      * apply lang_lit in H as (v' & -> & H). cbn in H. subst v'. exists [], []. split; [cbn; lia|]. split; [apply Forall_nil; auto|]. auto.
  - intros [[H|(l & r & Hk & Fl & Fr & ->)]|[H|H]]; [auto| |auto 15|auto 15].
    destruct l as [|g l']; [|remember (g :: l') as l eqn:El; assert (Hl : (1 <= length l)%nat) by (subst l; cbn; lia)].
    + do 8 right. left. apply lang_lit. eexists. split; [reflexivity|]. apply lang_empty_r, lang_alt.
      destruct r as [|h r'].
      * right. apply lang_lit. exists []. split; [auto|]. cbn. auto.
      * left. apply lang_empty_r, right_lang. exists (h :: r'). rewrite rights_joined by discriminate. split; [cbn in *; lia|]. auto.
    + destruct r as [|h r'].
      * right; left. apply lang_seq. exists (lefts l), $":". rewrite lefts_joined by (apply not_nil_1; lia). cbn [joined]. split; [rewrite <- !app_assoc, app_nil_r; auto|].
        rewrite <- lefts_joined by (apply not_nil_1; lia). split; [apply left_lang; exists l; split; [cbn in Hk; lia|auto]|].
        apply lang_lit. exists []. split; [auto|]. cbn. auto.
      * assert (Hj : length (h :: r') = 1%nat \/ length (h :: r') = 2%nat \/ length (h :: r') = 3%nat \/ length (h :: r') = 4%nat \/ length (h :: r') = 5%nat \/ length (h :: r') = 6%nat)
          by (cbn in *; lia).
        remember (h :: r') as r eqn:Er. assert (Hr : (1 <= length r)%nat) by (subst r; cbn; lia).
        destruct Hj as [Hj|[Hj|[Hj|[Hj|[Hj|Hj]]]]].
        -- do 2 right; left. apply lang_seq. exists (lefts l), ($":" ++ joined $":" r). rewrite lefts_joined by (apply not_nil_1; lia).
           split; [rewrite <- !app_assoc; auto|]. rewrite <- lefts_joined by (apply not_nil_1; lia).
           split; [apply left_lang; exists l; split; [lia|auto]|]. apply lang_lit. eexists. split; [reflexivity|].
           apply lang_empty_r, group_lang. subst r. destruct r'; [|discriminate]. apply Forall_cons in Fr as [Fr _]. auto.
        -- do 3 right; left. exists l, r. split; [lia|]. split; [lia|]. auto.
        -- do 4 right; left. exists l, r. split; [lia|]. split; [lia|]. auto.
        -- do 5 right; left. exists l, r. split; [lia|]. split; [lia|]. auto.
        -- do 6 right; left. exists l, r. split; [lia|]. split; [lia|]. auto.
        -- do 7 right; left. assert (l' = []) as -> by (destruct l'; [auto|subst l; cbn in *; lia]). subst l. cbn [joined].
           apply lang_seq. exists g, ($":" ++ rights r). rewrite rights_joined by (apply not_nil_1; lia). split; [auto|].
           rewrite <- rights_joined by (apply not_nil_1; lia).
           split; [apply group_lang; apply Forall_cons in Fl as [Fl _]; auto|]. apply lang_lit. eexists. split; [reflexivity|].
           apply lang_empty_r, lang_empty_r, right_lang. exists r. split; [lia|]. auto.
Qed.
