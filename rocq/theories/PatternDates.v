(** * The patterns for dates and times *)
From stdpp Require Import list.
From Verif Require Import RegexRun RegexProofs SpecPatterns RegexLang PatternNumbers.

(** Evaluates the codes of known characters. *)
Ltac codes :=
  repeat match goal with
  | H : context [code (Ascii ?a ?b ?c ?d ?e ?f ?g ?h)] |- _ =>
      let x := eval vm_compute in (code (Ascii a b c d e f g h)) in change (code (Ascii a b c d e f g h)) with x in H
  | |- context [code (Ascii ?a ?b ?c ?d ?e ?f ?g ?h)] =>
      let x := eval vm_compute in (code (Ascii a b c d e f g h)) in change (code (Ascii a b c d e f g h)) with x
  end.

Definition rng (a b : ascii) : re := RSet (CSet false [(a, b)]).
Lemma lang_two a b a' b' w : lang (RSeq (rng a b) (RSeq (rng a' b') REmpty)) w <->
  exists c d, w = [c; d] /\ code a <= code c <= code b /\ code a' <= code d <= code b'.
Proof.
  split.
  - intros H. unfold rng in H. unlang H. apply in_range_set in Hc, H. eauto.
  - intros (c & d & -> & Hc & Hd). apply lang_char. exists c, [d]. split; [auto|]. split; [apply in_range_set; auto|].
    apply lang_empty_r. exists d. split; [auto|]. apply in_range_set. auto.
Qed.
Lemma field_two lo hi w : field 2 lo hi w <->
  exists c d, w = [c; d] /\ 48 <= code c <= 57 /\ 48 <= code d <= 57 /\ lo <= 10 * (code c - 48) + (code d - 48) <= hi.
Proof.
  unfold field. split.
  - intros (Hd & Hl & Hn). destruct w as [|c [|d [|? w]]]; try discriminate Hl. apply Forall_cons in Hd as [Hc Hd].
    apply Forall_cons in Hd as [Hd _]. apply digit_code in Hc, Hd. exists c, d. split; [auto|]. split; [auto|]. split; [auto|].
    cbn [number fold_left] in Hn. lia.
  - intros (c & d & -> & Hc & Hd & Hn). split; [apply Forall_cons; split; [apply digit_code; auto|apply Forall_cons; split; [apply digit_code; auto|apply Forall_nil; auto]]|].
    split; [auto|]. cbn [number fold_left]. lia.
Qed.
Ltac two_alternatives :=
  intros w; rewrite field_two; repeat rewrite lang_alt; repeat rewrite lang_two; codes; split;
  [ intros H; repeat (destruct H as [H|H]); destruct H as (c & d & -> & Hc & Hd); exists c, d; (split; [auto|]); lia
  | intros (c & d & -> & Hc & Hd & Hn) ].

Definition re_month : re := RAlt (RSeq (rng "0" "0") (RSeq (rng "1" "9") REmpty)) (RSeq (rng "1" "1") (RSeq (rng "0" "2") REmpty)).
Definition re_day : re :=
  RAlt (RSeq (rng "0" "0") (RSeq (rng "1" "9") REmpty))
    (RAlt (RSeq (rng "1" "2") (RSeq (rng "0" "9") REmpty)) (RSeq (rng "3" "3") (RSeq (rng "0" "1") REmpty))).
Definition re_hour : re :=
  RAlt (RSeq (rng "0" "0") (RSeq (rng "0" "9") REmpty))
    (RAlt (RSeq (rng "1" "1") (RSeq (rng "0" "9") REmpty)) (RSeq (rng "2" "2") (RSeq (rng "0" "3") REmpty))).
Definition re_minute : re := RSeq (rng "0" "5") (RSeq (rng "0" "9") REmpty).
Ltac has_form := eexists _, _; split; [reflexivity|]; lia.
Lemma month_lang : forall w, lang re_month w <-> field 2 1 12 w.
Proof. unfold re_month. two_alternatives. destruct (Z.eq_dec (code c) 48); [left|right]; has_form. Qed.
Lemma day_lang : forall w, lang re_day w <-> field 2 1 31 w.
Proof.
  unfold re_day. two_alternatives. destruct (Z.eq_dec (code c) 48); [left; has_form|right].
  destruct (Z.eq_dec (code c) 51); [right|left]; has_form.
Qed.
Lemma hour_lang : forall w, lang re_hour w <-> field 2 0 23 w.
Proof.
  unfold re_hour. two_alternatives. destruct (Z.eq_dec (code c) 48); [left; has_form|right].
  destruct (Z.eq_dec (code c) 50); [right|left]; has_form.
Qed.
Lemma minute_lang : forall w, lang re_minute w <-> field 2 0 59 w.
Proof. unfold re_minute. two_alternatives. has_form. Qed.
Definition re_year : re := RRep 4 (Some 4%nat) (rng "0" "9").
Lemma year_lang w : lang re_year w <-> field 4 0 9999 w.
Proof.
  unfold re_year, rng, field. rewrite lang_chars, (made_chars _ digits) by (vm_compute; reflexivity). split.
  - intros [H Hk]. apply within_exact in Hk. split; [auto|]. split; [auto|]. apply number_bound in H. rewrite Hk in H.
    change (Z.of_nat 4) with 4 in H. lia.
  - intros (H & Hl & _). split; [auto|]. split; lia.
Qed.

Definition re_lit (c : ascii) : re := RSet (single c).
Lemma lang_lit c b w : lang (RSeq (re_lit c) b) w <-> exists v, w = c :: v /\ lang b v.
Proof.
  unfold re_lit. rewrite lang_char. split.
  - intros (d & v & -> & Hc & H). is_char Hc. eauto.
  - intros (v & -> & H). exists c, v. split; [auto|]. split; [apply in_one; auto|auto].
Qed.
Lemma date_lang s : satisfies RE_ISO_DATE s <-> line date s.
Proof.
  pattern_lang RE_ISO_DATE.
  change (lang (RSeq re_year (RSeq (re_lit "-") (RSeq re_month (RSeq (re_lit "-") (RSeq re_day REmpty))))) t <-> date t).
  unfold date. split.
  - intros H. apply lang_seq in H as (y & v & -> & Hy & H). apply lang_lit in H as (v' & -> & H).
    apply lang_seq in H as (m & v & -> & Hm & H). apply lang_lit in H as (d & -> & H). apply (proj1 (lang_empty_r _ _)) in H.
    exists y, m, d. split; [auto|]. split; [apply year_lang; auto|]. split; [apply month_lang; auto|apply day_lang; auto].
  - intros (y & m & d & -> & Hy & Hm & Hd). apply lang_seq. exists y, ("-"%char :: m ++ "-"%char :: d). split; [auto|].
    split; [apply year_lang; auto|]. apply lang_lit. eexists. split; [reflexivity|]. apply lang_seq. exists m, ("-"%char :: d).
    split; [auto|]. split; [apply month_lang; auto|]. apply lang_lit. eexists. split; [reflexivity|]. apply lang_empty_r, day_lang. auto.
Qed.
Lemma moment_lang s : satisfies RE_ISOTIME s <-> line moment s.
Proof.
  pattern_lang RE_ISOTIME.
  change (lang (RSeq re_year (RSeq (re_lit "-") (RSeq re_month (RSeq (re_lit "-") (RSeq re_day (RSeq (re_lit "T")
    (RSeq re_hour (RSeq (re_lit ":") (RSeq re_minute (RSeq (re_lit ":") (RSeq re_minute REmpty))))))))))) t <-> moment t).
  unfold moment. split.
  - intros H. apply lang_seq in H as (y & v & -> & Hy & H). apply lang_lit in H as (v' & -> & H).
    apply lang_seq in H as (m & v & -> & Hm & H). apply lang_lit in H as (v' & -> & H).
    apply lang_seq in H as (d & v & -> & Hd & H). apply lang_lit in H as (v' & -> & H).
    apply lang_seq in H as (h & v & -> & Hh & H). apply lang_lit in H as (v' & -> & H).
    apply lang_seq in H as (mi & v & -> & Hmi & H). apply lang_lit in H as (sec & -> & H). apply (proj1 (lang_empty_r _ _)) in H.
    exists (joined $"-" [y; m; d]), h, mi, sec. split; [cbn; rewrite <- !app_assoc; cbn; rewrite <- !app_assoc; reflexivity|].
    split; [exists y, m, d; split; [auto|]; split; [apply year_lang; auto|]; split; [apply month_lang; auto|apply day_lang; auto]|].
    split; [apply hour_lang; auto|]. split; apply minute_lang; auto.
  - intros (x & h & mi & sec & -> & (y & m & d & -> & Hy & Hm & Hd) & Hh & Hmi & Hs).
    apply lang_seq. exists y, ("-"%char :: m ++ "-"%char :: d ++ "T"%char :: h ++ ":"%char :: mi ++ ":"%char :: sec).
    split; [cbn; rewrite <- !app_assoc; cbn; rewrite <- !app_assoc; reflexivity|].
    split; [apply year_lang; auto|]. apply lang_lit. eexists. split; [reflexivity|].
    apply lang_seq. do 2 eexists. split; [reflexivity|]. split; [apply month_lang; auto|]. apply lang_lit. eexists. split; [reflexivity|].
    apply lang_seq. do 2 eexists. split; [reflexivity|]. split; [apply day_lang; auto|]. apply lang_lit. eexists. split; [reflexivity|].
    apply lang_seq. do 2 eexists. split; [reflexivity|]. split; [apply hour_lang; auto|]. apply lang_lit. eexists. split; [reflexivity|].
    apply lang_seq. do 2 eexists. split; [reflexivity|]. split; [apply minute_lang; auto|]. apply lang_lit. eexists. split; [reflexivity|].
    apply lang_empty_r, minute_lang. auto.
Qed.
