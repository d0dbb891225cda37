(** * Patterns as validators *)
From stdpp Require Import list.
From Verif Require Import RegexRun RegexProofs SpecPatterns RegexLang PatternNumbers PatternDates PatternNames PatternNet PatternText.
From Verif Require Import Parse Macros SpecGrammar PropsAfter SpecAfter AfterProofs ExAfter .

(** The predefined patterns with what they accept. *)
Definition meanings : list (cstr * (cstr -> Prop)) :=
  [(RE_IPV4, fun s => exists t rest, s = t ++ rest /\ ipv4 t);
   (RE_IPV6, line (fun t => ipv6 t \/ zoned t \/ embedded t));
   (RE_DOMAIN, line domain); (RE_URL, line url); (RE_HTTP, line http_url); (RE_PORT, line port);
   (RE_EMAIL, line email); (RE_EMAIL_STRICT, line strict_email);
   (RE_ISO_DATE, line date); (RE_ISOTIME, line moment);
   (RE_USER, line user_name); (RE_PASSWD, line password); (RE_UUID, line uuid4);
   (RE_UNIX_PATH, unix_path); (RE_FILENAME, line file_name); (RE_SEMVER, line semver);
   (RE_POS_INT, line positive_integer); (RE_NEG_INT, line negative_integer);
   (RE_FLOAT, line decimal); (RE_HEX, line hex_number)].
Lemma meanings_exact : Forall (fun e => forall s, satisfies (fst e) s <-> snd e s) meanings.
Proof.
  repeat (apply Forall_cons; split; [cbn [fst snd]|]).
  - apply ipv4_lang.
  - apply ipv6_lang.
  - apply domain_lang.
  - apply url_lang.
  - apply http_lang.
  - apply port_lang.
  - apply email_lang.
  - apply strict_email_lang.
  - apply date_lang.
  - apply moment_lang.
  - apply user_lang.
  - apply password_lang.
  - apply uuid_lang.
  - apply path_lang.
  - apply filename_lang.
  - apply semver_lang.
  - apply pos_int_lang.
  - apply neg_int_lang.
  - apply float_lang.
  - apply hex_lang.
  - by apply Forall_nil.
Qed.
Lemma meaning_exact p P s : (p, P) ∈ meanings -> satisfies p s <-> P s.
Proof. intros H. pose proof meanings_exact as Hm. rewrite Forall_forall in Hm. exact (Hm _ H s). Qed.

Lemma pcre2_satisfies (L : Libc) p s : pcre2 L -> is_Some (compile p) ->
  (satisfies p s -> regex_match p s = RxMatch) /\ (~ satisfies p s -> regex_match p s = RxNoMatch).
Proof.
  intros HL [r Hr]. destruct (HL p r s Hr) as [H1 H2].
  split; intros H.
  - apply H1. apply (satisfies_found p r s Hr). auto.
  - apply H2. intros Hx. apply H. apply (satisfies_found p r s Hr). auto.
Qed.
Lemma satisfies_dec p s : satisfies p s \/ ~ satisfies p s.
Proof. rewrite satisfies_run. destruct (run p s); auto; right; discriminate. Qed.
Lemma matched_satisfies (L : Libc) p s : pcre2 L -> is_Some (compile p) -> regex_match p s = RxMatch -> satisfies p s.
Proof.
  intros HL Hc Hm. destruct (satisfies_dec p s) as [H|H]; [auto|]. destruct (pcre2_satisfies L p s HL Hc) as [_ H2].
  rewrite H2 in Hm by auto. discriminate.
Qed.
Lemma meanings_compile p P : (p, P) ∈ meanings -> is_Some (compile p).
Proof.
  intros H. assert (Hf : Forall (fun e => (match compile (fst e) with Some _ => true | None => false end) = true) meanings).
  { repeat (apply Forall_cons; split; [vm_compute; reflexivity|]). by apply Forall_nil. }
  rewrite Forall_forall in Hf. specialize (Hf _ H). cbn in Hf. destruct (compile p); [eauto|discriminate].
Qed.

(** The validator decides the pattern. *)
Lemma validator_decides (L : Libc) p hint s : pcre2 L -> regex_enabled = true -> is_Some (compile p) ->
  (satisfies p s -> regex_validator (Some p) hint (Some s) = Ok (SUCCESS, [])) /\
  (~ satisfies p s -> exists m, regex_validator (Some p) hint (Some s) = Ok (E_INVALID_VALUE, [EDiag E_INVALID_VALUE m])).
Proof.
  intros HL He Hc. destruct (pcre2_satisfies L p s HL Hc) as [H1 H2].
  split; intros H; unfold regex_validator; rewrite He; cbn; [rewrite H1|rewrite H2]; eauto.
Qed.

(** Texts taken by an accepted command line. *)
Lemma taken_satisfies (L : Libc) a argv a' its t i v T d p h : pcre2 L -> is_Some (compile p) ->
  fresh a -> argus_parse a argv = Ok (Returned 0, a') -> assigned a argv its ->
  Call t i v ∈ its -> decls a !! t = Some T -> T !! i = Some d -> V_REGEX (Some p) h ∈ validators d ->
  exists s, v = Some s /\ satisfies p s.
Proof.
  intros HL Hc Hf Hp Ha Hi Ht Hd Hv.
  pose proof (C24_pre_validators a argv a' its t i v T d _ Hf Hp Ha Hi Ht Hd Hv eq_refl) as H.
  cbn in H. destruct H as (_ & q & s & [= <-] & -> & Hm). exists s. split; [auto|]. eapply matched_satisfies; eauto.
Qed.
Lemma taken_meaning (L : Libc) a argv a' its t i v T d p P h : pcre2 L -> (p, P) ∈ meanings ->
  fresh a -> argus_parse a argv = Ok (Returned 0, a') -> assigned a argv its ->
  Call t i v ∈ its -> decls a !! t = Some T -> T !! i = Some d -> V_REGEX (Some p) h ∈ validators d ->
  exists s, v = Some s /\ P s.
Proof.
  intros HL Hm Hf Hp Ha Hi Ht Hd Hv.
  destruct (taken_satisfies L a argv a' its t i v T d p h HL (meanings_compile _ _ Hm) Hf Hp Ha Hi Ht Hd Hv) as (s & -> & Hs).
  exists s. split; [auto|]. apply (meaning_exact p P s Hm). auto.
Qed.

(** The stub. *)
Lemma stub_satisfied s : satisfies [] s.
Proof. apply satisfies_run. unfold run. cbn [compile read_alt]. unfold findb. reflexivity. Qed.

(** A library that behaves as documented. *)
Lemma run_pcre2 p r s : compile p = Some r -> (found r s -> run p s = RxMatch) /\ (~ found r s -> run p s = RxNoMatch).
Proof.
  intros Hc. unfold run. rewrite Hc. split; intros H.
  - apply findb_ok in H. rewrite H. auto.
  - destruct (findb r s) eqn:E; [|auto]. destruct H. apply findb_ok. auto.
Qed.
Lemma validator_meaning (L : Libc) p (P : cstr -> Prop) hint s : pcre2 L -> regex_enabled = true -> (p, P) ∈ meanings ->
  (P s -> regex_validator (Some p) hint (Some s) = Ok (SUCCESS, [])) /\
  (~ P s -> exists m, regex_validator (Some p) hint (Some s) = Ok (E_INVALID_VALUE, [EDiag E_INVALID_VALUE m])).
Proof. intros HL He Hm. rewrite <- (meaning_exact p P s Hm). apply validator_decides; [auto|auto|]. eapply meanings_compile. eauto. Qed.
Lemma stub_accepts (L : Libc) p hint s : pcre2 L -> regex_enabled = true ->
  regex_validator (Some (predefined false p)) hint (Some s) = Ok (SUCCESS, []).
Proof. intros HL He. apply (validator_decides L [] hint s HL He); [eexists; reflexivity|]. apply stub_satisfied. Qed.
Lemma port_newline s : port s -> satisfies RE_PORT (s ++ ["010"%char]) /\ ~ port (s ++ ["010"%char]).
Proof.
  intros H. split; [apply port_lang; right; eauto|]. intros [(Hd & _) _]. apply Forall_app in Hd as [_ Hd]. apply Forall_cons in Hd as [Hd _].
  revert Hd. apply (bool_decide_eq_true_1 _). vm_compute. reflexivity.
Qed.
Lemma ipv4_anything t rest : ipv4 t -> satisfies RE_IPV4 (t ++ rest).
Proof. intros H. apply ipv4_lang. eauto. Qed.
Lemma no_space p q : ~ satisfies RE_UNIX_PATH (p ++ $" " ++ q).
Proof. intros H. apply path_lang in H as [_ H]. apply Forall_app in H as [_ H]. apply Forall_app in H as [H _]. apply Forall_cons in H as [H _]. apply H. left. Qed.
(** Cuts at a separator are unique. *)
Lemma cut_unique (c : ascii) (u v u' v' : cstr) : c ∉ u -> c ∉ u' -> u ++ c :: v = u' ++ c :: v' -> u = u' /\ v = v'.
Proof.
  revert u'. induction u as [|x u IH]; intros [|y u'] H H' E; cbn in E.
  - injection E as ->. auto.
  - injection E as -> _. destruct H'. left.
  - injection E as -> _. destruct H. left.
  - injection E as -> E. apply not_elem_of_cons in H as [_ H], H' as [_ H']. destruct (IH u' H H' E) as [-> ->]. auto.
Qed.
Lemma not_in_digits (c : ascii) (t : cstr) : made_of digits t -> c ∉ digits -> c ∉ t.
Proof. intros H Hc Ht. unfold made_of in H. rewrite Forall_forall in H. auto. Qed.
Ltac not_digit := apply not_in_digits; [assumption|apply (bool_decide_eq_true_1 _); vm_compute; reflexivity].
Ltac not_here := apply (bool_decide_eq_true_1 _); vm_compute; reflexivity.
Lemma ipv4_999 : ~ line ipv4 $"1.2.3.999".
Proof.
  assert (Hg : ~ ipv4 $"1.2.3.999").
  { intros (a & b & c & d & E & (Ha & _) & (Hb & _) & (Hc & _) & (Hd & _ & Hn)).
    change $"1.2.3.999" with ($"1" ++ "."%char :: $"2" ++ "."%char :: $"3" ++ "."%char :: $"999") in E. cbn [joined] in E.
    apply cut_unique in E as [_ E]; [|not_here|not_digit]. apply cut_unique in E as [_ E]; [|not_here|not_digit].
    apply cut_unique in E as [_ E]; [|not_here|not_digit]. subst d. vm_compute in Hn. auto. }
  intros [H|(t & E & _)]; [auto|]. symmetry in E. apply (f_equal last) in E. rewrite last_snoc in E. discriminate.
Qed.
Lemma no_such_day : ~ line real_date $"2023-02-31".
Proof.
  assert (Hg : ~ real_date $"2023-02-31").
  { intros (y & m & d & E & (Hy & _) & (Hm & _) & (_ & _ & Hd)).
    change $"2023-02-31" with ($"2023" ++ "-"%char :: $"02" ++ "-"%char :: $"31") in E. cbn [joined] in E.
    apply cut_unique in E as [<- E]; [|not_here|not_digit]. apply cut_unique in E as [<- <-]; [|not_here|not_digit].
    vm_compute in Hd. destruct Hd as [_ Hd]. auto. }
  intros [H|(t & E & _)]; [auto|]. symmetry in E. apply (f_equal last) in E. rewrite last_snoc in E. discriminate.
Qed.
