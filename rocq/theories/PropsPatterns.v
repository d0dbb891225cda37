(** * Properties of the predefined patterns *)
From Verif Require Import RegexRun RegexProofs SpecPatterns RegexLang PatternNumbers PatternDates PatternNames PatternNet PatternText.
From Verif Require Import Parse Macros SpecGrammar PropsAfter SpecAfter AfterProofs ExAfter ExLib PatternUse.

(** Decides an example. *)
Ltac accepted := apply satisfies_run; vm_compute; reflexivity.
Ltac refused := let H := fresh in rewrite satisfies_run; intros H; vm_compute in H; discriminate H.
Ltac is_made := repeat (apply Forall_cons; split; [apply (bool_decide_eq_true_1 _); vm_compute; reflexivity|]); by apply Forall_nil.

(** ** C62: numbers *)
Theorem C62_port s : satisfies RE_PORT s <-> line port s.
Proof. exact (port_lang s). Qed.
Print Assumptions C62_port.
Theorem C62_positive s : satisfies RE_POS_INT s <-> line positive_integer s.
Proof. exact (pos_int_lang s). Qed.
Print Assumptions C62_positive.
Theorem C62_negative s : satisfies RE_NEG_INT s <-> line negative_integer s.
Proof. exact (neg_int_lang s). Qed.
Print Assumptions C62_negative.
Theorem C62_hex s : satisfies RE_HEX s <-> line hex_number s.
Proof. exact (hex_lang s). Qed.
Print Assumptions C62_hex.
Theorem C62_decimal s : satisfies RE_FLOAT s <-> line decimal s.
Proof. exact (float_lang s). Qed.
Print Assumptions C62_decimal.
Example C62_example :
  (satisfies RE_PORT $"65535" /\ port $"65535" /\ ~ satisfies RE_PORT $"65536" /\ ~ satisfies RE_PORT $"080") /\
  (satisfies RE_POS_INT $"907" /\ ~ satisfies RE_POS_INT $"0") /\ (satisfies RE_NEG_INT $"-12" /\ ~ satisfies RE_NEG_INT $"12") /\
  (satisfies RE_HEX $"0xC0ffee" /\ ~ satisfies RE_HEX $"0xg") /\ (satisfies RE_FLOAT $"-.5" /\ ~ satisfies RE_FLOAT $"5.").
Proof.
  split_and!; try accepted; try refused.
  split; [split; [is_made|split; [discriminate|discriminate]]|]. split; vm_compute; discriminate.
Qed.
(** A final newline is accepted too. *)
Theorem C62_newline s : port s -> satisfies RE_PORT (s ++ ["010"%char]) /\ ~ port (s ++ ["010"%char]).
Proof. exact (port_newline s). Qed.
Print Assumptions C62_newline.
Example C62_newline_example : satisfies RE_PORT ($"80" ++ ["010"%char]).
Proof. accepted. Qed.

(** ** C63: the network *)
Theorem C63_ipv6 s : satisfies RE_IPV6 s <-> line (fun t => ipv6 t \/ zoned t \/ embedded t) s.
Proof. exact (ipv6_lang s). Qed.
Print Assumptions C63_ipv6.
Theorem C63_ipv4_partial s : satisfies RE_IPV4 s <-> exists t rest, s = t ++ rest /\ ipv4 t.
Proof. exact (ipv4_lang s). Qed.
Print Assumptions C63_ipv4_partial.
Theorem C63_domain s : satisfies RE_DOMAIN s <-> line domain s.
Proof. exact (domain_lang s). Qed.
Print Assumptions C63_domain.
Theorem C63_url s : satisfies RE_URL s <-> line url s.
Proof. exact (url_lang s). Qed.
Print Assumptions C63_url.
Theorem C63_http s : satisfies RE_HTTP s <-> line http_url s.
Proof. exact (http_lang s). Qed.
Print Assumptions C63_http.
Example C63_example :
  (satisfies RE_IPV6 $"2001:db8::8:800:200C:417A" /\ satisfies RE_IPV6 $"::" /\ ~ satisfies RE_IPV6 $"1::2::3" /\
   ~ satisfies RE_IPV6 $"1:2:3:4:5:6:7" /\ ~ satisfies RE_IPV6 $"1:2:3:4:5:6:7::8") /\
  (satisfies RE_IPV4 $"192.168.1.20" /\ ~ satisfies RE_IPV4 $"1.2.3" /\ ~ satisfies RE_IPV4 $"256.1.1.1") /\
  (satisfies RE_DOMAIN $"a-b.example.org" /\ ~ satisfies RE_DOMAIN $"-a.org" /\ ~ satisfies RE_DOMAIN $"localhost") /\
  (satisfies RE_URL $"ftp+x://h/p?q#f" /\ ~ satisfies RE_URL $"1tp://host" /\ satisfies RE_HTTP $"https://h.org/" /\ ~ satisfies RE_HTTP $"ftp://host").
Proof. split_and!; first [accepted|refused]. Qed.
(** The pattern for IPv4 has no end: anything may follow. *)
Theorem C63_ipv4_refuted t rest : ipv4 t -> satisfies RE_IPV4 (t ++ rest).
Proof. exact (ipv4_anything t rest). Qed.
Print Assumptions C63_ipv4_refuted.
Example C63_ipv4_example : satisfies RE_IPV4 $"1.2.3.999" /\ satisfies RE_IPV4 $"1.2.3.4; reboot" /\ ~ line ipv4 $"1.2.3.999".
Proof. split_and!; [accepted|accepted|exact ipv4_999]. Qed.
(** Addresses with a zone of which the rest is no address, and addresses ending with one of the
    older kind that are refused. *)
Theorem C63_ipv6_refuted :
  (satisfies RE_IPV6 $"fe80:%eth0" /\ satisfies RE_IPV6 $"fe80:::::%1") /\
  (ipv6_with_ipv4 $"64:ff9b:0:0:0:0:192.0.2.33" /\ ~ satisfies RE_IPV6 $"64:ff9b:0:0:0:0:192.0.2.33").
Proof.
  split_and!; try accepted; try refused. exists [$"64"; $"ff9b"; $"0"; $"0"; $"0"; $"0"], $"192.0.2.33". split; [reflexivity|]. split; [reflexivity|]. split.
  - repeat (apply Forall_cons; split; [split; [is_made|cbv; lia]|]). by apply Forall_nil.
  - exists $"192", $"0", $"2", $"33". split; [reflexivity|].
    split_and!; (split; [is_made|]); (split; [cbv; lia|vm_compute; discriminate]).
Qed.
Print Assumptions C63_ipv6_refuted.
(** After the scheme two characters are needed and the second may be a space. *)
Theorem C63_url_refuted :
  ~ satisfies RE_URL $"http://a" /\ ~ satisfies RE_HTTP $"http://a" /\
  satisfies RE_URL $"http://a b" /\ satisfies RE_HTTP $"http://a b".
Proof. split_and!; first [accepted|refused]. Qed.
Print Assumptions C63_url_refuted.

(** ** C64: mail, dates and times *)
Theorem C64_email s : satisfies RE_EMAIL s <-> line email s.
Proof. exact (email_lang s). Qed.
Print Assumptions C64_email.
Theorem C64_strict_email s : satisfies RE_EMAIL_STRICT s <-> line strict_email s.
Proof. exact (strict_email_lang s). Qed.
Print Assumptions C64_strict_email.
Theorem C64_date s : satisfies RE_ISO_DATE s <-> line date s.
Proof. exact (date_lang s). Qed.
Print Assumptions C64_date.
Theorem C64_moment s : satisfies RE_ISOTIME s <-> line moment s.
Proof. exact (moment_lang s). Qed.
Print Assumptions C64_moment.
Example C64_example :
  (satisfies RE_EMAIL $"jo.doe+x@mail.example.org" /\ ~ satisfies RE_EMAIL $"jo@example" /\ ~ satisfies RE_EMAIL $"a b@example.org") /\
  (satisfies RE_EMAIL_STRICT $"o'hara@x-y.org" /\ ~ satisfies RE_EMAIL_STRICT $"a@-x.org") /\
  (satisfies RE_ISO_DATE $"2024-02-29" /\ ~ satisfies RE_ISO_DATE $"2024-13-01" /\ ~ satisfies RE_ISO_DATE $"2024-1-1") /\
  (satisfies RE_ISOTIME $"2024-02-29T23:59:59" /\ ~ satisfies RE_ISOTIME $"2024-02-29T24:00:00" /\ ~ satisfies RE_ISOTIME $"2024-02-29").
Proof. split_and!; first [accepted|refused]. Qed.
(** Every month is given 31 days. *)
Theorem C64_date_refuted : satisfies RE_ISO_DATE $"2023-02-31" /\ ~ line real_date $"2023-02-31".
Proof. split; [accepted|exact no_such_day]. Qed.
Print Assumptions C64_date_refuted.

(** ** C65: names, secrets, files and versions *)
Theorem C65_user s : satisfies RE_USER s <-> line user_name s.
Proof. exact (user_lang s). Qed.
Print Assumptions C65_user.
Theorem C65_password s : satisfies RE_PASSWD s <-> line password s.
Proof. exact (password_lang s). Qed.
Print Assumptions C65_password.
Theorem C65_uuid s : satisfies RE_UUID s <-> line uuid4 s.
Proof. exact (uuid_lang s). Qed.
Print Assumptions C65_uuid.
Theorem C65_path s : satisfies RE_UNIX_PATH s <-> unix_path s.
Proof. exact (path_lang s). Qed.
Print Assumptions C65_path.
Theorem C65_file s : satisfies RE_FILENAME s <-> line file_name s.
Proof. exact (filename_lang s). Qed.
Print Assumptions C65_file.
Theorem C65_version s : satisfies RE_SEMVER s <-> line semver s.
Proof. exact (semver_lang s). Qed.
Print Assumptions C65_version.
Example C65_example :
  (satisfies RE_USER $"joe_doe-7" /\ ~ satisfies RE_USER $"jo") /\
  (satisfies RE_PASSWD $"secret99" /\ ~ satisfies RE_PASSWD $"secretss" /\ ~ satisfies RE_PASSWD $"s3cret") /\
  (satisfies RE_UUID $"123e4567-e89b-42d3-a456-426614174000" /\ ~ satisfies RE_UUID $"123e4567-e89b-12d3-a456-426614174000") /\
  (satisfies RE_UNIX_PATH $"/usr//lib/x.so/" /\ ~ satisfies RE_UNIX_PATH $"usr/lib") /\
  (satisfies RE_FILENAME $"my file.txt" /\ ~ satisfies RE_FILENAME $"Makefile") /\
  (satisfies RE_SEMVER $"1.10.0-rc.1+build.07" /\ ~ satisfies RE_SEMVER $"1.02.0" /\ ~ satisfies RE_SEMVER $"1.2.3-01").
Proof. split_and!; first [accepted|refused]. Qed.
(** A password of the documented form with a sign in it is refused. *)
Theorem C65_password_refuted : documented_password $"Secret-123" /\ ~ satisfies RE_PASSWD $"Secret-123".
Proof.
  split; [|refused]. split; [cbv; lia|]. split; apply Exists_exists.
  - exists "S"%char. split; apply (bool_decide_eq_true_1 _); vm_compute; reflexivity.
  - exists "1"%char. split; apply (bool_decide_eq_true_1 _); vm_compute; reflexivity.
Qed.
Print Assumptions C65_password_refuted.
(** Absolute paths with a space are refused. *)
Theorem C65_path_refuted p q : ~ satisfies RE_UNIX_PATH (p ++ $" " ++ q).
Proof. exact (no_space p q). Qed.
Print Assumptions C65_path_refuted.

(** ** C66: patterns as validators *)

(** With a PCRE2 that behaves as documented the validator decides the pattern. *)
Theorem C66_validator (L : Libc) p (P : cstr -> Prop) hint s : pcre2 L -> regex_enabled = true -> (p, P) ∈ meanings ->
  (P s -> regex_validator (Some p) hint (Some s) = Ok (SUCCESS, [])) /\
  (~ P s -> exists m, regex_validator (Some p) hint (Some s) = Ok (E_INVALID_VALUE, [EDiag E_INVALID_VALUE m])).
Proof. exact (validator_meaning L p P hint s). Qed.
Print Assumptions C66_validator.
(** Every text an accepted command line (or the environment) gives to an option with a predefined
    pattern has the form the pattern stands for. *)
Theorem C66_taken (L : Libc) a argv a' its t i v T d p P h : pcre2 L -> (p, P) ∈ meanings ->
  fresh a -> argus_parse a argv = Ok (Returned 0, a') -> assigned a argv its ->
  Call t i v ∈ its -> decls a !! t = Some T -> T !! i = Some d ->
  V_REGEX (Some (predefined true p)) h ∈ validators d ->
  exists s, v = Some s /\ P s.
Proof. exact (taken_meaning L a argv a' its t i v T d p P h). Qed.
Print Assumptions C66_taken.

Definition libc_re : Libc := {|
  getenv := fun _ => None; strtod := strtod0; strtof := fun s => fst (strtod0 s); qsort := @insertion_sort;
  regex_enabled := true; regex_match := run; fmt_f := fun _ => []; fmt_2g := fun _ => [] |}.
Lemma libc_re_pcre2 : pcre2 libc_re.
Proof. intros p r s. exact (run_pcre2 p r s). Qed.
Definition server (p m : cstr) : argus :=
  make_argus [[HELP_OPTION; OPTION_STRING "p" (Some $"port") [hlp; VALIDATOR [V_REGEX (Some p) (Some $"port")]];
               POSITIONAL_STRING $"mail" [hlp; VALIDATOR [V_REGEX (Some m) (Some $"email")]]]] 0 None.
Definition served : argus := server RE_PORT RE_EMAIL.
Example C66_example :
  argus_parse (H := libc_re) served [$"-p"; $"8080"; $"a@b.org"] = Ok (Returned 0, ran libc_re served [$"-p"; $"8080"; $"a@b.org"]) /\
  (exists s, Some $"8080" = Some s /\ line port s) /\
  (exists a', argus_parse (H := libc_re) served [$"-p"; $"80800"; $"a@b.org"] = Ok (Returned 29, a')) /\
  (exists a', argus_parse (H := libc_re) served [$"-p"; $"8080"; $"a@b"] = Ok (Returned 29, a')).
Proof.
  split_and!.
  - vm_compute. reflexivity.
  - eapply (C66_taken libc_re served [$"-p"; $"8080"; $"a@b.org"] (ran libc_re served [$"-p"; $"8080"; $"a@b.org"])
      (all_items libc_re served [$"-p"; $"8080"; $"a@b.org"]) 0 1 _ _ _ RE_PORT _ (Some $"port") libc_re_pcre2);
      [|apply MoreFacts.freshb_ok; vm_compute; reflexivity|vm_compute; reflexivity| | |reflexivity|reflexivity|].
    + do 5 right. left.
    + apply all_assigned; [apply MoreFacts.freshb_ok; vm_compute; reflexivity|]. vm_compute. reflexivity.
    + vm_compute. left.
    + vm_compute. left.
  - eexists. vm_compute. reflexivity.
  - eexists. vm_compute. reflexivity.
Qed.
(** An application compiled without ARGUS_REGEX passes the empty stub for every predefined
    pattern.  With a library that has regular expressions the validator then accepts everything. *)
Theorem C66_stub_refuted (L : Libc) p hint s : pcre2 L -> regex_enabled = true ->
  regex_validator (Some (predefined false p)) hint (Some s) = Ok (SUCCESS, []).
Proof. exact (stub_accepts L p hint s). Qed.
Print Assumptions C66_stub_refuted.
Example C66_stub_example :
  let a := server (predefined false RE_PORT) (predefined false RE_EMAIL) in
  argus_parse (H := libc_re) a [$"-p"; $"banana"; $"nobody"] = Ok (Returned 0, ran libc_re a [$"-p"; $"banana"; $"nobody"]).
Proof. vm_compute. reflexivity. Qed.
