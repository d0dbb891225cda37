(** * C71: judging default values with standard error captured *)
From Verif Require Import Validate Api Display SpecGrammar SpecAfter SpecStructure SpecDisplay SpecMessages SpecRefused
  Messages StructErrors SpecFaults ExLib PropsFaults FaultProofs PropsStream DefaultOs DefaultOsProofs.

(** If no system call fails and no message is longer than a pipe holds, standard error ends up where
    it was, with one complaint for every reason why the default is bad, and nothing else. *)
Theorem C71_told `{Libc} (pcre : cstr -> cstr) (p : program) s0 s n f line o h st :
  (forall e, e ∈ validators (decl_of o) -> listable (v_fun e)) ->
  reached s0 s -> (forall fd, standard fd -> ~ captured s fd) -> connection s0 2 = Some (TFile n) ->
  o_fails s = [] -> o_mem s = [] -> validate_default_value o h = Ok st ->
  (forall w, bad_default pcre (p_name p) o h w -> terminator ∉ w /\ Z.of_nat (length w) <= o_cap s) ->
  exists s' ws xs, validate_default_on pcre p s (Some f) line o h = Done (st, s') /\
    (forall w, w ∈ ws <-> bad_default pcre (p_name p) o h w) /\ (st = 0 <-> ws = []) /\
    Forall2 (complaint f line (Some (decl_of o))) ws xs /\ o_files s' = o_files s ++ map (pair n) xs /\
    (forall fd, connection s' fd = connection s fd) /\ forall fd, standard fd -> ~ captured s' fd.
Proof. exact (default_told pcre p s0 s n f line o h st). Qed.
Print Assumptions C71_told.

(** Pipes as on Linux: 65536 bytes *)
Definition linux (fails mem : list bool) : os :=
  let s := ex_os fails [] mem in
  Os (o_fds s) (o_files s) (o_pipes s) (o_infos s) (o_pending s) (o_fails s) (o_fails2 s) (o_mem s) 65536.
Lemma linux_fresh fails mem : fresh_start (linux fails mem).
Proof. destruct (ex_os_fresh fails mem) as [A B C D]. by split. Qed.
Definition ex_bad : opt :=
  OPTION_INT "p" (Some ($"port")) [hlp; VALIDATOR [V_RANGE 1 10; V_CHOICE_INT [7; 5]]; DEFAULT (DInt 99)].
Definition ex_good : opt :=
  OPTION_INT "p" (Some ($"port")) [hlp; VALIDATOR [V_RANGE 1 10; V_CHOICE_INT [7; 5]]; DEFAULT (DInt 7)].
Definition said_range : cstr :=
  $"main.c:11 -> Option [ --port -p ]:" ++ NL ++ TAB ++ $"Default value does not pass validations: " ++ NL ++
  TAB ++ $"    app: Value 99 is out of range 1-10" ++ NL ++ NL.
Definition said_choice : cstr :=
  $"main.c:11 -> Option [ --port -p ]:" ++ NL ++ TAB ++ $"Default value does not pass validations: " ++ NL ++
  TAB ++ $"    app: Value '99' is not one of [7|5]" ++ NL ++ NL.
Lemma linux_short o h ms : all_listable (H := libc0) (decl_of o) ->
  default_says (H := libc0) pcre0 prog0 o h = Ok ms ->
  forallb (fun w => forallb (fun c => negb (Ascii.eqb c terminator)) w && (Z.of_nat (length w) <=? 65536)) ms = true ->
  forall w, bad_default (H := libc0) pcre0 (p_name prog0) o h w -> terminator ∉ w /\ Z.of_nat (length w) <= 65536.
Proof.
  intros Hl Hs Hc w Hw. pose proof (default_agree (H := libc0) pcre0 prog0 o h Hl) as X.
  destruct (validate_default_value o h); [|destruct X as [? X]; congruence].
  destruct X as (ms' & E & _ & Hms). rewrite Hs in E. injection E as <-. apply Hms in Hw.
  rewrite forallb_forall in Hc. apply elem_of_list_In in Hw. specialize (Hc w Hw). apply andb_true_iff in Hc as [H1 H2].
  split; [|by apply Z.leb_le]. intros X. rewrite forallb_forall in H1. apply elem_of_list_In, H1 in X.
  by rewrite Ascii.eqb_refl in X.
Qed.
Example C71_told_example : exists s1 s2,
  reached (linux [] []) (linux [] []) /\ (forall fd, standard fd -> ~ captured (linux [] []) fd) /\
  connection (linux [] []) 2 = Some (TFile 12) /\
  all_listable (H := libc0) (decl_of ex_bad) /\ validate_default_value (H := libc0) ex_bad fresh_heap = Ok E_INVALID_DEFAULT /\
  (forall w, bad_default (H := libc0) pcre0 (p_name prog0) ex_bad fresh_heap w -> terminator ∉ w /\ Z.of_nat (length w) <= 65536) /\
  validate_default_on (H := libc0) pcre0 prog0 (linux [] []) (Some ($"main.c")) 11 ex_bad fresh_heap = Done (E_INVALID_DEFAULT, s1) /\
  o_files s1 = [(12%nat, said_range); (12%nat, said_choice)] /\
  validate_default_on (H := libc0) pcre0 prog0 s1 (Some ($"main.c")) 12 ex_good fresh_heap = Done (SUCCESS, s2) /\
  o_files s2 = o_files s1.
Proof.
  do 2 eexists. split; [split; [apply linux_fresh|by exists []]|].
  split; [apply (fs_infos _ (linux_fresh [] []))|]. split; [reflexivity|].
  assert (Hl : all_listable (H := libc0) (decl_of ex_bad)).
  { intros e He. cbn in He. rewrite !elem_of_cons, elem_of_nil in He. destruct He as [->|[->|[]]]; [exact I|].
    split; [|cbn; lia]. repeat (constructor; [lia|]). constructor. }
  split; [done|]. split; [reflexivity|].
  split; [eapply linux_short; [done|vm_compute; reflexivity|vm_compute; reflexivity]|].
  split; [vm_compute; reflexivity|]. split; [reflexivity|]. split; [vm_compute; reflexivity|]. reflexivity.
Qed.

(** A refused default whose message is longer than a pipe holds: the validator that prints it waits
    for a reader that is itself, for ever. *)
Definition ex_long : opt :=
  OPTION_STRING "n" (Some ($"name")) [hlp; VALIDATOR [V_CHOICE_STR [$"a"; $"b"]]; DEFAULT (DString (replicate (Z.to_nat 65536) "x"%char))].
Theorem C71_long_refuted :
  reached (linux [] []) (linux [] []) /\ o_fails (linux [] []) = [] /\ o_mem (linux [] []) = [] /\
  validate_default_value (H := libc0) ex_long fresh_heap = Ok E_INVALID_DEFAULT /\
  validate_default_on (H := libc0) pcre0 prog0 (linux [] []) (Some ($"main.c")) 11 ex_long fresh_heap = Blocked.
Proof.
  split; [split; [apply linux_fresh|by exists []]|]. split; [reflexivity|]. split; [reflexivity|].
  split; vm_compute; reflexivity.
Qed.
Print Assumptions C71_long_refuted.

(** The result of redirect_stderr is not looked at: if the process has no free descriptors, the
    message goes to standard error at once, there is nothing to read back, and NULL is printed
    with [%s]. *)
Theorem C71_descriptors_refuted :
  fresh_start (linux [true] []) /\ validate_default_value (H := libc0) ex_bad fresh_heap = Ok E_INVALID_DEFAULT /\
  validate_default_on (H := libc0) pcre0 prog0 (linux [true] []) (Some ($"main.c")) 11 ex_bad fresh_heap = Bad NullDeref.
Proof. split; [apply linux_fresh|]. split; vm_compute; reflexivity. Qed.
Print Assumptions C71_descriptors_refuted.
(** The same if the memory for the message cannot be had. *)
Theorem C71_memory_refuted :
  fresh_start (linux [] [true]) /\ validate_default_value (H := libc0) ex_bad fresh_heap = Ok E_INVALID_DEFAULT /\
  validate_default_on (H := libc0) pcre0 prog0 (linux [] [true]) (Some ($"main.c")) 11 ex_bad fresh_heap = Bad NullDeref.
Proof. split; [apply linux_fresh|]. split; vm_compute; reflexivity. Qed.
Print Assumptions C71_memory_refuted.
