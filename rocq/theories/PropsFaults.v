(** * C69: a refused description is reported with its faults *)
From Verif Require Import Validate Api Display SpecGrammar SpecAfter SpecStructure SpecDisplay SpecMessages SpecRefused
  Messages StructErrors SpecFaults FaultProofs ExLib.

Definition pcre0 (p : cstr) : cstr := $"bad pattern".
Definition prog0 : program := Program ($"app") None None default_config.
(** Every entry is on its own line of main.c. *)
Definition main_c (t i : nat) : option cstr := Some ($"main.c").
Definition line0 (t i : nat) : Z := Z.of_nat (10 * S t + i).
Notation NL := (["010"%char]).
Notation TAB := (["009"%char]).

(** Whatever the structure check says is wrong is wrong, whatever is wrong is said, and the
    program is ended exactly if something is. *)
Theorem C69_told `{Libc} (pcre : cstr -> cstr) (p : program) (line_of : nat -> nat -> Z) (file_of : nat -> nat -> option cstr)
    fuel tabs root x d' :
  (forall T o e, T ∈ tabs -> o ∈ T -> e ∈ validators (decl_of o) -> listable (v_fun e)) ->
  (forall t i w, fault pcre (p_name p) line_of (make_argus tabs root None) t i w -> is_Some (file_of t i)) ->
  argus_init fuel tabs root 0 = Ok (x, d') ->
  exists l out, init_stderr pcre p file_of line_of fuel tabs root 0 = Ok out /\
    told_of line_of file_of (make_argus tabs root None) l out /\
    (forall t i w, (t, i, w) ∈ l <-> fault pcre (p_name p) line_of (make_argus tabs root None) t i w) /\
    (x = None <-> exists t i w, fault pcre (p_name p) line_of (make_argus tabs root None) t i w).
Proof. exact (init_told pcre p line_of file_of fuel tabs root x d'). Qed.
Print Assumptions C69_told.

Definition ex_faulty : list (list opt) :=
  [[HELP_OPTION;
    OPTION_INT "p" (Some ($"port")) [hlp; VALIDATOR [V_RANGE 1 10]; DEFAULT (DInt 99)];
    OPTION_FLAG "p" None [hlp];
    SUBCOMMAND (Some ($"start")) (Some 1%nat) [hlp]];
   [HELP_OPTION;
    POSITIONAL_STRING ($"what") []]].
Lemma faulty_listable (T : list opt) o e : T ∈ ex_faulty -> o ∈ T -> e ∈ validators (decl_of o) -> listable (H := libc0) (v_fun e).
Proof.
  intros HT Ho He. unfold ex_faulty in HT. rewrite !elem_of_cons, elem_of_nil in HT.
  destruct HT as [->|[->|[]]]; rewrite !elem_of_cons, elem_of_nil in Ho.
  - destruct Ho as [->|[->|[->|[->|[]]]]]; apply elem_of_list_In in He; try (by destruct He).
    destruct He as [<-|[]]. exact I.
  - destruct Ho as [->|[->|[]]]; apply elem_of_list_In in He; by destruct He.
Qed.
Example C69_told_example :
  argus_init (H := libc0) 3 ex_faulty 0 0 = Ok (None, O) /\
  init_stderr (H := libc0) pcre0 prog0 main_c line0 3 ex_faulty 0 0 = Ok (
    $"main.c:12 -> Option [  -p ]:" ++ NL ++ TAB ++ $"Short name 'p' is already used" ++ NL ++
    $"main.c:11 -> Option [ --port -p ]:" ++ NL ++ TAB ++ $"Default value does not pass validations: " ++ NL ++
      TAB ++ $"    app: Value 99 is out of range 1-10" ++ NL ++ NL ++
    $"main.c:21 -> Positional [ what ]:" ++ NL ++ TAB ++ $"Positional must have a help message" ++ NL) /\
  fault (H := libc0) pcre0 ($"app") line0 (make_argus ex_faulty 0 None) 0 2 ($"Short name 'p' is already used") /\
  exists l out, init_stderr (H := libc0) pcre0 prog0 main_c line0 3 ex_faulty 0 0 = Ok out /\
    told_of line0 main_c (make_argus ex_faulty 0 None) l out /\
    (0%nat, 2%nat, $"Short name 'p' is already used") ∈ l /\
    (1%nat, 1%nat, $"Positional must have a help message") ∈ l.
Proof.
  assert (F1 : fault (H := libc0) pcre0 ($"app") line0 (make_argus ex_faulty 0 None) 0 2 ($"Short name 'p' is already used")).
  { eapply ft_name; [by left|reflexivity|reflexivity|].
    change ($"Short name 'p' is already used") with (in_quotes $"Short name " ["p"%char] ++ $" is already used").
    apply (mn_used line0 0 _ 2 (decl_of (OPTION_FLAG "p" None [hlp]))); [done|].
    eexists 1%nat, _. split; [lia|]. split; [reflexivity|]. done. }
  assert (F2 : fault (H := libc0) pcre0 ($"app") line0 (make_argus ex_faulty 0 None) 1 1 ($"Positional must have a help message")).
  { eapply ft_entry; [|reflexivity|reflexivity|].
    - right. apply wd_one. eexists _, 3%nat, _. by split.
    - by apply mf_p_help. }
  split; [by vm_compute|]. split; [by vm_compute|]. split; [exact F1|].
  destruct (C69_told (H := libc0) pcre0 prog0 line0 main_c 3 ex_faulty 0 None 0 faulty_listable) as (l & out & Ho & Ht & Hl & _).
  - intros. by eexists.
  - by vm_compute.
  - exists l, out. split; [done|]. split; [done|]. split; by apply Hl.
Qed.

(** An accepted description: nothing is printed. *)
Theorem C69_silent `{Libc} (pcre : cstr -> cstr) (p : program) (line_of : nat -> nat -> Z) (file_of : nat -> nat -> option cstr)
    fuel tabs root a d' :
  (forall T o e, T ∈ tabs -> o ∈ T -> e ∈ validators (decl_of o) -> listable (v_fun e)) ->
  argus_init fuel tabs root 0 = Ok (Some a, d') -> init_stderr pcre p file_of line_of fuel tabs root 0 = Ok [].
Proof. exact (init_silent pcre p line_of file_of fuel tabs root a d'). Qed.
Print Assumptions C69_silent.
Example C69_silent_example : init_stderr (H := libc0) pcre0 prog0 main_c line0 3 ex_tree 0 0 = Ok [].
Proof.
  eapply C69_silent; [|exact ex_tree_ok]. intros T o e HT Ho He. exfalso. unfold ex_tree in HT.
  rewrite !elem_of_cons, elem_of_nil in HT. destruct HT as [->|[->|[->|[]]]]; rewrite !elem_of_cons, elem_of_nil in Ho.
  - destruct Ho as [->|[->|[->|[->|[]]]]]; by apply elem_of_nil in He.
  - destruct Ho as [->|[->|[->|[]]]]; by apply elem_of_nil in He.
  - destruct Ho as [->|[->|[]]]; by apply elem_of_nil in He.
Qed.

(** The report needs the name of the source file, which an entry has only if the file that
    contains it was compiled with ARGUS_DEBUG: the check itself depends on how the caller of
    argus_init was compiled. *)
Theorem C69_no_file `{Libc} (pcre : cstr -> cstr) (p : program) (line_of : nat -> nat -> Z) (file_of : nat -> nat -> option cstr)
    fuel tabs root x d' t i w :
  (forall T o e, T ∈ tabs -> o ∈ T -> e ∈ validators (decl_of o) -> listable (v_fun e)) ->
  argus_init fuel tabs root 0 = Ok (x, d') ->
  fault pcre (p_name p) line_of (make_argus tabs root None) t i w -> file_of t i = None ->
  exists u, init_stderr pcre p file_of line_of fuel tabs root 0 = UB u.
Proof. exact (init_no_file pcre p line_of file_of fuel tabs root x d' t i w). Qed.
Print Assumptions C69_no_file.
Example C69_no_file_example : exists u,
  init_stderr (H := libc0) pcre0 prog0 (fun t i => match t with O => Some ($"main.c") | _ => None end) line0 3 ex_faulty 0 0 = UB u.
Proof.
  apply (C69_no_file (H := libc0) pcre0 prog0 line0 (fun t i => match t with O => Some ($"main.c") | _ => None end) 3 ex_faulty 0 None 0
    1 1 ($"Positional must have a help message") faulty_listable); [by vm_compute| |done].
  eapply ft_entry; [|reflexivity|reflexivity|].
  - right. apply wd_one. eexists _, 3%nat, _. by split.
  - by apply mf_p_help.
Qed.

(** A report is not always about an entry that has to do with the fault: after an optional
    positional argument next to POSITIONAL_MANY every later entry is reported. *)
Definition ex_bystander : list (list opt) :=
  [[POSITIONAL_MANY_STRING ($"files") [hlp];
    POSITIONAL_STRING ($"mode") [hlp; FLAGS 0];
    HELP_OPTION]].
Theorem C69_bystander_refuted : ~ (forall fuel tabs root rs d T i o,
  structure_reports (H := libc0) pcre0 prog0 line0 fuel (make_argus tabs root None) root 0 = Ok (rs, d) ->
  tabs !! root = Some T -> T !! i = Some o ->
  Report root i ($"Cannot mix optional positional and POSITIONAL_MANY arguments") ∈ rs -> positional (decl_of o)).
Proof.
  intros Hx. assert (Hp : positional (decl_of HELP_OPTION)); [|done].
  eapply (Hx 3%nat ex_bystander O _ _ _ 2%nat); [vm_compute; reflexivity|reflexivity|reflexivity|].
  apply elem_of_list_In. vm_compute. tauto.
Qed.
Print Assumptions C69_bystander_refuted.
