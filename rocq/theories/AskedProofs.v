(** * Screens that the program asks for: proofs *)
From Coq Require Import Lia.
From Verif Require Import Validate Api LibProofs FrameProofs SpecGrammar GrammarProofs GrammarLemmas SpecStructure StructProofs
  AfterProofs EnvProofs WholeProofs CallProofs IsolationProofs ActiveProofs SpecMessages SpecHelp HelpProofs Display Stdout SpecStdout
  StdoutProofs AfterFacts.
From Verif Require Import SpecAfter.

Section asked.
Context `{Libc, Printf}.

(** Where a successful parse ends *)
Lemma success_place a argv a' its cs t : fresh a -> argus_parse a argv = Ok (Returned 0, a') ->
  reads (decls a) (a_root a) 0 false argv its -> called (decls a) its cs -> current (decls a) (a_root a) its t ->
  decls a' = decls a /\ a_prefix a' = a_prefix a /\ get_active_options a' = Ok (Some t) /\ selected a' cs.
Proof.
  intros Hf E Hr Hc Hcur. pose proof E as E0.
  apply parse_success in E0 as (? & _ & _ & _ & _ & Hroot & Hpre & _); [|done].
  destruct (success_parts _ _ _ _ Hf E Hr) as (a1 & _ & _ & _ & _ & _ & _ & _ & _ & D & S).
  split; [done|]. split; [done|]. split.
  - unfold get_active_options. rewrite S, Hroot. unfold current in Hcur. destruct (last (entered its)) as [r|]; [|by subst].
    destruct Hcur as (U & d & HU & Hd & Hsub). rewrite sub_of_decls, D, HU, Hd, Hsub. done.
  - apply (selected_of a' (entered its)); [done|]. rewrite D. exact Hc.
Qed.

Lemma asked_help p a argv a' its cs t T out h :
  fresh a -> argus_parse a argv = Ok (Returned 0, a') ->
  reads (decls a) (a_root a) 0 false argv its -> called (decls a) its cs -> current (decls a) (a_root a) its t ->
  a_tabs a !! t = Some T -> printf_ok -> good_config (p_config p) ->
  showable_table (a_prefix a) T -> fitting_table (p_config p) (a_prefix a) T -> oom h = [] ->
  exists u h', argus_print_help p a' (Dst out h) = Shown (tt, Dst (out ++ u) h') /\ SpecHelp.released h h' /\
    help_screen p (a_prefix a) cs T u.
Proof.
  intros Hf E Hr Hc Hcur HT PO GC ST FT O.
  destruct (success_place _ _ _ _ _ _ Hf E Hr Hc Hcur) as (D & P & A & Sel).
  destruct (decls_table a a' t T D HT) as (T' & HT' & Hs).
  assert (Tp : table_ptr (Some t) a' = Ok T') by (cbn; unfold table, cell; by rewrite HT').
  apply (same_showable _ _ Hs) in ST as ST'. apply (same_fitting _ _ Hs) in FT as FT'.
  rewrite <- P in ST', FT'.
  destruct (help_exact p a' None (Some t) T' cs (Dst out h)) as (u & h' & Eu & R & K); try done.
  exists u, h'. split; [exact Eu|]. split; [exact R|]. rewrite P in K. by apply (same_help _ _ Hs).
Qed.

Lemma asked_usage p a argv a' its cs t T out h :
  fresh a -> argus_parse a argv = Ok (Returned 0, a') ->
  reads (decls a) (a_root a) 0 false argv its -> called (decls a) its cs -> current (decls a) (a_root a) its t ->
  a_tabs a !! t = Some T ->
  (forall x, x ∈ T -> d_type (decl_of x) = TPositional -> is_Some (d_name (decl_of x))) ->
  argus_print_usage p a' (Dst out h) = Shown (tt, Dst (out ++ usage_line p cs T) h).
Proof.
  intros Hf E Hr Hc Hcur HT Hpn.
  destruct (success_place _ _ _ _ _ _ Hf E Hr Hc Hcur) as (D & P & A & Sel).
  destruct (decls_table a a' t T D HT) as (T' & HT' & Hs).
  unfold argus_print_usage. rewrite (usage_shown p a' (Some t) T' cs out h A).
  - by rewrite (same_usage _ _ Hs).
  - cbn. unfold table, cell. by rewrite HT'.
  - exact Sel.
  - intros x Hx Hty. apply (same_elem _ _ Hs) in Hx as (y & Hy & Ey). rewrite <- Ey. apply (Hpn y Hy).
    unfold entry_is in Hty. rewrite <- Ey in Hty. by destruct (d_type (decl_of y)).
Qed.
End asked.

Lemma asked_version p out h : argus_print_version p (Dst out h) = Shown (tt, Dst (out ++ version_text p) h).
Proof. reflexivity. Qed.
