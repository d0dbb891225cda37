(** * From argus_init to argus_free: the facts behind PropsMemory.v *)
From Coq Require Import Lia.
From Verif Require Import Api LibProofs FrameProofs SpecGrammar GrammarProofs SpecAfter SpecStructure StructProofs SpecMemory SpecContents SpecSafe
  SpecCollections EnvProofs AfterProofs AfterFacts CallProofs WholeProofs CheckFacts LookupProofs MoreFacts SafeProofs SafeContext SafePerform CollProofs SafeFacts.

Lemma set_err_twice a e e' : set_err (set_err a e) e' = set_err a e'.
Proof. done. Qed.
Lemma lookup_err a e p : lookup_option (set_err a e) p = lookup_option a p.
Proof. unfold lookup_option. rewrite path_err. destruct (find_option_by_active_path a p) as [[[t i]|]|]; done. Qed.
Lemma accesses_err a a2 : accesses a a2 -> exists e, a2 = set_err a e.
Proof.
  induction 1 as [a|a p x a1 a2 E _ [e IH]|a p j x a1 a2 E _ [e IH]|a p k x a1 a2 E _ [e IH]].
  - exists (a_err a). by destruct a.
  - exists e. rewrite IH. unfold argus_get in E. apply rbind_Ok in E as (r & _ & E). destruct r; injection E as <- <-; done.
  - exists e. rewrite IH. unfold argus_array_get in E. apply rbind_Ok in E as (r & _ & E). destruct r as [o|]; [|by injection E as <- <-].
    destruct (negb _); [by injection E as <- <-|]. destruct (_ <=? _)%nat; [by injection E as <- <-|].
    apply rbind_Ok in E as (cs & _ & E). apply rbind_Ok in E as (y & _ & E). by injection E as <- <-.
  - exists e. rewrite IH. unfold argus_map_get in E. apply rbind_Ok in E as (r & _ & E). destruct r as [o|]; [|by injection E as <- <-].
    destruct (negb _); [by injection E as <- <-|]. apply rbind_Ok in E as (y & _ & E). destruct y; by injection E as <- <-.
Qed.
Lemma readable_err a e p : readable a p -> readable (set_err a e) p.
Proof.
  intros (H1 & H2 & H3 & H4 & H5 & (it & H6 & H7) & (it' & H8 & H9)). unfold readable.
  unfold argus_is_set, argus_count, argus_array_it, argus_map_it in *. rewrite !lookup_err.
  split_and!; [exact H1|exact H2|exact H3|exact H4|exact H5|by exists it|by exists it'].
Qed.
Lemma free_from_err e t : forall n i a, free_options_from (set_err a e) t i n = (let* a' := free_options_from a t i n in Ok (set_err a' e)).
Proof.
  induction n as [|n IH]; intros i a; [done|]. cbn [free_options_from]. unfold free_option.
  change (get_option (set_err a e)) with (get_option a). destruct (get_option a t i) as [o|u]; [|done]. cbn [rbind].
  change (a_heap (set_err a e)) with (a_heap a). destruct (free_option_value _) as [[x s]|u]; [|done]. cbn [rbind].
  change (set_heap (put_option (set_err a e) t i (h_opt s)) (h_heap s)) with (set_err (set_heap (put_option a t i (h_opt s)) (h_heap s)) e).
  by rewrite IH.
Qed.
Lemma free_table_err e tp a : free_options (set_err a e) tp = (let* a' := free_options a tp in Ok (set_err a' e)).
Proof.
  unfold free_options. change (table_ptr tp (set_err a e)) with (table_ptr tp a). destruct (table_ptr tp a) as [T|u]; [|done]. cbn [rbind].
  destruct tp; [by rewrite free_from_err|done].
Qed.
Lemma free_stack_err e stk : forall a, free_stack (set_err a e) stk = (let* a' := free_stack a stk in Ok (set_err a' e)).
Proof.
  induction stk as [|r stk IH]; intros a; [done|]. cbn [free_stack].
  change (sub_of (set_err a e) r) with (sub_of a r). destruct (sub_of a r) as [s|u]; [|done]. cbn [rbind].
  rewrite free_table_err. destruct (free_options a s) as [a1|u]; [|done]. cbn [rbind]. by rewrite IH.
Qed.
Lemma free_err a e : argus_free (set_err a e) = (let* a' := argus_free a in Ok (set_err a' e)).
Proof.
  unfold argus_free. change (a_root (set_err a e)) with (a_root a). rewrite free_table_err.
  destruct (free_options a _) as [a1|u]; [|done]. cbn [rbind]. by rewrite free_stack_err.
Qed.

Section whole.
Context `{Libc}.
Lemma whole_safe a argv : accepted a -> no_strays (decls a) (a_root a) -> ready a ->
  (forall t i o, entry a t i o -> single_typed (decl_of o)) -> qsort_sorts -> harmless_input a argv ->
  exists o a', argus_parse a argv = Ok (o, a') /\
    (o = Returned 0 -> forall a2 p, accesses a' a2 -> readable a2 p) /\
    forall a2, accesses a' a2 -> exists a3, argus_free a2 = Ok a3 /\ argus_free a3 = Ok a3.
Proof.
  intros Ha Hn Hr Hs HQ Hh. destruct (parse_safe a argv Ha Hn Hr HQ Hh) as (o & a' & E & D & [(-> & its & Has & Hp & Hhold)|(Ho & Hab)]).
  - exists (Returned 0), a'. split; [done|]. assert (HP : parsed a argv its a') by (by constructor). split.
    + intros _ a2 p [e ->]%accesses_err. apply readable_err. by eapply read_safe.
    + intros a2 [e ->]%accesses_err. destruct (free_complete a argv its a' HP) as (a3 & F1 & F2 & _).
      exists (set_err a3 e). by rewrite !free_err, F1, F2.
  - exists o, a'. split; [done|]. split; [done|]. intros a2 [e ->]%accesses_err. destruct Hab as (S1 & R1 & Rel).
    exists (set_err a' e). rewrite free_err. by rewrite (argus_free_none a' S1 R1 Rel).
Qed.
End whole.
