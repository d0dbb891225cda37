(** * Specification: what a program reads back from array and map options *)
From Verif Require Import Api SpecGrammar SpecAfter SpecStructure SpecValues SpecMemory SpecContents SpecSafe.

Section collections.
Context `{Libc}.

(** A successful parse under the conditions of C34, which gave the options the texts of [its]. *)
Record parsed (a : argus) (argv : list cstr) (its : list item) (a' : argus) : Prop := Parsed {
  ps_accepted : accepted a;
  ps_strays : no_strays (decls a) (a_root a);
  ps_ready : ready a;
  ps_qsort : qsort_sorts;
  ps_harmless : harmless_input a argv;
  ps_parse : argus_parse a argv = Ok (Returned 0, a');
  ps_items : assigned a argv its;
}.
(** The path [p] leads to entry [i] of table [t], declared as [d] with handler [f] (see C30). *)
Definition shows (a a' : argus) (p : option cstr) (t i : nat) (d : decl) (f : handler) : Prop :=
  find_option_by_active_path a' p = Ok (Some (t, i)) /\
  exists o, entry a t i o /\ decl_of o = d /\ d_handler d = Some f.

(** ** Reading arrays and maps *)

(** Read through path [p], the array is [c]: its length, every element, and the error 24 at any
    other index. *)
Definition array_reads (a : argus) (p : option cstr) (c : list elem) : Prop :=
  argus_count a p = Ok (length c) /\
  (forall j e, c !! j = Some e -> exists x, argus_array_get a p j = Ok (x, a) /\ holds (a_heap a) x e) /\
  (forall j, (length c <= j)%nat -> argus_array_get a p j = Ok (VNull, set_err a E_INVALID_INDEX)).
(** Read through path [p], the map is [c]. *)
Definition map_reads (a : argus) (p : option cstr) (c : list (cstr * elem)) : Prop :=
  argus_count a p = Ok (length c) /\
  (forall k e, (k, e) ∈ c -> exists x, argus_map_get a p k = Ok (x, a) /\ holds (a_heap a) x e) /\
  (forall k, k ∉ map fst c -> argus_map_get a p k = Ok (VNull, set_err a E_INVALID_KEY)).

(** [array_visits h it xs it']: calling argus_array_next repeatedly succeeds [length xs] times and
    presents [xs]. *)
Inductive array_visits (h : heap) : option array_it -> list uval -> option array_it -> Prop :=
  | av_none it : array_visits h it [] it
  | av_next it it1 xs it' :
      argus_array_next h it = Ok (true, Some it1) -> array_visits h (Some it1) xs it' ->
      array_visits h it (it_value it1 :: xs) it'.
Inductive map_visits (h : heap) : option map_it -> list (uval * uval) -> option map_it -> Prop :=
  | mv_none it : map_visits h it [] it
  | mv_next it it1 xs it' :
      argus_map_next h it = Ok (true, Some it1) -> map_visits h (Some it1) xs it' ->
      map_visits h it ((mt_key it1, mt_value it1) :: xs) it'.

(** ** Elements and pairs of texts *)

(** The pair [p] written as [w]. *)
Definition pair_text (f : handler) (w : cstr) (p : cstr * elem) : Prop :=
  exists v, key_value w (fst p) v /\ map_value f v = Some (snd p).
(** The pairs of one text of a map option, in order. *)
Definition pairs_text (f : handler) (v : cstr) (ps : list (cstr * elem)) : Prop :=
  exists ws, elements v ws /\ Forall2 (pair_text f) ws ps.
(** The value of the last pair with key [k]. *)
Definition last_value (k : cstr) (ps : list (cstr * elem)) : option elem :=
  last (omap (fun p => if bool_decide (fst p = k) then Some (snd p) else None) ps).
(** The distinct members of a list in order of their first appearance. *)
Definition first_appearances {X} (l r : list X) : Prop :=
  NoDup r /\ (forall x, x ∈ r <-> x ∈ l) /\
  (forall i j x y, (i < j)%nat -> r !! i = Some x -> r !! j = Some y ->
     exists l1 l2, l = l1 ++ x :: l2 /\ x ∉ l1 /\ y ∉ l1).
(** What the flags SORTED and UNIQUE leave of the numbers [l]. *)
Definition treated (sorted unique : bool) (l r : list Z) : Prop :=
  match sorted, unique with
  | false, false => r = l
  | true, false => Permutation l r /\ forall i j x y, (i < j)%nat -> r !! i = Some x -> r !! j = Some y -> x <= y
  | false, true => first_appearances l r
  | true, true => (forall x, x ∈ r <-> x ∈ l) /\ forall i j x y, (i < j)%nat -> r !! i = Some x -> r !! j = Some y -> x < y
  end.

(** ** Memory *)

(** No map option is given the same key twice. *)
Definition keys_once (a : argus) (its : list item) : Prop :=
  forall t i o f k pss, entry a t i o -> d_handler (decl_of o) = Some f -> map_handler f = Some k ->
    Forall2 (pairs_text f) (texts t i its) pss -> NoDup (map fst (concat pss)).
Definition no_live_block (a : argus) : Prop := forall l b, blocks (a_heap a) !! l <> Some (Some b).
(** Options with handlers for single values do not have the value type of a list. *)
Definition single_typed (d : decl) : Prop :=
  shape_of d = Plain -> has (d_vtype d) (N.lor VT_ARRAY VT_VARIADIC) = false /\ has (d_vtype d) VT_MAP = false.
(** Reading through path [p], in whatever way, is defined. *)
Definition readable (a : argus) (p : option cstr) : Prop :=
  (exists r, argus_get a p = Ok r) /\ (exists r, argus_is_set a p = Ok r) /\ (exists r, argus_count a p = Ok r) /\
  (forall j, exists r, argus_array_get a p j = Ok r) /\ (forall k, exists r, argus_map_get a p k = Ok r) /\
  (exists it, argus_array_it a p = Ok it /\ forall xs it', array_visits (a_heap a) (Some it) xs it' ->
     exists r, argus_array_next (a_heap a) it' = Ok r) /\
  (exists it, argus_map_it a p = Ok it /\ forall xs it', map_visits (a_heap a) (Some it) xs it' ->
     exists r, argus_map_next (a_heap a) it' = Ok r).
End collections.

(** ** Integer ranges *)

(** One element of the text of an integer array: a number, or two numbers joined by '-' or ':'. *)
Definition in_32_bits (n : Z) : Prop := - 2 ^ 31 <= n < 2 ^ 31.
(** The integers from [a] to [b]. *)
Definition from_to (a b : Z) : list Z := map (fun i => a + Z.of_nat i) (seq 0 (Z.to_nat (b - a + 1))).
Inductive int_part : cstr -> list Z -> Prop :=
  | ip_number n : in_32_bits n -> int_part (decimal_text n) [n]
  | ip_range a b c : in_32_bits a -> in_32_bits b -> c = "-"%char \/ c = ":"%char ->
      int_part (decimal_text a ++ c :: decimal_text b) (from_to (Z.min a b) (Z.max a b)).
Definition int_texts (v : cstr) (ns : list Z) : Prop :=
  exists ws nss, elements v ws /\ Forall2 int_part ws nss /\ ns = concat nss.
(** Read through path [p], the array of C ints is [ns]. *)
Definition ints_read (a : argus) (p : option cstr) (ns : list Z) : Prop :=
  argus_count a p = Ok (length ns) /\
  forall j n, ns !! j = Some n -> exists x, argus_array_get a p j = Ok (x, a) /\ as_int x = Ok n.

(** ** Sequences of reads *)

(** [accesses a a2]: the context after any calls of the access functions that keep state. *)
Inductive accesses : argus -> argus -> Prop :=
  | ac_none a : accesses a a
  | ac_get a p x a1 a2 : argus_get a p = Ok (x, a1) -> accesses a1 a2 -> accesses a a2
  | ac_array a p j x a1 a2 : argus_array_get a p j = Ok (x, a1) -> accesses a1 a2 -> accesses a a2
  | ac_map a p k x a1 a2 : argus_map_get a p k = Ok (x, a1) -> accesses a1 a2 -> accesses a a2.
