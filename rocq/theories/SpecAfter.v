(** * Specification: what holds after the command line has been read

    Environment, required entries, dependencies, exclusive groups, validators.  Only records of
    the model and the readers of the value union ([as_int], [as_float], [deref_str]) are used. *)
From Verif Require Import Api SpecGrammar.

(** ** Tables in play: the root table and the tables of the selected subcommands *)

(** The table that the entry [r] of the declared tables leads to. *)
Definition subtable (D : list (list decl)) (r : nat * nat) : option nat :=
  match D !! fst r with
  | Some T => match T !! snd r with Some d => d_sub d | None => None end
  | None => None
  end.
Definition in_play (a : argus) (t : nat) : Prop :=
  t = a_root a \/ exists r, r ∈ a_stack a /\ subtable (decls a) r = Some t.
(** Entry [i] of table [t] is [o]. *)
Definition entry (a : argus) (t i : nat) (o : opt) : Prop :=
  exists T, a_tabs a !! t = Some T /\ T !! i = Some o.

(** ** Kinds of entries *)
Definition group_entry (o : opt) : Prop := d_type (decl_of o) = TGroup.
(** flag bit 0: REQUIRED, bit 5: EXIT, bit 6: ENV_OVERRIDE, bit 7: AUTO_ENV,
    bit 8: NO_ENV_PREFIX, bit 14: EXCLUSIVE *)
Definition flag (b : N) (o : opt) : Prop := N.testbit (d_flags (decl_of o)) b = true.
Definition required_positional (o : opt) : Prop := d_type (decl_of o) = TPositional /\ flag 0 o.
Definition exclusive_group (o : opt) : Prop := group_entry o /\ flag 14 o.

(** Entry [i] belongs to the group opened by entry [g]: no group entry in between. *)
Definition member (T : list opt) (g i : nat) : Prop :=
  (g < i)%nat /\ forall k o, (g < k <= i)%nat -> T !! k = Some o -> ~ group_entry o.
(** An earlier member of the exclusive group of entry [i] is set. *)
Definition rival (T : list opt) (i : nat) : Prop :=
  exists g G j o, T !! g = Some G /\ exclusive_group G /\ member T g i /\
    (g < j < i)%nat /\ T !! j = Some o /\ is_set o = true.

(** ** Validators *)

(** A validator that looks at the text accepts it. *)
Definition accepts_text `{Libc} (f : vfun) (v : option cstr) : Prop :=
  match f with
  | VRegex p _ => regex_enabled = true /\
      exists q s, p = Some q /\ v = Some s /\ regex_match q s = RxMatch
  | VCustomPre g => g v = 0
  | _ => False
  end.
(** A validator that looks at the stored value accepts it. *)
Definition accepts_option (f : vfun) (o : opt) (h : heap) : Prop :=
  match f with
  | VRange a b => exists x, as_int (value o) = Ok x /\ a <= x <= b
  | VLength a b => exists s, is_null (value o) = Ok false /\ deref_str (value o) h = Ok s /\
      0 <= a /\ a <= Z.of_nat (length s) <= b
  | VCount a b => 0 <= a /\ a <= Z.of_nat (value_count o) <= b
  | VChoicesStr l => exists s, deref_str (value o) h = Ok s /\ s ∈ l
  | VChoicesInt l => exists x, as_int (value o) = Ok x /\ x ∈ l
  | VChoicesFloat l => exists x c, as_float (value o) = Ok x /\ c ∈ l /\ feq x c = true
  | VCustomPost g => g (value o) (value_count o) = 0
  | _ => False
  end.
Definition validators (d : decl) : list ventry := default [] (d_validators d).

(** ** Dependencies *)
Definition named (n : cstr) (o : opt) : Prop := d_name (decl_of o) = Some n.
(** The entry called [n] (the first, if there are several) is set. *)
Definition set_in (T : list opt) (n : cstr) : Prop :=
  exists i o, first (named n) T i /\ T !! i = Some o /\ is_set o = true.
Definition unset_in (T : list opt) (n : cstr) : Prop :=
  exists i o, first (named n) T i /\ T !! i = Some o /\ is_set o = false.

(** ** An entry in order, and what can be wrong with it *)
Definition validated (h : heap) (o : opt) : Prop :=
  forall e, e ∈ validators (decl_of o) -> v_order e = ORDER_POST -> accepts_option (v_fun e) o h.
Record in_order (h : heap) (T : list opt) (i : nat) (o : opt) : Prop := InOrder {
  io_required : required_positional o -> is_set o = true;
  io_exclusive : is_set o = true -> ~ rival T i;
  io_validated : ~ group_entry o -> is_set o = true -> validated h o;
  io_requires : ~ group_entry o -> is_set o = true ->
    forall n, n ∈ default [] (d_require (decl_of o)) -> ~ unset_in T n;
  io_conflicts : ~ group_entry o -> is_set o = true ->
    forall n, n ∈ default [] (d_conflict (decl_of o)) -> ~ set_in T n;
}.

(** The status with which a validator refuses the stored value. *)
Definition refuses_with (f : vfun) (o : opt) (h : heap) (c : Z) : Prop :=
  ~ accepts_option f o h /\
  match f with
  | VRange _ _ | VCount _ _ => c = 19
  | VLength _ _ => c = match is_null (value o) with Ok true => 29 | _ => 19 end
  | VChoicesStr _ | VChoicesInt _ | VChoicesFloat _ => c = 18
  | VCustomPost g => c = g (value o) (value_count o)
  | _ => False
  end.
(** The first validator of [o] that refuses does so with status [c]. *)
Definition refused (h : heap) (o : opt) (c : Z) : Prop :=
  exists l1 e l2, validators (decl_of o) = l1 ++ e :: l2 /\ v_order e = ORDER_POST /\
    refuses_with (v_fun e) o h c /\
    forall e', e' ∈ l1 -> v_order e' = ORDER_POST -> accepts_option (v_fun e') o h.

(** [problem h T i o c]: entry [i] is not in order and [c] is the error that says why
    (14 missing required, 15 conflict, 17 exclusive group, else the validator's status). *)
Inductive problem (h : heap) (T : list opt) (i : nat) (o : opt) : Z -> Prop :=
  | pb_missing : required_positional o -> is_set o = false -> problem h T i o 14
  | pb_exclusive : ~ group_entry o -> is_set o = true -> rival T i -> problem h T i o 17
  | pb_validator c : ~ group_entry o -> is_set o = true -> ~ rival T i ->
      refused h o c -> problem h T i o c
  | pb_require n : ~ group_entry o -> is_set o = true -> ~ rival T i -> validated h o ->
      n ∈ default [] (d_require (decl_of o)) -> unset_in T n -> problem h T i o 14
  | pb_conflict n : ~ group_entry o -> is_set o = true -> ~ rival T i -> validated h o ->
      (forall n, n ∈ default [] (d_require (decl_of o)) -> ~ unset_in T n) ->
      n ∈ default [] (d_conflict (decl_of o)) -> set_in T n -> problem h T i o 15.

(** Every entry that is not a group has a name (the structure check makes sure of it). *)
Definition all_named (T : list opt) : Prop :=
  forall o, o ∈ T -> ~ group_entry o -> is_Some (d_name (decl_of o)).

(** All entries of a table are in order. *)
Definition table_in_order (h : heap) (T : list opt) : Prop :=
  forall i o, T !! i = Some o -> in_order h T i o.
(** The tables in play, the root first, then along the command stack. *)
Definition tables_in_play (a : argus) : list nat :=
  a_root a :: omap (subtable (decls a)) (a_stack a).
(** Going through the tables in play in declaration order, the first entry that is not in order
    has problem [c]. *)
Definition first_problem (a : argus) (c : Z) : Prop :=
  exists (k t : nat) (T : list opt) (i : nat) (o : opt),
    tables_in_play a !! k = Some t /\ a_tabs a !! t = Some T /\ T !! i = Some o /\
    problem (a_heap a) T i o c /\
    (forall j p, (j < i)%nat -> T !! j = Some p -> in_order (a_heap a) T j p) /\
    (forall (k' t' : nat) (T' : list opt), (k' < k)%nat -> tables_in_play a !! k' = Some t' ->
       a_tabs a !! t' = Some T' -> table_in_order (a_heap a) T').

(** ** Selected subcommands *)

(** The subcommands selected by a list of items. *)
Definition entered (its : list item) : list (nat * nat) :=
  omap (fun x => match x with Enter t i => Some (t, i) | _ => None end) its.
(** [stk] leads from table [t] downwards, each entry to an existing table. *)
Fixpoint chain (D : list (list decl)) (t : nat) (stk : list (nat * nat)) : Prop :=
  match stk with
  | [] => True
  | r :: stk' => exists T d t', fst r = t /\ D !! t = Some T /\ T !! snd r = Some d /\
      d_type d = TSubcommand /\ d_sub d = Some t' /\ is_Some (D !! t') /\ chain D t' stk'
  end.
(** A subcommand of table [t] leads to table [t']. *)
Definition below (D : list (list decl)) (t t' : nat) : Prop :=
  exists T i d, D !! t = Some T /\ T !! i = Some d /\ d_type d = TSubcommand /\ d_sub d = Some t'.
Inductive way_down (D : list (list decl)) (t : nat) : nat -> Prop :=
  | wd_one t' : below D t t' -> way_down D t t'
  | wd_more t' t'' : below D t t' -> way_down D t' t'' -> way_down D t t''.
(** No way leads down from a table back to itself (tables that [root] does not lead to do not
    matter). *)
Definition acyclic (D : list (list decl)) (root : nat) : Prop :=
  forall t, t = root \/ way_down D root t -> ~ way_down D t t.

(** ** The environment *)

(** Letters are changed to upper case and '-' to '_'. *)
Definition lower_chars : cstr := $"abcdefghijklmnopqrstuvwxyz-".
Definition upper_chars : cstr := $"ABCDEFGHIJKLMNOPQRSTUVWXYZ_".
Definition upper_case (c : ascii) : ascii :=
  match list_find (eq c) lower_chars with
  | Some (i, _) => default c (upper_chars !! i)
  | None => c
  end.
(** The program's prefix, separated by one '_', in front of a name. *)
Definition prefixed (prefix : option cstr) (n : cstr) : cstr :=
  match prefix with
  | None | Some [] => n
  | Some p => if bool_decide (last p = Some "_"%char) then p ++ n else p ++ "_"%char :: n
  end.
(** [e] begins with the prefix. *)
Definition has_prefix (prefix : option cstr) (e : cstr) : bool :=
  match prefix with Some p => bool_decide (p `prefix_of` e) | None => false end.
(** The variable consulted for an option (names are cut to 127 characters). *)
Definition env_variable (prefix : option cstr) (d : decl) : option cstr :=
  let noprefix := N.testbit (d_flags d) 8 in
  match d_env_name d with
  | Some e =>
      if noprefix || has_prefix prefix e then Some e
      else Some (take 127 (prefixed prefix e))
  | None =>
      if N.testbit (d_flags d) 7 then
        let n := match d_name d with Some n => n | None => default [] (d_lname d) end in
        Some (map upper_case (take 127 (if noprefix then n else prefixed prefix n)))
      else None
  end.

(** The text the environment supplies for an option in state [o]. *)
Definition from_env `{Libc} (prefix : option cstr) (o : opt) : option cstr :=
  match d_type (decl_of o) with
  | TGroup | TSubcommand => None
  | _ =>
      if is_set o && negb (N.testbit (d_flags (decl_of o)) 6) then None
      else match env_variable prefix (decl_of o) with Some n => getenv n | None => None end
  end.
Fixpoint env_calls `{Libc} (prefix : option cstr) (t i : nat) (T : list opt) : list item :=
  match T with
  | [] => []
  | o :: T' =>
      match from_env prefix o with Some v => [Call t i (Some v)] | None => [] end ++
      env_calls prefix t (S i) T'
  end.
(** … for all tables in play. *)
Definition env_items `{Libc} (a : argus) : list item :=
  concat (map (fun t => env_calls (a_prefix a) t 0 (default [] (a_tabs a !! t)))
              (tables_in_play a)).

(** ** The whole parse *)

(** A context that has not been parsed with, over tables that passed the structure check
    (of which only this much is needed here; see C42 and C41 for that it follows). *)
Record fresh (a : argus) : Prop := Fresh {
  f_stack : a_stack a = [];
  f_err : a_err a = 0;
  f_root : is_Some (decls a !! a_root a);
  f_subs : subs_present (decls a);
  f_acyclic : acyclic (decls a) (a_root a);
  f_named : forall t T, a_tabs a !! t = Some T -> all_named T;
}.

(** Everything a command line and the environment assign, in order. *)
Definition assigned `{Libc} (a : argus) (argv : list cstr) (its : list item) : Prop :=
  exists its1 a1, reads (decls a) (a_root a) 0 false argv its1 /\ perform a its1 = Ok (0, a1) /\
    its = its1 ++ env_items a1.

(** An item concerns entry [i] of table [t]. *)
Definition touches (t i : nat) (x : item) : Prop :=
  (exists v, x = Call t i v) \/ x = Enter t i.

(** ** Lookup by path *)

(** Each selected subcommand has a name and leads to an existing table. *)
Definition well_stacked (a : argus) : Prop :=
  is_Some (decls a !! a_root a) /\
  forall r, r ∈ a_stack a -> exists T d t, decls a !! fst r = Some T /\ T !! snd r = Some d /\
    is_Some (d_name d) /\ d_sub d = Some t /\ is_Some (decls a !! t).
(** The entry called [n] in table [t] is number [i]. *)
Definition finds (a : argus) (t : nat) (n : cstr) (i : nat) : Prop :=
  exists T, a_tabs a !! t = Some T /\ first (named n) T i.
(** The innermost table in play that knows the name [n] is [t], and there it is entry [i]. *)
Definition finds_inside (a : argus) (n : cstr) (t i : nat) : Prop :=
  exists k, tables_in_play a !! k = Some t /\ finds a t n i /\
    forall k' t' j, (k < k')%nat -> tables_in_play a !! k' = Some t' -> ~ finds a t' n j.
(** The path [c1.c2.….n] *)
Definition dotted (cs : list cstr) (n : cstr) : cstr :=
  concat (map (fun c => c ++ ["."%char]) cs) ++ n.
(** The [k]-th selected subcommand is called [c]. *)
Definition selected_name (a : argus) (k : nat) (c : cstr) : Prop :=
  exists r T d, a_stack a !! k = Some r /\ decls a !! fst r = Some T /\ T !! snd r = Some d /\
    d_name d = Some c.
