(** * Specification: what an accepted option table looks like *)
From Verif Require Import Validate Api SpecGrammar SpecAfter.

(** Table [t] is the root or reached from it through subcommands. *)
Definition reachable (D : list (list decl)) (root t : nat) : Prop := t = root \/ way_down D root t.
(** There are no tables besides the reachable ones.  (In C, tables are found through pointers
    only; a list with further tables describes the same program.) *)
Definition no_strays (D : list (list decl)) (root : nat) : Prop :=
  forall t, is_Some (D !! t) -> reachable D root t.

(** ** Names *)
Record well_named (T : list decl) : Prop := WellNamed {
  (* every entry but groups has a name *)
  wn_name : forall d, d ∈ T -> d_type d <> TGroup -> exists n, d_name d = Some n /\ n <> [];
  (* no two entries share a short name *)
  wn_short : forall i j d e, i <> j -> T !! i = Some d -> T !! j = Some e ->
    d_sname d = d_sname e -> d_sname d = Ascii.zero;
  (* no two entries share a long name *)
  wn_long : forall i j d e l, i <> j -> T !! i = Some d -> T !! j = Some e ->
    d_lname d = Some l -> d_lname e <> Some l;
  (* the long name of an entry is not the name of a later one *)
  wn_later : forall i j d e l, (i < j)%nat -> T !! i = Some d -> T !! j = Some e ->
    d_lname d = Some l -> d_name e <> Some l;
  wn_long_chars : forall d l, d ∈ T -> d_lname d = Some l ->
    l <> [] /\ (forall s, l <> "-"%char :: s) /\ " "%char ∉ l /\ "."%char ∉ l;
  wn_short_chars : forall d, d ∈ T -> d_sname d <> " "%char /\ d_sname d <> "-"%char;
}.

(** ** Placement *)
Definition required (d : decl) : Prop := N.testbit (d_flags d) 0 = true.
Record well_placed (T : list decl) : Prop := WellPlaced {
  wp_help : exists d, d ∈ T /\ d_type d = TOption /\ d_name d = Some ($"help");
  (* no required positional after an optional one *)
  wp_optional : forall i j d e, (i < j)%nat -> T !! i = Some d -> T !! j = Some e ->
    positional d -> ~ required d -> positional e -> ~ required e;
  (* nothing positional after a required variadic one *)
  wp_variadic : forall i j d e, (i < j)%nat -> T !! i = Some d -> T !! j = Some e ->
    positional d -> required d -> variadic d -> ~ positional e;
  (* no subcommand beside a required single positional *)
  wp_mixed : forall d e, d ∈ T -> e ∈ T -> positional d -> required d -> ~ variadic d ->
    d_type e <> TSubcommand;
  (* options come before subcommands *)
  wp_options : forall i j d e, (i < j)%nat -> T !! i = Some d -> T !! j = Some e ->
    d_type d = TSubcommand -> d_type e <> TOption;
}.

(** ** Single entries *)

(** Flag bits: 0 REQUIRED, 1 HIDDEN, 2 ADVANCED, 3 DEPRECATED, 4 EXPERIMENTAL, 5 EXIT, 9 SORTED,
    10 UNIQUE, 11 SORTED_VALUE, 12 SORTED_KEY, 13 UNIQUE_VALUE, 14 EXCLUSIVE. *)
Definition flags_among (d : decl) (bits : list N) : Prop :=
  forall b, N.testbit (d_flags d) b = true -> b ∈ bits.

(** A default is not given to a flag (value type 16) and is accepted by the validators: those
    on the stored value always, those on the text for string options (value type 2). *)
Definition default_ok `{Libc} (o : opt) (h : heap) : Prop :=
  d_have_default (decl_of o) = true ->
  d_vtype (decl_of o) <> 16%N /\
  forall e, e ∈ validators (decl_of o) ->
    match v_order e with
    | ORDER_POST => accepts_option (v_fun e) o h
    | ORDER_PRE => d_vtype (decl_of o) = 2%N ->
        exists v, read_str h (d_default (decl_of o)) = Ok v /\ accepts_text (v_fun e) v
    end.

Record option_ok (T : list decl) (d : decl) : Prop := OptionOk {
  op_handler : is_Some (d_handler d);
  op_help : is_Some (d_help d);
  op_callable : d_sname d <> Ascii.zero \/ is_Some (d_lname d);
  op_known : forall n, n ∈ default [] (d_require d) \/ n ∈ default [] (d_conflict d) ->
    exists e, e ∈ T /\ d_name e = Some n;
  op_disjoint : forall n, n ∈ default [] (d_require d) -> n ∉ default [] (d_conflict d);
  (* flags are looked at only for these value types, which no macro gives to an option:
     15 = int or string or float or bool, 224 = any array, 3840 = any map *)
  op_flags : (d_vtype d = 15%N -> flags_among d [0; 1; 2; 3; 4; 5]%N) /\
    (d_vtype d = 224%N -> flags_among d [3; 4; 9; 10]%N) /\
    (d_vtype d = 3840%N -> flags_among d [3; 4; 11; 12; 13]%N);
}.
Record positional_ok (d : decl) : Prop := PositionalOk {
  po_handler : is_Some (d_handler d);
  po_help : is_Some (d_help d);
  po_name : is_Some (d_name d);
  po_default : required d -> d_have_default d = false;
  po_alone : d_require d = None /\ d_conflict d = None;
  po_flags : flags_among d [0]%N;
}.
Record subcommand_ok (d : decl) : Prop := SubcommandOk {
  su_table : is_Some (d_sub d);
  su_help : is_Some (d_help d);
  su_name : is_Some (d_name d);
  su_bare : d_handler d = None /\ d_require d = None /\ d_conflict d = None /\
    d_validators d = None /\ d_have_default d = false;
  su_flags : flags_among d [1; 2; 3; 4]%N;
}.
Definition entry_ok `{Libc} (T : list decl) (o : opt) (h : heap) : Prop :=
  let d := decl_of o in
  match d_type d with
  | TOption => option_ok T d /\ default_ok o h
  | TPositional => positional_ok d /\ default_ok o h
  | TSubcommand => subcommand_ok d
  | TGroup => flags_among d [14]%N
  end.

Record table_ok `{Libc} (T : list opt) (h : heap) : Prop := TableOk {
  to_named : well_named (map decl_of T);
  to_placed : well_placed (map decl_of T);
  to_entries : forall o, o ∈ T -> entry_ok (map decl_of T) o h;
}.

(** ** The whole description *)

(** Every table that the root leads to exists and is in order, and no way down is longer than
    8 subcommands. *)
Record structure_ok `{Libc} (a : argus) : Prop := StructureOk {
  so_tables : forall t, reachable (decls a) (a_root a) t ->
    exists T, a_tabs a !! t = Some T /\ table_ok T (a_heap a);
  so_depth : forall stk, chain (decls a) (a_root a) stk -> (length stk <= 8)%nat;
}.
(** The context returned by argus_init, before the first parse; the program may have set the
    prefix of its environment variables. *)
Definition accepted `{Libc} (a : argus) : Prop :=
  exists fuel tabs root prefix, argus_init fuel tabs root 0 = Ok (Some (make_argus tabs root None), O) /\
    a = make_argus tabs root prefix.
