(** * Values, memory, options, and the handler monad *)
From Verif Require Export CLib.

(** ** Outcomes *)

(** Kinds of undefined behaviour the model distinguishes. *)
Inductive ub :=
  | NullDeref        (* access through a null pointer *)
  | WildPtr          (* access through an integer that is not a pointer *)
  | OutOfBounds      (* access outside an allocated block or array *)
  | UseAfterFree     (* access to a released block *)
  | InvalidFree      (* free/realloc of a released block or of a non-heap pointer *)
  | UninitRead       (* read of bytes that were never written *)
  | TypeConfusion    (* a block used as another type, or a wrong void* argument *)
  | SignedOverflow   (* int arithmetic overflow *)
  | StackOverflow.   (* unbounded C recursion *)

Inductive res (A : Type) : Type :=
  | Ok (a : A)
  | UB (u : ub).
Arguments Ok {A} a.
Arguments UB {A} u.

Definition rbind {A B} (m : res A) (k : A -> res B) : res B :=
  match m with Ok a => k a | UB u => UB u end.
Notation "'let*' x := m 'in' k" := (rbind m (fun x => k))
  (at level 200, x pattern, m at level 200, k at level 200, right associativity).

(** ** The value union (includes/argus/types.h 122-143)

    [Raw w z]: the low [w] bytes are known and hold [z] (unsigned); writing a
    member leaves the other bytes unspecified (C11 6.2.6.1p7), so [as_bool]
    and [as_int] writes give [W1] and [W4].  [PLit s] is a pointer to a constant
    C string that is not on the heap (argv, environment, string literals);
    [PHeap l] a pointer to the start of heap block [l]; [Indet] fresh memory. *)
Inductive width := W1 | W4 | W8.
Inductive uval :=
  | Raw (w : width) (z : Z)
  | PLit (s : cstr)
  | PHeap (l : nat)
  | Indet.

Definition VNull : uval := Raw W8 0.
Definition of_int64 (z : Z) : uval := Raw W8 (z mod two64).
Definition of_int (z : Z) : uval := Raw W4 (z mod two32).
Definition of_bool (b : bool) : uval := Raw W1 (if b then 1 else 0).
Definition of_float (bits : Z) : uval := Raw W8 (bits mod two64).

(** Reading the members of the union.  The bytes of a pointer are unspecified
    when read as a number: [TypeConfusion]. *)
Definition as_int64 (v : uval) : res Z :=
  match v with
  | Raw W8 z => Ok (to_int64 z)
  | Raw _ _ | Indet => UB UninitRead
  | PLit _ | PHeap _ => UB TypeConfusion
  end.
Definition as_int (v : uval) : res Z :=
  match v with
  | Raw W8 z | Raw W4 z => Ok (to_int32 z)
  | Raw W1 _ | Indet => UB UninitRead
  | PLit _ | PHeap _ => UB TypeConfusion
  end.
Definition as_bool (v : uval) : res bool :=
  match v with
  | Raw _ z => Ok (negb (z mod 256 =? 0))
  | Indet => UB UninitRead
  | PLit _ | PHeap _ => UB TypeConfusion
  end.
Definition as_float (v : uval) : res Z :=
  match v with
  | Raw W8 z => Ok z
  | Raw _ _ | Indet => UB UninitRead
  | PLit _ | PHeap _ => UB TypeConfusion
  end.
(** [v.as_ptr == NULL] *)
Definition is_null (v : uval) : res bool :=
  match v with
  | Raw W8 z => Ok (z =? 0)
  | Raw _ _ | Indet => UB UninitRead
  | PLit _ | PHeap _ => Ok false
  end.

(** ** The heap

    Block addresses are never reused; [None] is a released block. [oom] decides
    the coming allocations ([true] = fails, exhausted = succeed). *)
Inductive block :=
  | BStr (s : cstr)                  (* char[] holding a terminated string *)
  | BArr (cells : list uval)         (* argus_value_t[] or char*[] *)
  | BMap (cells : list (uval * uval))(* argus_pair_t[]: key, value *)
  | BTmp.                            (* scratch memory whose contents are local *)

Record heap := Heap { blocks : list (option block); oom : list bool }.

Definition malloc (b : block) (h : heap) : option nat * heap :=
  match oom h with
  | true :: o => (None, Heap (blocks h) o)
  | false :: o => (Some (length (blocks h)), Heap (blocks h ++ [Some b]) o)
  | [] => (Some (length (blocks h)), Heap (blocks h ++ [Some b]) [])
  end.

Definition deref (v : uval) (h : heap) : res block :=
  match v with
  | PHeap l =>
      match blocks h !! l with
      | Some (Some b) => Ok b
      | _ => UB UseAfterFree
      end
  | PLit s => Ok (BStr s)
  | Raw W8 z => if z =? 0 then UB NullDeref else UB WildPtr
  | Raw _ _ | Indet => UB UninitRead
  end.

(** The C string [v.as_string] points to. *)
Definition deref_str (v : uval) (h : heap) : res cstr :=
  let* b := deref v h in
  match b with BStr s => Ok s | _ => UB TypeConfusion end.
Definition deref_arr (v : uval) (h : heap) : res (list uval) :=
  let* b := deref v h in
  match b with BArr cs => Ok cs | _ => UB TypeConfusion end.
Definition deref_map (v : uval) (h : heap) : res (list (uval * uval)) :=
  let* b := deref v h in
  match b with BMap cs => Ok cs | _ => UB TypeConfusion end.

(** Overwrite the block [v] points to (which must be live). *)
Definition store (v : uval) (b : block) (h : heap) : res heap :=
  match v with
  | PHeap l =>
      match blocks h !! l with
      | Some (Some _) => Ok (Heap (<[l := Some b]> (blocks h)) (oom h))
      | _ => UB UseAfterFree
      end
  | PLit _ => UB OutOfBounds
  | Raw W8 z => if z =? 0 then UB NullDeref else UB WildPtr
  | Raw _ _ | Indet => UB UninitRead
  end.

Definition free (v : uval) (h : heap) : res heap :=
  match v with
  | PHeap l =>
      match blocks h !! l with
      | Some (Some _) => Ok (Heap (<[l := None]> (blocks h)) (oom h))
      | _ => UB InvalidFree
      end
  | PLit _ => UB InvalidFree
  | Raw W8 z => if z =? 0 then Ok h else UB InvalidFree
  | Raw _ _ | Indet => UB UninitRead
  end.

(** [realloc (v, …)] of a non-null pointer; [grow] gives the contents of the new
    block.  On success the old address is invalid. *)
Definition realloc (v : uval) (grow : block -> res block) (h : heap)
  : res (option nat * heap) :=
  match v with
  | PHeap l =>
      match blocks h !! l with
      | Some (Some b) =>
          let* b' := grow b in
          match malloc b' h with
          | (Some l', h') => Ok (Some l', Heap (<[l := None]> (blocks h')) (oom h'))
          | (None, h') => Ok (None, h')
          end
      | _ => UB InvalidFree
      end
  | PLit _ => UB InvalidFree
  | Raw W8 _ => UB InvalidFree
  | Raw _ _ | Indet => UB UninitRead
  end.

(** ** Option tables (includes/argus/types.h 29-117, 174-295) *)

Inductive optype := TOption | TGroup | TPositional | TSubcommand.
Global Instance optype_eq_dec : EqDecision optype.
Proof. solve_decision. Defined.

(** Value types (types.h 29-63) and flags (types.h 80-117) are bit masks. *)
Definition VT_NONE : N := 0.
Definition VT_INT : N := 1.
Definition VT_STRING : N := 2.
Definition VT_FLOAT : N := 4.
Definition VT_BOOL : N := 8.
Definition VT_FLAG : N := 16.
Definition VT_ARRAY_STRING : N := 32.
Definition VT_ARRAY_INT : N := 64.
Definition VT_ARRAY_FLOAT : N := 128.
Definition VT_MAP_STRING : N := 256.
Definition VT_MAP_INT : N := 512.
Definition VT_MAP_FLOAT : N := 1024.
Definition VT_MAP_BOOL : N := 2048.
Definition VT_VARIADIC_STRING : N := 4096.
Definition VT_VARIADIC_INT : N := 8192.
Definition VT_VARIADIC_FLOAT : N := 16384.
Definition VT_CUSTOM : N := 32768.
Definition VT_ANY_NUMERIC : N := N.lor VT_INT VT_FLOAT.
Definition VT_PRIMITIVE : N := N.lor (N.lor VT_INT VT_STRING) (N.lor VT_FLOAT VT_BOOL).
Definition VT_ARRAY : N := N.lor VT_ARRAY_STRING (N.lor VT_ARRAY_INT VT_ARRAY_FLOAT).
Definition VT_MAP : N :=
  N.lor (N.lor VT_MAP_STRING VT_MAP_INT) (N.lor VT_MAP_FLOAT VT_MAP_BOOL).
Definition VT_VARIADIC : N :=
  N.lor VT_VARIADIC_STRING (N.lor VT_VARIADIC_INT VT_VARIADIC_FLOAT).

Definition FLAG_REQUIRED : N := 1.
Definition FLAG_HIDDEN : N := 2.
Definition FLAG_ADVANCED : N := 4.
Definition FLAG_DEPRECATED : N := 8.
Definition FLAG_EXPERIMENTAL : N := 16.
Definition FLAG_EXIT : N := 32.
Definition FLAG_ENV_OVERRIDE : N := 64.
Definition FLAG_AUTO_ENV : N := 128.
Definition FLAG_NO_ENV_PREFIX : N := 256.
Definition FLAG_SORTED : N := 512.
Definition FLAG_UNIQUE : N := 1024.
Definition FLAG_SORTED_VALUE : N := 2048.
Definition FLAG_SORTED_KEY : N := 4096.
Definition FLAG_UNIQUE_VALUE : N := 8192.
Definition FLAG_EXCLUSIVE : N := 16384.
Definition FLAG_OPTIONAL : N := 0.
Definition VERSIONING_FLAG_MASK : N := N.lor FLAG_DEPRECATED FLAG_EXPERIMENTAL.
Definition OPTION_FLAG_MASK : N :=
  N.lor FLAG_REQUIRED (N.lor FLAG_HIDDEN (N.lor FLAG_ADVANCED
    (N.lor FLAG_EXIT VERSIONING_FLAG_MASK))).
Definition OPTION_ARRAY_FLAG_MASK : N :=
  N.lor FLAG_SORTED (N.lor FLAG_UNIQUE VERSIONING_FLAG_MASK).
Definition OPTION_MAP_FLAG_MASK : N :=
  N.lor FLAG_SORTED_VALUE (N.lor FLAG_SORTED_KEY (N.lor FLAG_UNIQUE_VALUE
    VERSIONING_FLAG_MASK)).
Definition GROUP_FLAG_MASK : N := FLAG_EXCLUSIVE.
Definition POSITIONAL_FLAG_MASK : N := FLAG_REQUIRED.
Definition POSITIONAL_MANY_FLAG_MASK : N :=
  N.lor OPTION_ARRAY_FLAG_MASK (N.lor FLAG_REQUIRED FLAG_OPTIONAL).
Definition SUBCOMMAND_FLAG_MASK : N :=
  N.lor FLAG_HIDDEN (N.lor FLAG_ADVANCED VERSIONING_FLAG_MASK).

(** [flags & mask] as a truth value. *)
Definition has (flags mask : N) : bool := negb (N.eqb (N.land flags mask) 0).
(** [flags & ~mask] as a truth value. *)
Definition has_other (flags mask : N) : bool := negb (N.eqb (N.ldiff flags mask) 0).

(** ** Status codes (includes/argus/errors.h 19-64) *)
Definition SUCCESS : Z := 0.
Definition SHOULD_EXIT : Z := 1.
Definition STRUCT_ERROR : Z := 2.
Definition E_DUPLICATE_OPTION : Z := 3.
Definition E_INVALID_HANDLER : Z := 4.
Definition E_INVALID_DEFAULT : Z := 5.
Definition E_INVALID_GROUP : Z := 6.
Definition E_INVALID_DEPENDENCY : Z := 7.
Definition E_INVALID_FLAG : Z := 8.
Definition E_INVALID_POSITION : Z := 9.
Definition E_MALFORMED_OPTION : Z := 10.
Definition E_MISSING_HELP : Z := 11.
Definition E_INVALID_ARGUMENT : Z := 12.
Definition E_MISSING_VALUE : Z := 13.
Definition E_MISSING_REQUIRED : Z := 14.
Definition E_CONFLICTING_OPTIONS : Z := 15.
Definition E_INVALID_FORMAT : Z := 16.
Definition E_EXCLUSIVE_GROUP : Z := 17.
Definition E_INVALID_CHOICE : Z := 18.
Definition E_INVALID_RANGE : Z := 19.
Definition E_AMBIGUOUS_SUBCOMMAND : Z := 20.
Definition E_NO_COMMAND : Z := 21.
Definition E_NO_VALUE : Z := 22.
Definition E_INVALID_TYPE : Z := 23.
Definition E_INVALID_INDEX : Z := 24.
Definition E_INVALID_KEY : Z := 25.
Definition E_MEMORY : Z := 26.
Definition E_INTERNAL : Z := 27.
Definition E_UNSUPPORTED : Z := 28.
Definition E_INVALID_VALUE : Z := 29.
Definition E_STACK_OVERFLOW : Z := 30.

(** ** Callbacks

    The built-in handlers by name; a user handler is an arbitrary function of
    the text it receives and of the current value of its option, giving a
    status and the new value of the option (simplification: user code touches
    nothing else). *)
Inductive handler :=
  | HFlag | HBool | HString | HInt | HFloat
  | HArrayString | HArrayInt | HArrayFloat
  | HMapString | HMapInt | HMapFloat | HMapBool
  | HVariadicString | HVariadicInt | HVariadicFloat
  | HHelp | HVersion
  | HCustom (f : option cstr -> uval -> Z * uval).

Inductive free_handler_t :=
  | FDefault | FArrayString | FVariadicString
  | FMapString | FMapInt | FMapFloat | FMapBool.

(** Validators (types.h 177-241); a user pre-validator is a function of the text,
    a user post-validator a function of the value, count and set mark. *)
Inductive choices :=
  | ChStr (l : list cstr) | ChInt (l : list Z) | ChFloat (l : list Z).
Inductive vfun :=
  | VRange (min max : Z)
  | VLength (min max : Z)
  | VCount (min max : Z)
  | VRegex (pattern hint : option cstr)
  | VChoicesStr (l : list cstr)
  | VChoicesInt (l : list Z)
  | VChoicesFloat (l : list Z)
  | VCustomPre (f : option cstr -> Z)
  | VCustomPost (f : uval -> nat -> Z).
Inductive vorder := ORDER_PRE | ORDER_POST.
Record ventry := VEntry { v_fun : vfun; v_order : vorder }.

(** [argus_option_t] (types.h 246-288): the declared part, never written by
    the library … *)
Record decl := Decl {
  d_type : optype;
  d_name : option cstr;
  d_sname : ascii;               (* NUL = none *)
  d_lname : option cstr;
  d_help : option cstr;
  d_hint : option cstr;
  d_vtype : N;
  d_default : uval;
  d_have_default : bool;
  d_env_name : option cstr;
  d_handler : option handler;
  d_free : option free_handler_t;
  d_validators : option (list ventry);
  d_conflict : option (list cstr);
  d_require : option (list cstr);
  d_flags : N;
  d_action : option nat;         (* identifies the user's function *)
  d_sub : option nat;            (* number of the table sub_options points to *)
}.

(** … and the mutable part. *)
Record opt := Opt {
  decl_of : decl;
  value : uval;
  is_allocated : bool;
  value_count : nat;
  value_capacity : nat;
  is_set : bool;
}.

Definition with_value (o : opt) (v : uval) : opt :=
  Opt (decl_of o) v (is_allocated o) (value_count o) (value_capacity o) (is_set o).
Definition with_allocated (o : opt) (b : bool) : opt :=
  Opt (decl_of o) (value o) b (value_count o) (value_capacity o) (is_set o).
Definition with_count (o : opt) (n : nat) : opt :=
  Opt (decl_of o) (value o) (is_allocated o) n (value_capacity o) (is_set o).
Definition with_capacity (o : opt) (n : nat) : opt :=
  Opt (decl_of o) (value o) (is_allocated o) (value_count o) n (is_set o).
Definition with_set (o : opt) (b : bool) : opt :=
  Opt (decl_of o) (value o) (is_allocated o) (value_count o) (value_capacity o) b.

(** ** Observable events: diagnostics and screens (rendered in Messages.v and Display.v) *)

(** A format with its arguments, as handed to ARGUS_PARSING_ERROR (errors.h 119-132). *)
Inductive piece :=
  | MText (s : cstr)            (* literal text of the format *)
  | MStr (s : option cstr)     (* %s *)
  | MChr (c : ascii)           (* %c *)
  | MInt (z : Z)               (* %d, PRId64 *)
  | MFloat (f : Z)               (* %f *)
  | MChoices (f : vfun)        (* %s of format_choices_validator *)
  | MPcre (p : cstr).          (* what PCRE2 says about the pattern [p] *)
Notation message := (list piece).

Inductive event :=
  | EDiag (code : Z) (m : message)   (* ARGUS_PARSING_ERROR, errors.h 119-132 *)
  | EHelp (table : nat)       (* usage and help for a table *)
  | EVersion
  | EUsage                    (* usage line after a parse error *)
  | ECommands                 (* command overview, argus_exec.c 27, 31 *)
  | EAction (id : nat).       (* a user action was run, argus_exec.c 34 *)

(** ** The handler monad: the option being handled, the heap, the events so far *)
Record hst := Hst { h_opt : opt; h_heap : heap; h_log : list event }.
Definition HM (A : Type) := hst -> res (A * hst).
Definition hret {A} (a : A) : HM A := fun s => Ok (a, s).
Definition hbind {A B} (m : HM A) (k : A -> HM B) : HM B :=
  fun s => match m s with Ok (a, s') => k a s' | UB u => UB u end.
Notation "'let!' x := m 'in' k" := (hbind m (fun x => k))
  (at level 200, x pattern, m at level 200, k at level 200, right associativity).
Notation "m ;;; k" := (hbind m (fun _ => k)) (at level 199, right associativity).

Definition hub {A} (u : ub) : HM A := fun _ => UB u.
Definition hlift {A} (r : res A) : HM A :=
  fun s => match r with Ok a => Ok (a, s) | UB u => UB u end.
Definition get_opt : HM opt := fun s => Ok (h_opt s, s).
Definition mod_opt (f : opt -> opt) : HM unit :=
  fun s => Ok (tt, Hst (f (h_opt s)) (h_heap s) (h_log s)).
Definition get_heap : HM heap := fun s => Ok (h_heap s, s).
Definition put_heap (h : heap) : HM unit :=
  fun s => Ok (tt, Hst (h_opt s) h (h_log s)).
Definition emit (e : event) : HM unit :=
  fun s => Ok (tt, Hst (h_opt s) (h_heap s) (h_log s ++ [e])).

(** Heap operations in the monad. *)
Definition hmalloc (b : block) : HM (option nat) :=
  fun s => let '(r, h') := malloc b (h_heap s) in Ok (r, Hst (h_opt s) h' (h_log s)).
Definition hfree (v : uval) : HM unit :=
  fun s => match free v (h_heap s) with
           | Ok h' => Ok (tt, Hst (h_opt s) h' (h_log s))
           | UB u => UB u
           end.
Definition hstore (v : uval) (b : block) : HM unit :=
  fun s => match store v b (h_heap s) with
           | Ok h' => Ok (tt, Hst (h_opt s) h' (h_log s))
           | UB u => UB u
           end.
Definition hrealloc (v : uval) (grow : block -> res block) : HM (option nat) :=
  fun s => match realloc v grow (h_heap s) with
           | Ok (r, h') => Ok (r, Hst (h_opt s) h' (h_log s))
           | UB u => UB u
           end.
Definition hderef_str (v : uval) : HM cstr :=
  fun s => match deref_str v (h_heap s) with Ok a => Ok (a, s) | UB u => UB u end.
Definition hderef_arr (v : uval) : HM (list uval) :=
  fun s => match deref_arr v (h_heap s) with Ok a => Ok (a, s) | UB u => UB u end.
Definition hderef_map (v : uval) : HM (list (uval * uval)) :=
  fun s => match deref_map v (h_heap s) with Ok a => Ok (a, s) | UB u => UB u end.

(** Access to one cell of an array with bounds check. *)
Definition cell {A} (l : list A) (i : nat) : res A :=
  match l !! i with Some x => Ok x | None => UB OutOfBounds end.
Definition set_cell {A} (l : list A) (i : nat) (x : A) : res (list A) :=
  match l !! i with Some _ => Ok (<[i := x]> l) | None => UB OutOfBounds end.

(** ** The parser context (types.h 323-337)

    [a_tabs]: all option tables of the program; an option pointer is (table,
    index).  [a_stack]: the entries subcommand_stack[0 .. subcommand_depth-1]. *)
Record argus := Argus {
  a_tabs : list (list opt);
  a_root : nat;
  a_stack : list (nat * nat);
  a_err : Z;
  a_heap : heap;
  a_log : list event;
  a_prefix : option cstr;
}.
Definition MAX_SUBCOMMAND_DEPTH : nat := 8.

Definition set_tabs (a : argus) t := Argus t (a_root a) (a_stack a) (a_err a) (a_heap a) (a_log a) (a_prefix a).
Definition set_stack (a : argus) s := Argus (a_tabs a) (a_root a) s (a_err a) (a_heap a) (a_log a) (a_prefix a).
Definition set_err (a : argus) e := Argus (a_tabs a) (a_root a) (a_stack a) e (a_heap a) (a_log a) (a_prefix a).
Definition set_heap (a : argus) h := Argus (a_tabs a) (a_root a) (a_stack a) (a_err a) h (a_log a) (a_prefix a).
Definition add_log (a : argus) l := Argus (a_tabs a) (a_root a) (a_stack a) (a_err a) (a_heap a) (a_log a ++ l) (a_prefix a).

(** A diagnostic also sets error_code (errors.h 124). *)
Definition apply_event (a : argus) (e : event) : argus :=
  match e with
  | EDiag c _ => set_err (add_log a [e]) c
  | _ => add_log a [e]
  end.
Definition apply_events (a : argus) (l : list event) : argus := fold_left apply_event l a.
Definition diag (c : Z) (m : message) (a : argus) : argus := apply_event a (EDiag c m).

(** The table an option pointer or table pointer refers to. *)
Definition table (a : argus) (t : nat) : res (list opt) :=
  match a_tabs a !! t with Some T => Ok T | None => UB WildPtr end.
Definition table_ptr (p : option nat) (a : argus) : res (list opt) :=
  match p with Some t => table a t | None => UB NullDeref end.
Definition get_option (a : argus) (t i : nat) : res opt :=
  let* T := table a t in cell T i.
Definition put_option (a : argus) (t i : nat) (o : opt) : argus :=
  set_tabs a (alter (fun T => <[i := o]> T) t (a_tabs a)).
