(** * Specification: the grammar of command lines

    What a command line means, given the declared tables only.  Nothing here uses the
    functions of the model that read arguments or search tables; only the records that
    describe declarations and [execute_callbacks] (what processing one pair does) are shared. *)
From Verif Require Import Parse.

(** The declared part of all tables of a context. *)
Definition decls (a : argus) : list (list decl) := map (map decl_of) (a_tabs a).

(** ** Searching a table *)

(** [i] is the first entry of [l] with property [P]. *)
Definition first {A} (P : A -> Prop) (l : list A) (i : nat) : Prop :=
  exists x, l !! i = Some x /\ P x /\ forall j y, (j < i)%nat -> l !! j = Some y -> ~ P y.
Definition nowhere {A} (P : A -> Prop) (l : list A) : Prop := forall x, x ∈ l -> ~ P x.

Definition long_named (n : cstr) (d : decl) : Prop := d_type d = TOption /\ d_lname d = Some n.
Definition short_named (c : ascii) (d : decl) : Prop := d_type d = TOption /\ d_sname d = c.
(** A flag takes no value; value type 16 is VALUE_TYPE_FLAG. *)
Definition flag_option (d : decl) : Prop := d_vtype d = 16%N.

Definition positional (d : decl) : Prop := d_type d = TPositional.
(** The three variadic value types are bits 12, 13, 14; INT and FLOAT are bits 0 and 2. *)
Definition variadic (d : decl) : Prop :=
  N.testbit (d_vtype d) 12 = true \/ N.testbit (d_vtype d) 13 = true \/
  N.testbit (d_vtype d) 14 = true.
Definition numeric (d : decl) : Prop :=
  N.testbit (d_vtype d) 0 = true \/ N.testbit (d_vtype d) 2 = true.

(** Number of positionals among the first [i] entries. *)
Definition positionals_before (T : list decl) (i : nat) : nat :=
  length (List.filter (fun d => bool_decide (d_type d = TPositional)) (take i T)).

(** Entry [i] receives the positional argument number [k] (from 0): it is the [k]-th declared
    positional, or a variadic one declared at or before that place. *)
Definition receives (T : list decl) (k i : nat) : Prop :=
  exists d, T !! i = Some d /\ positional d /\
    (forall j e, (j < i)%nat -> T !! j = Some e -> positional e -> ~ variadic e) /\
    (positionals_before T i = k \/ (variadic d /\ (positionals_before T i <= k)%nat)).
Definition no_receiver (T : list decl) (k : nat) : Prop := forall i, ~ receives T k i.

(** ** Subcommand selection *)
Definition sub_match (w : cstr) (d : decl) : Prop :=
  d_type d = TSubcommand /\ exists r, d_name d = Some (w ++ r).
Definition sub_exact (w : cstr) (d : decl) : Prop :=
  d_type d = TSubcommand /\ d_name d = Some w.
(** The first matching entry is chosen if it matches exactly or is the only match. *)
Definition selects (T : list decl) (w : cstr) (i : nat) : Prop :=
  first (sub_match w) T i /\
  ((exists d, T !! i = Some d /\ sub_exact w d) \/
   (forall j d, T !! j = Some d -> sub_match w d -> j = i)).
(** [i] is the first matching entry, without matching exactly, and [j] the second one. *)
Definition ambiguous (T : list decl) (w : cstr) (i j : nat) : Prop :=
  exists d e, first (sub_match w) T i /\ T !! i = Some d /\ ~ sub_exact w d /\
    (i < j)%nat /\ T !! j = Some e /\ sub_match w e /\
    (forall k f, (i < k < j)%nat -> T !! k = Some f -> ~ sub_match w f).
Definition no_subcommand (T : list decl) (w : cstr) : Prop := nowhere (sub_match w) T.

(** ** Words *)
Definition digits : cstr := $"0123456789".
(** the text after '-' of a negative number: digit, or dot and digit *)
Definition negative_tail (s : cstr) : Prop :=
  (exists c r, s = c :: r /\ c ∈ digits) \/
  (exists c r, s = "."%char :: c :: r /\ c ∈ digits).
(** The next positional in line is numeric and the word looks like a negative number. *)
Definition negative_for (T : list decl) (k : nat) (s : cstr) : Prop :=
  negative_tail s /\ exists i d, receives T k i /\ T !! i = Some d /\ numeric d.

(** ** What a command line asks for *)
Inductive item :=
  | Call (t i : nat) (v : option cstr)   (* give text [v] to option (t, i) *)
  | Enter (t i : nat)                    (* select subcommand (t, i) *)
  | Reject (code : Z) (m : message).     (* fail with an explanation *)

(** The explanations. *)
Definition quoted (before : cstr) (p : piece) : message := [MText (before ++ $"'"); p; MText $"'"].
Definition quoted_long (before name : cstr) : message := [MText (before ++ $"'--"); MStr (Some name); MText $"'"].
Definition quoted_short (before : cstr) (c : ascii) : message := [MText (before ++ $"'-"); MChr c; MText $"'"].
Definition two_matches (w : cstr) (d e : decl) : message :=
  [MText $"'"; MStr (Some w); MText ($"' is ambigous and could match:" ++ ["010"%char] ++ $"  '"); MStr (d_name d);
   MText $"' - "; MStr (d_help d); MText (["010"%char] ++ $"  '"); MStr (d_name e); MText $"' - "; MStr (d_help e)].

(** A short cluster [chars] followed by the arguments [rest]: the items and the arguments
    left ([None] after a rejection). *)
Inductive cluster (T : list decl) (t : nat) (rest : list cstr)
  : cstr -> list item -> option (list cstr) -> Prop :=
  | cl_end : cluster T t rest [] [] (Some rest)
  | cl_flag c cs i d its r :
      first (short_named c) T i -> T !! i = Some d -> flag_option d ->
      cluster T t rest cs its r ->
      cluster T t rest (c :: cs) (Call t i None :: its) r
  | cl_attached c v i d :
      first (short_named c) T i -> T !! i = Some d -> ~ flag_option d -> v <> [] ->
      cluster T t rest (c :: v) [Call t i (Some v)] (Some rest)
  | cl_separate c i d v rest' :
      first (short_named c) T i -> T !! i = Some d -> ~ flag_option d -> rest = v :: rest' ->
      cluster T t rest [c] [Call t i (Some v)] (Some rest')
  | cl_missing c i d :
      first (short_named c) T i -> T !! i = Some d -> ~ flag_option d -> rest = [] ->
      cluster T t rest [c] [Reject E_MISSING_VALUE (quoted_short $"Missing value for option: " c)] None
  | cl_unknown c cs :
      nowhere (short_named c) T ->
      cluster T t rest (c :: cs) [Reject E_INVALID_ARGUMENT (quoted_short $"Unknown option: " c)] None.

(** [reads D t k only argv items]: in table [t] of [D], with [k] positional arguments already
    consumed and [--] seen or not, the arguments [argv] ask for [items].
    Long names are compared after cutting the typed name to 63 characters. *)
Definition key63 (n : cstr) : cstr := take 63 n.

Inductive reads (D : list (list decl)) : nat -> nat -> bool -> list cstr -> list item -> Prop :=
  | r_end t k only : reads D t k only [] []
  | r_dashes t k only rest its :
      reads D t k true rest its -> reads D t k only ($"--" :: rest) its
  (* after -- *)
  | r_raw t T k w i rest its :
      D !! t = Some T -> w <> $"--" -> receives T k i ->
      reads D t (S k) true rest its ->
      reads D t k true (w :: rest) (Call t i (Some w) :: its)
  | r_raw_extra t T k w rest :
      D !! t = Some T -> w <> $"--" -> no_receiver T k ->
      reads D t k true (w :: rest) [Reject E_INVALID_ARGUMENT (quoted $"Unknown positional: " (MStr (Some w)))]
  (* long options *)
  | r_long_flag t T k name suffix i d rest its :
      D !! t = Some T -> "="%char ∉ name -> name ++ suffix <> [] ->
      (suffix = [] \/ exists v, suffix = "="%char :: v) ->
      first (long_named (key63 name)) T i -> T !! i = Some d -> flag_option d ->
      reads D t k false rest its ->
      reads D t k false (($"--" ++ name ++ suffix) :: rest) (Call t i None :: its)
  | r_long_equal t T k name v i d rest its :
      D !! t = Some T -> "="%char ∉ name ->
      first (long_named (key63 name)) T i -> T !! i = Some d -> ~ flag_option d ->
      reads D t k false rest its ->
      reads D t k false (($"--" ++ name ++ "="%char :: v) :: rest) (Call t i (Some v) :: its)
  | r_long_separate t T k name v i d rest its :
      D !! t = Some T -> "="%char ∉ name -> name <> [] ->
      first (long_named (key63 name)) T i -> T !! i = Some d -> ~ flag_option d ->
      reads D t k false rest its ->
      reads D t k false (($"--" ++ name) :: v :: rest) (Call t i (Some v) :: its)
  | r_long_missing t T k name i d :
      D !! t = Some T -> "="%char ∉ name -> name <> [] ->
      first (long_named (key63 name)) T i -> T !! i = Some d -> ~ flag_option d ->
      reads D t k false [$"--" ++ name]
        [Reject E_MISSING_VALUE (quoted_long $"Missing value for option: " (key63 name))]
  | r_long_unknown t T k name suffix rest :
      D !! t = Some T -> "="%char ∉ name -> name ++ suffix <> [] ->
      (suffix = [] \/ exists v, suffix = "="%char :: v) ->
      nowhere (long_named (key63 name)) T ->
      reads D t k false (($"--" ++ name ++ suffix) :: rest)
        [Reject E_INVALID_ARGUMENT (quoted_long $"Unknown option: " (key63 name))]
  (* words beginning with one dash *)
  | r_negative t T k s i rest its :
      D !! t = Some T -> negative_for T k s -> receives T k i ->
      reads D t (S k) false rest its ->
      reads D t k false (($"-" ++ s) :: rest) (Call t i (Some ($"-" ++ s)) :: its)
  | r_short t T k s rest its1 rest' its2 :
      D !! t = Some T -> (forall s', s <> "-"%char :: s') -> ~ negative_for T k s ->
      cluster T t rest s its1 (Some rest') ->
      reads D t k false rest' its2 ->
      reads D t k false (($"-" ++ s) :: rest) (its1 ++ its2)
  | r_short_bad t T k s rest its1 :
      D !! t = Some T -> (forall s', s <> "-"%char :: s') -> ~ negative_for T k s ->
      cluster T t rest s its1 None ->
      reads D t k false (($"-" ++ s) :: rest) its1
  (* plain words *)
  | r_sub t T k w i d t' rest its :
      D !! t = Some T -> (forall s, w <> "-"%char :: s) ->
      selects T w i -> T !! i = Some d -> d_sub d = Some t' ->
      reads D t' 0 false rest its ->
      reads D t k false (w :: rest) (Enter t i :: its)
  | r_ambiguous t T k w i j d e rest :
      D !! t = Some T -> (forall s, w <> "-"%char :: s) -> ambiguous T w i j ->
      T !! i = Some d -> T !! j = Some e ->
      reads D t k false (w :: rest) [Reject E_AMBIGUOUS_SUBCOMMAND (two_matches w d e)]
  | r_word t T k w i rest its :
      D !! t = Some T -> (forall s, w <> "-"%char :: s) -> no_subcommand T w ->
      receives T k i ->
      reads D t (S k) false rest its ->
      reads D t k false (w :: rest) (Call t i (Some w) :: its)
  | r_word_extra t T k w rest :
      D !! t = Some T -> (forall s, w <> "-"%char :: s) -> no_subcommand T w ->
      no_receiver T k ->
      reads D t k false (w :: rest) [Reject E_INVALID_ARGUMENT (quoted $"Unknown positional: " (MStr (Some w)))].

(** Every subcommand of the tables has a table. *)
Definition subs_present (D : list (list decl)) : Prop :=
  forall t T i d, D !! t = Some T -> T !! i = Some d -> d_type d = TSubcommand ->
    exists t', d_sub d = Some t' /\ is_Some (D !! t').

(** ** Carrying out the items, in order, up to the first that does not succeed *)
Definition select (a : argus) (t i : nat) : res argus :=
  let* o := get_option a t i in
  if (length (a_stack a) <? 8)%nat
  then Ok (set_stack (put_option a t i (with_set o true)) (a_stack a ++ [(t, i)]))
  else UB OutOfBounds.

Fixpoint perform `{Libc} (a : argus) (its : list item) : res (Z * argus) :=
  match its with
  | [] => Ok (0, a)
  | Reject c m :: _ => Ok (c, diag c m a)
  | Enter t i :: its' => let* a' := select a t i in perform a' its'
  | Call t i v :: its' =>
      let* (st, a') := execute_callbacks a t i v in
      if st =? 0 then perform a' its' else Ok (st, a')
  end.

(** ** Positions inside a command line *)

(** The arguments [pre] are read completely, ask for [its] and leave the reader in table [t']
    with [k'] positional arguments consumed: whatever follows is read from there. *)
Definition leads (D : list (list decl)) (t k : nat) (only : bool) (pre : list cstr)
    (t' k' : nat) (only' : bool) (its : list item) : Prop :=
  (forall rest its', reads D t' k' only' rest its' -> reads D t k only (pre ++ rest) (its ++ its'))
  /\ forall c m, Reject c m ∉ its.

(** [pre] is the beginning of a command line for the context [a] and leads to table [t],
    whose contents is [T]. *)
Record reached (a : argus) (pre : list cstr) (t : nat) (T : list decl) (k : nat) (only : bool)
    (its : list item) : Prop := Reached {
  re_subs : subs_present (decls a);
  re_root : is_Some (decls a !! a_root a);
  re_table : decls a !! t = Some T;
  re_leads : leads (decls a) (a_root a) 0 false pre t k only its;
}.

(** Arguments handed to positionals: word number j (counted from [k]) to entry [r j]. *)
Fixpoint handed (t : nat) (r : nat -> nat) (k : nat) (ws : list cstr) : list item :=
  match ws with
  | [] => []
  | w :: ws' => Call t (r k) (Some w) :: handed t r (S k) ws'
  end.
Definition without_dashes (ws : list cstr) : list cstr :=
  List.filter (fun w => negb (bool_decide (w = $"--"))) ws.
(** A word that is neither an option nor the name of a subcommand. *)
Definition plain_word (T : list decl) (w : cstr) : Prop :=
  (forall s, w <> "-"%char :: s) /\ no_subcommand T w.
