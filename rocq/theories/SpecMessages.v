(** * Specification: the text of the error messages *)
From Verif Require Import Api Display SpecGrammar SpecAfter SpecDisplay SpecTold.

Definition line_end : cstr := ["010"%char].
(** The line of an error. *)
Definition told_line (prog text : cstr) : cstr := prog ++ $": " ++ text ++ line_end.
(** The pointer to the help of the selected command [cs]. *)
Definition pointer (prog : cstr) (cs : list cstr) : cstr :=
  line_end ++ line_end ++ $"Try '" ++ prog ++ concat (map (fun c => $" " ++ c) cs) ++
  $" --help' for more information." ++ line_end.
Definition in_quotes (before w : cstr) : cstr := before ++ $"'" ++ w ++ $"'".

(** The command line is refused at a token: everything before it ([its]) succeeded, the token
    calls for the error [c] with message [m]. *)
Record stops_at `{Libc} (a : argus) (argv : list cstr) (its : list item) (c : Z) (m : message) : Prop := {
  sa_subs : subs_present (decls a);
  sa_root : is_Some (decls a !! a_root a);
  sa_stack : a_stack a = [];
  sa_log : a_log a = [];
  sa_library : library_only (decls a);
  sa_reads : reads (decls a) (a_root a) 0 false argv (its ++ [Reject c m]);
  sa_before : exists a1, perform a its = Ok (0, a1);
}.
(** A context before its first parse, without code of the program. *)
Definition starts (a : argus) : Prop := a_stack a = [] /\ a_log a = [] /\ library_only (decls a).
(** The names of the subcommands entered by [its]. *)
Definition called (D : list (list decl)) (its : list item) (cs : list cstr) : Prop :=
  Forall2 (fun r c => exists T d, D !! fst r = Some T /\ T !! snd r = Some d /\ d_name d = Some c)
    (entered its) cs.

(** ** Messages of the checks after parsing *)

Section texts.
Context `{Libc}.
(** The text with which a validator refuses the stored value. *)
Definition out_of_range (what : cstr) (x a b : Z) : cstr :=
  what ++ dec x ++ $" is out of range " ++ dec a ++ $"-" ++ dec b.
Definition bad_range (a b : Z) : cstr := $"Range is invalid " ++ dec a ++ $"-" ++ dec b.
Definition not_one_of (x : cstr) (l : list cstr) : cstr :=
  $"Value '" ++ x ++ $"' is not one of [" ++ bars l ++ $"]".
Inductive refusal (o : opt) (h : heap) : vfun -> cstr -> Prop :=
  | rf_range_bad a b : b < a -> refusal o h (VRange a b) (bad_range a b)
  | rf_range a b x : a <= b -> as_int (value o) = Ok x -> x < a \/ b < x ->
      refusal o h (VRange a b) (out_of_range $"Value " x a b)
  | rf_length_null a b : is_null (value o) = Ok true -> refusal o h (VLength a b) ($"Value is NULL")
  | rf_length_negative a b : is_null (value o) = Ok false -> a < 0 \/ b < 0 ->
      refusal o h (VLength a b) ($"Range is negative")
  | rf_length_bad a b : is_null (value o) = Ok false -> 0 <= a -> 0 <= b -> b < a ->
      refusal o h (VLength a b) (bad_range a b)
  | rf_length a b s : is_null (value o) = Ok false -> 0 <= a <= b -> deref_str (value o) h = Ok s ->
      Z.of_nat (length s) < a \/ b < Z.of_nat (length s) ->
      refusal o h (VLength a b) (out_of_range $"Value length " (Z.of_nat (length s)) a b)
  | rf_count_negative a b : a < 0 \/ b < 0 -> refusal o h (VCount a b) ($"Range is negative")
  | rf_count_bad a b : 0 <= a -> 0 <= b -> b < a -> refusal o h (VCount a b) (bad_range a b)
  | rf_count a b : 0 <= a <= b -> Z.of_nat (value_count o) < a \/ b < Z.of_nat (value_count o) ->
      refusal o h (VCount a b) (out_of_range $"Values count " (Z.of_nat (value_count o)) a b)
  | rf_str l s : deref_str (value o) h = Ok s -> s ∉ l -> refusal o h (VChoicesStr l) (not_one_of s l)
  | rf_int l x : as_int (value o) = Ok x -> x ∉ l ->
      refusal o h (VChoicesInt l) (not_one_of (dec x) (map dec l))
  | rf_float l x : as_float (value o) = Ok x -> (forall y, y ∈ l -> feq x y = false) ->
      refusal o h (VChoicesFloat l) (not_one_of (fmt_f x) (map fmt_2g l)).

(** [says h T i o c t]: entry [i] is not in order, error [c] and text [t] say why. *)
Inductive says (h : heap) (T : list opt) (i : nat) (o : opt) : Z -> cstr -> Prop :=
  | sy_missing n : required_positional o -> is_set o = false -> named n o ->
      says h T i o 14 (in_quotes $"Required positional argument missing: " n)
  (* the entry set first in the group and this one *)
  | sy_exclusive g G j p gn pn n : ~ group_entry o -> is_set o = true -> named n o ->
      T !! g = Some G -> exclusive_group G -> named gn G -> member T g i ->
      (g < j < i)%nat -> T !! j = Some p -> is_set p = true -> named pn p ->
      (forall k q, (g < k < j)%nat -> T !! k = Some q -> is_set q = false) ->
      says h T i o 17 ($"Exclusive options group '" ++ gn ++ $"' conflict: '" ++ pn ++ $"' and '" ++ n ++ $"'")
  | sy_validator l1 e l2 c t : ~ group_entry o -> is_set o = true -> ~ rival T i ->
      validators (decl_of o) = l1 ++ e :: l2 -> v_order e = ORDER_POST ->
      refuses_with (v_fun e) o h c -> refusal o h (v_fun e) t ->
      (forall e', e' ∈ l1 -> v_order e' = ORDER_POST -> accepts_option (v_fun e') o h) ->
      says h T i o c t
  | sy_require n l1 r l2 : ~ group_entry o -> is_set o = true -> ~ rival T i -> validated h o -> named n o ->
      default [] (d_require (decl_of o)) = l1 ++ r :: l2 -> unset_in T r ->
      (forall r', r' ∈ l1 -> ~ unset_in T r') ->
      says h T i o 14 ($"Required option is missing: '" ++ r ++ $"' with option '" ++ n ++ $"'")
  | sy_conflict n l1 r l2 : ~ group_entry o -> is_set o = true -> ~ rival T i -> validated h o -> named n o ->
      (forall n, n ∈ default [] (d_require (decl_of o)) -> ~ unset_in T n) ->
      default [] (d_conflict (decl_of o)) = l1 ++ r :: l2 -> set_in T r ->
      (forall r', r' ∈ l1 -> ~ set_in T r') ->
      says h T i o 15 ($"Conflict between '" ++ n ++ $"' and '" ++ r ++ $"'").

(** The first entry out of order, in the tables in play, and what is said about it. *)
Definition first_said (a : argus) (c : Z) (t : cstr) : Prop :=
  exists (k t' : nat) (T : list opt) (i : nat) (o : opt),
    tables_in_play a !! k = Some t' /\ a_tabs a !! t' = Some T /\ T !! i = Some o /\
    says (a_heap a) T i o c t /\
    (forall j p, (j < i)%nat -> T !! j = Some p -> in_order (a_heap a) T j p) /\
    (forall (k' t' : nat) (T' : list opt), (k' < k)%nat -> tables_in_play a !! k' = Some t' ->
       a_tabs a !! t' = Some T' -> table_in_order (a_heap a) T').

(** ** Descriptions whose messages can be printed *)

(** The choices can be listed in a string. *)
Definition listable (f : vfun) : Prop :=
  match f with
  | VChoicesStr l => Forall (fun s => "000"%char ∉ s) l /\
      Z.of_nat (length (concat l) + length l) < two64
  | VChoicesInt l => Forall (fun z => - 2 ^ 63 <= z < 2 ^ 63) l /\ Z.of_nat (length l) <= 10 ^ 17
  | VChoicesFloat l => Forall (fun z => (length (fmt_2g z) <= 20)%nat /\ "000"%char ∉ fmt_2g z) l /\
      Z.of_nat (length l) <= 10 ^ 17
  | _ => True
  end.
Record tellable_entry (d : decl) : Prop := {
  te_name : (d_type d = TGroup -> N.testbit (d_flags d) 14 = true) -> is_Some (d_name d);
  te_help : d_type d = TSubcommand -> is_Some (d_help d);
  te_choices : forall e, e ∈ validators d -> listable (v_fun e);
}.
(** Every entry is named (a group only if it is exclusive), subcommands have a help text, the
    choices can be listed. *)
Definition tellable (D : list (list decl)) : Prop :=
  forall t T d, D !! t = Some T -> d ∈ T -> tellable_entry d.
End texts.
