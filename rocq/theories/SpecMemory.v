(** * Specification: contents and memory of array and map options

    What it means that a list option holds a sequence of elements, which heap blocks it owns,
    and how a list text is cut into elements. *)
From Verif Require Import Api SpecGrammar SpecAfter.

(** ** Cutting a text at separators *)

(** [cut sep s ws]: [ws] are the maximal non-empty runs of non-separators of [s], in order. *)
Inductive cut (sep : ascii -> Prop) : cstr -> list cstr -> Prop :=
  | cut_end g : Forall sep g -> cut sep g []
  | cut_word g w rest ws :
      Forall sep g -> w <> [] -> Forall (fun c => ~ sep c) w ->
      match rest with [] => True | c :: _ => sep c end ->
      cut sep rest ws -> cut sep (g ++ w ++ rest) (w :: ws).
(** The elements of a list text: the text itself when it contains no comma, else its runs
    between commas. *)
Definition elements (v : cstr) (ws : list cstr) : Prop :=
  if bool_decide (","%char ∈ v) then cut (eq ","%char) v ws else ws = [v].

(** ** Elements in memory *)

(** An element of an array or a value of a map: a text of its own, or a number. *)
Inductive elem := Text (s : cstr) | Num (w : width) (z : Z).
(** The cell [x] holds element [e]. *)
Definition holds (h : heap) (x : uval) (e : elem) : Prop :=
  match e with
  | Text s => exists l, x = PHeap l /\ blocks h !! l = Some (Some (BStr s))
  | Num w z => x = Raw w z
  end.
(** The heap block a cell owns. *)
Definition own (x : uval) : list nat := match x with PHeap l => [l] | _ => [] end.
(** A map entry holds a key and a value. *)
Definition holds_pair (h : heap) (x : uval * uval) (p : cstr * elem) : Prop :=
  holds h (fst x) (Text (fst p)) /\ holds h (snd x) (snd p).
Definition own_pair (x : uval * uval) : list nat := own (fst x) ++ own (snd x).

(** ** Kinds of elements *)
Inductive ekind := EText | EInt | ELong | EFloat | EBool.
Definition of_kind (k : ekind) (e : elem) : Prop :=
  match k, e with
  | EText, Text _ => True
  | EInt, Num W4 z => 0 <= z < 2 ^ 32
  | ELong, Num W8 z => 0 <= z < 2 ^ 64
  | EFloat, Num W8 z => 0 <= z < 2 ^ 64
  | EBool, Num W1 z => z = 0 \/ z = 1
  | _, _ => False
  end.
(** The kind of elements a value type names. *)
Definition array_kind (vt : N) : option ekind :=
  if (vt =? VT_ARRAY_INT)%N then Some EInt
  else if (vt =? VT_VARIADIC_INT)%N then Some ELong
  else if (vt =? VT_ARRAY_STRING)%N || (vt =? VT_VARIADIC_STRING)%N then Some EText
  else if (vt =? VT_ARRAY_FLOAT)%N || (vt =? VT_VARIADIC_FLOAT)%N then Some EFloat
  else None.
Definition map_kind (vt : N) : option ekind :=
  if (vt =? VT_MAP_INT)%N then Some ELong
  else if (vt =? VT_MAP_STRING)%N then Some EText
  else if (vt =? VT_MAP_FLOAT)%N then Some EFloat
  else if (vt =? VT_MAP_BOOL)%N then Some EBool
  else None.
(** How elements are compared: texts byte by byte, integers by their low 32 bits (signed),
    doubles and booleans as such. *)
Definition int_of (e : elem) : Z := match e with Num _ z => to_int32 z | Text _ => 0 end.
Definition text_of (e : elem) : cstr := match e with Text s => s | Num _ _ => [] end.
Definition bits_of (e : elem) : Z := match e with Num _ z => z | Text _ => 0 end.
(** [precedes k e f]: [e] comes strictly before [f]. *)
Fixpoint text_before (s t : cstr) : Prop :=
  match s, t with
  | [], _ :: _ => True
  | x :: s', y :: t' => code x < code y \/ (x = y /\ text_before s' t')
  | _, [] => False
  end.
Definition precedes (k : ekind) (e f : elem) : Prop :=
  match k with
  | EText => text_before (text_of e) (text_of f)
  | EInt | ELong => int_of e < int_of f
  | EFloat => flt (bits_of e) (bits_of f) = true
  | EBool => bits_of e < bits_of f
  end.
(** [alike k e f]: the uniqueness flags count [e] and [f] as the same. *)
Definition alike (k : ekind) (e f : elem) : bool :=
  match k with
  | EText => bool_decide (text_of e = text_of f)
  | EInt | ELong => int_of e =? int_of f
  | EFloat => fclose (bits_of e) (bits_of f)
  | EBool => bits_of e =? bits_of f
  end.
(** In order: nothing comes before an earlier element. *)
Definition in_sequence {E} (before : E -> E -> Prop) (l : list E) : Prop :=
  forall i j a b, (i < j)%nat -> l !! i = Some a -> l !! j = Some b -> ~ before b a.
(** The elements that are not like one kept before. *)
Fixpoint firsts {E} (same : E -> E -> bool) (kept l : list E) : list E :=
  match l with
  | [] => []
  | x :: l' => if existsb (same x) kept then firsts same kept l'
               else x :: firsts same (kept ++ [x]) l'
  end.
(** What the flags SORTED (bit 9) and UNIQUE (bit 10) make of an array. *)
Definition flagged (k : ekind) (fl : N) (c c' : list elem) : Prop :=
  exists c1,
    (if N.testbit fl 9 then Permutation c c1 /\ in_sequence (precedes k) c1 else c1 = c) /\
    c' = if N.testbit fl 10 then firsts (alike k) [] c1 else c1.
(** No "not a number" among doubles that are to be sorted. *)
Definition sortable (k : ekind) (e : elem) : Prop :=
  k = EFloat -> feq (bits_of e) (bits_of e) = true.

(** [collection blk ow hd o h c fp]: the option [o] holds the elements [c] and owns the blocks
    [fp]: its buffer, of [value_capacity] cells, and what its cells own. *)
Definition collection {A E} (blk : list A -> block) (ow : A -> list nat)
    (hd : heap -> A -> E -> Prop) (o : opt) (h : heap) (c : list E) (fp : list nat) : Prop :=
  value_count o = length c /\
  ((value o = VNull /\ c = [] /\ fp = []) \/
   exists p cells, value o = PHeap p /\ blocks h !! p = Some (Some (blk cells)) /\
     length cells = value_capacity o /\ (0 < value_capacity o)%nat /\
     (length c <= length cells)%nat /\
     Forall2 (hd h) (take (length c) cells) c /\
     fp = p :: concat (map ow (take (length c) cells)) /\ NoDup fp).
Definition array_of := collection BArr own holds.
Definition map_of := collection BMap own_pair holds_pair.

(** ** Heaps before and after *)

(** [moves fp h fp' h']: a piece of code that owned the blocks [fp] turned [h] into [h'] and owns
    [fp'] now: blocks of others are untouched, what it owns was its own or is new, and every
    block that is alive belongs to it or was alive before without belonging to it. *)
Record moves (fp : list nat) (h : heap) (fp' : list nat) (h' : heap) : Prop := Moves {
  mv_len : (length (blocks h) <= length (blocks h'))%nat;
  mv_frame : forall l, (l < length (blocks h))%nat -> l ∉ fp -> blocks h' !! l = blocks h !! l;
  mv_own : forall l, l ∈ fp' -> l ∈ fp \/ (length (blocks h) <= l)%nat;
  mv_live : forall l b, blocks h' !! l = Some (Some b) ->
    l ∈ fp' \/ (l ∉ fp /\ (l < length (blocks h))%nat);
}.

(** ** qsort *)

(** C11 7.22.5.2: when the comparison function orders the elements consistently, qsort sorts
    them.  Nothing is assumed for other comparison functions. *)
Definition consistent {A} (cmp : A -> A -> Z) (l : list A) : Prop :=
  (forall a b, a ∈ l -> b ∈ l -> Z.sgn (cmp a b) = - Z.sgn (cmp b a)) /\
  (forall a b c, a ∈ l -> b ∈ l -> c ∈ l -> cmp a b <= 0 -> cmp b c <= 0 -> cmp a c <= 0).
Definition qsort_sorts `{Libc} : Prop :=
  forall A (cmp : A -> A -> Z) l, consistent cmp l ->
    Permutation l (qsort A cmp l) /\
    forall i j a b, (i < j)%nat -> qsort A cmp l !! i = Some a -> qsort A cmp l !! j = Some b ->
      cmp a b <= 0.
