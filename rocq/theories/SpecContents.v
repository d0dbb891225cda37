(** * Specification: what a text contributes to an array or map option *)
From Verif Require Import Api SpecGrammar SpecAfter SpecMemory.

(** ** Maps *)

(** Associate [e] with [k]: in place when the key is known, else at the end. *)
Fixpoint assign (k : cstr) (e : elem) (c : list (cstr * elem)) : list (cstr * elem) :=
  match c with
  | [] => [(k, e)]
  | p :: c' => if bool_decide (fst p = k) then (k, e) :: c' else p :: assign k e c'
  end.
(** What the flags UNIQUE_VALUE (bit 13), SORTED_KEY (bit 12) and SORTED_VALUE (bit 11) make of a
    map: pairs whose value is like that of an earlier pair that stays are dropped, then the pairs
    are sorted. *)
Definition map_flagged (k : ekind) (fl : N) (c c' : list (cstr * elem)) : Prop :=
  let c1 := if N.testbit fl 13 then firsts (fun p q => alike k (snd q) (snd p)) [] c else c in
  if N.testbit fl 12 then Permutation c1 c' /\ in_sequence (fun p q => text_before (fst p) (fst q)) c'
  else if N.testbit fl 11 then Permutation c1 c' /\ in_sequence (fun p q => precedes k (snd p) (snd q)) c'
  else c' = c1.

Section contents.
Context `{Libc}.

(** Array options take lists, variadic positionals one element per argument. *)
Definition array_handler (f : handler) : option (bool * ekind) :=
  match f with
  | HArrayString => Some (true, EText)
  | HArrayInt => Some (true, EInt)
  | HArrayFloat => Some (true, EFloat)
  | HVariadicString => Some (false, EText)
  | HVariadicInt => Some (false, ELong)
  | HVariadicFloat => Some (false, EFloat)
  | _ => None
  end.
Definition pieces (f : handler) (v : cstr) (ws : list cstr) : Prop :=
  match array_handler f with
  | Some (true, _) => elements v ws
  | _ => ws = [v]
  end.
(** The numbers a, a+1, … (n of them) as C ints. *)
Definition int_elems (a : Z) (n : nat) : list elem :=
  map (fun i => Num W4 ((a + Z.of_nat i) mod two32)) (seq 0 n).
(** What one piece contributes; None = the piece is refused. *)
Definition piece (f : handler) (w : cstr) : option (list elem) :=
  match f with
  | HArrayString | HVariadicString => Some [Text w]
  | HArrayInt =>
      match parse_int_range w with
      | None => None
      | Some (a, b) => Some (int_elems a (Z.to_nat (b - a + 1)))
      end
  | HArrayFloat => Some [Num W8 (strtof w mod two64)]
  | HVariadicInt =>
      if bool_decide (w <> [] /\ snd (strtoll w) = []) then Some [Num W8 (fst (strtoll w) mod two64)] else None
  | HVariadicFloat =>
      if bool_decide (snd (strtod w) <> 0%nat /\ (length w <= snd (strtod w))%nat) then Some [Num W8 (fst (strtod w) mod two64)] else None
  | _ => None
  end.
(** The text [v] contributes the elements [es]. *)
Definition yields (f : handler) (v : cstr) (es : list elem) : Prop :=
  exists ws ess, pieces f v ws /\ Forall2 (fun w e => piece f w = Some e) ws ess /\ es = concat ess.
(** Texts that do not lead into undefined behaviour: at least one piece; integer ranges end below
    the greatest int; no "not a number" in an array of doubles that is to be sorted. *)
Definition harmless_piece (d : decl) (f : handler) (w : cstr) : Prop :=
  (f = HArrayInt -> forall a b, parse_int_range w = Some (a, b) -> b < INT_MAX) /\
  (N.testbit (d_flags d) 9 = true -> forall es k b, piece f w = Some es -> array_handler f = Some (b, k) ->
     Forall (sortable k) es).
Definition harmless (d : decl) (f : handler) (v : cstr) : Prop :=
  forall ws, pieces f v ws -> ws <> [] /\ Forall (harmless_piece d f) ws.

(** Map options take lists of pairs key=value. *)
Definition map_handler (f : handler) : option ekind :=
  match f with
  | HMapString => Some EText
  | HMapInt => Some ELong
  | HMapFloat => Some EFloat
  | HMapBool => Some EBool
  | _ => None
  end.
Definition key_value (w k v : cstr) : Prop := w = k ++ "="%char :: v /\ "="%char ∉ k.
(** What the text of a value means; None = it is refused. *)
Definition map_value (f : handler) (v : cstr) : option elem :=
  match f with
  | HMapString => Some (Text v)
  | HMapInt =>
      if bool_decide (v <> [] /\ snd (strtoll v) = []) then Some (Num W8 (fst (strtoll v) mod two64)) else None
  | HMapFloat =>
      if bool_decide (v <> [] /\ (length v <= snd (strtod v))%nat) then Some (Num W8 (fst (strtod v) mod two64)) else None
  | HMapBool => match string_to_bool v with Some b => Some (Num W1 (Z.b2z b)) | None => None end
  | _ => None
  end.
(** [adds f ws c c' n]: the pairs [ws], one after the other, turn the map [c] into [c']; [n] of
    them have a key that was there already. *)
Inductive adds (f : handler) : list cstr -> list (cstr * elem) -> list (cstr * elem) -> nat -> Prop :=
  | adds_none c : adds f [] c c O
  | adds_pair w ws k v e c c' n :
      key_value w k v -> map_value f v = Some e -> adds f ws (assign k e c) c' n ->
      adds f (w :: ws) c c' (if bool_decide (k ∈ map fst c) then S n else n).
Definition map_yields (f : handler) (v : cstr) (c c' : list (cstr * elem)) (n : nat) : Prop :=
  exists ws, elements v ws /\ adds f ws c c' n.
Definition map_harmless (d : decl) (f : handler) (v : cstr) : Prop :=
  forall ws, elements v ws -> ws <> [] /\
    (N.testbit (d_flags d) 11 = true -> forall w k t e ek, w ∈ ws -> key_value w k t -> map_value f t = Some e ->
       map_handler f = Some ek -> sortable ek e).
End contents.
