(** * source/utils/value_utils.c 30-114: helpers that only the repository's tests call *)
From Verif Require Export Api.

(** The array behind as_array_int, as_array_string, as_array_float (includes/argus/types.h 138-140) *)
Inductive choice_array := CInts (l : list Z) | CStrings (l : list uval) | CFloats (l : list Z).

(** choices_to_value (30-52).  Reading the array through the wrong member is [TypeConfusion]. *)
Definition choices_to_value (ty : N) (c : choice_array) (count index : nat) : res uval :=
  if (count <=? index)%nat then Ok VNull
  else if (ty =? VT_INT)%N then
    match c with CInts l => let* z := cell l index in Ok (of_int64 z) | _ => UB TypeConfusion end
  else if (ty =? VT_STRING)%N then
    match c with CStrings l => cell l index | _ => UB TypeConfusion end
  else if (ty =? VT_FLOAT)%N then
    match c with CFloats l => let* z := cell l index in Ok (of_float z) | _ => UB TypeConfusion end
  else Ok VNull.

(** [a.raw == b.raw] (56).  Where bytes of a value were never written the comparison is
    unspecified; the model then goes on to the switch, which gives 0 for equal members too. *)
Definition same_raw (a b : uval) : bool :=
  match a, b with
  | Raw W8 x, Raw W8 y => x =? y
  | PHeap l, PHeap m => (l =? m)%nat
  | _, _ => false
  end.
(** An expression of type int *)
Definition int_expr (z : Z) : res Z :=
  if (-2147483648 <=? z) && (z <=? INT_MAX) then Ok z else UB SignedOverflow.
(** cmp_value (54-80) *)
Definition cmp_value (ty : N) (a b : uval) (h : heap) : res Z :=
  if same_raw a b then Ok 0
  else if (ty =? VT_FLAG)%N || (ty =? VT_BOOL)%N then
    let* x := as_bool a in let* y := as_bool b in Ok (Z.b2z x - Z.b2z y)
  else if (ty =? VT_INT)%N then
    let* x := as_int a in let* y := as_int b in int_expr (x - y)
  else if (ty =? VT_STRING)%N then
    let* na := is_null a in
    let* nb := (if (na : bool) then Ok true else is_null b) in
    if (nb : bool) then Ok (-1)
    else let* s := deref_str a h in let* t := deref_str b h in Ok (strcmp s t)
  else if (ty =? VT_FLOAT)%N then
    let* x := as_float a in let* y := as_float b in
    Ok (if feq x y then 0 else if flt y x then 1 else -1)
  else Ok (-1).

(** print_value (82-103): the text written.  A null string handed to [%s] is undefined. *)
Definition print_value `{Libc} (ty : N) (v : uval) (h : heap) : res cstr :=
  if (ty =? VT_FLAG)%N || (ty =? VT_BOOL)%N then
    let* b := as_bool v in Ok (if (b : bool) then $"true" else $"false")
  else if (ty =? VT_INT)%N then let* z := as_int v in Ok (dec z)
  else if (ty =? VT_STRING)%N then
    let* z := is_null v in
    if (z : bool) then UB NullDeref else
    let* s := deref_str v h in Ok ($"""" ++ s ++ $"""")
  else if (ty =? VT_FLOAT)%N then let* x := as_float v in Ok (fmt_f x)
  else Ok [].
(** print_value_array (105-114): [n] elements still to write from [i], of [count] *)
Fixpoint print_values `{Libc} (ty : N) (vs : list uval) (h : heap) (count i n : nat) : res cstr :=
  match n with
  | O => Ok []
  | S n' =>
      let* v := cell vs i in
      let* s := print_value ty v h in
      let* r := print_values ty vs h count (S i) n' in
      Ok (s ++ (if (i <? count - 1)%nat then $", " else []) ++ r)
  end.
Definition print_value_array `{Libc} (ty : N) (vs : list uval) (h : heap) (count : nat) : res cstr :=
  let* s := print_values ty vs h count O count in Ok ($"[" ++ s ++ $"]").
