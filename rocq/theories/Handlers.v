(** * String utilities, multi-value buffers and the built-in handlers *)
From Verif Require Export State.

(** ** Array cells through the heap *)

(** [p[i] = x] for an argus_value_t array or char* array [p]. *)
Definition arr_write (p : uval) (i : nat) (x : uval) : HM unit :=
  let! cs := hderef_arr p in
  let! cs' := hlift (set_cell cs i x) in
  hstore p (BArr cs').
(** [p[i]] *)
Definition arr_read (p : uval) (i : nat) : HM uval :=
  let! cs := hderef_arr p in
  hlift (cell cs i).
(** [p[i] = (key, v)] for an argus_pair_t array [p]. *)
Definition map_write (p : uval) (i : nat) (kv : uval * uval) : HM unit :=
  let! cs := hderef_map p in
  let! cs' := hlift (set_cell cs i kv) in
  hstore p (BMap cs').

(** ** source/utils/strings.c *)

(** starts_with (strings.c 26-36): the text after the prefix.
    Null arguments give NULL. *)
Definition starts_with (prefix str : option cstr) : option cstr :=
  match prefix, str with
  | Some p, Some s => if strncmp s p (length p) =? 0 then Some (drop (length p) s) else None
  | _, _ => None
  end.

(** [strchr(charset, c) != NULL] for a character c of a string. *)
Definition in_set (charset : cstr) (c : ascii) : bool :=
  match strchr charset c with Some _ => true | None => false end.

(** count_words (strings.c 38-52); the nested loop that skips the rest of a word is
    the flag [in_word]. *)
Fixpoint count_words_from (in_word : bool) (str charset : cstr) : nat :=
  match str with
  | [] => O
  | c :: str' =>
      if in_set charset c then count_words_from false str' charset
      else if in_word then count_words_from true str' charset
      else S (count_words_from true str' charset)
  end.
Definition count_words := count_words_from false.

(** word_len (strings.c 54-61) *)
Fixpoint word_len (str charset : cstr) : nat :=
  match str with
  | [] => O
  | c :: str' => if in_set charset c then O else S (word_len str' charset)
  end.

(** skip_charset (strings.c 63-70) *)
Fixpoint skip_charset (str charset : cstr) : nat :=
  match str with
  | [] => O
  | c :: str' => if in_set charset c then S (skip_charset str' charset) else O
  end.

(** The loop [for (i = 0; i < n; ++i) free(p[i])] starting at index [i]
    (strings.c 74-75, array_string_handler.c 67-68, variadic_string_handler.c 51-52). *)
Fixpoint free_cells (p : uval) (i n : nat) : HM unit :=
  match n with
  | O => hret tt
  | S n' =>
      let! x := arr_read p i in
      hfree x ;;; free_cells p (S i) n'
  end.

(** cleanup_split (strings.c 72-77) *)
Definition cleanup_split (p : uval) (nb_words : nat) : HM unit :=
  free_cells p O nb_words ;;; hfree p.

(** The loop of split (strings.c 94-105); [false] = an allocation failed and
    everything was released. *)
Fixpoint split_loop (p : uval) (tmp charset : cstr) (i n : nat) : HM bool :=
  match n with
  | O => hret true
  | S n' =>
      let tmp1 := drop (skip_charset tmp charset) tmp in
      let len := word_len tmp1 charset in
      (* safe_strndup (cross_platform.h 119-137) *)
      let! w := hmalloc (BStr (take len tmp1)) in
      match w with
      | None => cleanup_split p i ;;; hret false
      | Some l =>
          arr_write p i (PHeap l) ;;;
          split_loop p (drop len tmp1) charset (S i) n'
      end
  end.

(** split (strings.c 85-108) *)
Definition split (str charset : cstr) : HM (option uval) :=
  let nb_words := count_words str charset in
  let! r := hmalloc (BArr (replicate (nb_words + 1) Indet)) in
  match r with
  | None => hret None
  | Some l =>
      let! ok := split_loop (PHeap l) str charset O nb_words in
      if (ok : bool) then arr_write (PHeap l) nb_words VNull ;;; hret (Some (PHeap l))
      else hret None
  end.

(** The loop [for (i = 0; cells[i] != NULL; ++i) body(cells[i])] over the cells of
    the array returned by split; [body] returns a status, a status other than
    success stops the loop and is returned. *)
Fixpoint for_words (cells : list uval) (body : cstr -> HM Z) : HM Z :=
  match cells with
  | [] => hub OutOfBounds
  | x :: cells' =>
      let! z := hlift (is_null x) in
      if (z : bool) then hret SUCCESS
      else
        let! s := hderef_str x in
        let! st := body s in
        if st =? SUCCESS then for_words cells' body else hret st
  end.

(** free_split (strings.c 110-115), the loop over the cells *)
Fixpoint free_words (cells : list uval) : HM unit :=
  match cells with
  | [] => hub OutOfBounds
  | x :: cells' =>
      let! z := hlift (is_null x) in
      if (z : bool) then hret tt
      else hfree x ;;; free_words cells'
  end.
Definition free_split (p : uval) : HM unit :=
  let! cells := hderef_arr p in
  free_words cells ;;; hfree p.

(** ** source/utils/multi_values.c *)

(** What the comparison functions read from an element: NULL-able strings,
    integers, doubles (bits).  compare_* (multi_values.c 20-113) *)
Definition cmp_int (a b : Z) : Z := if a <? b then -1 else if b <? a then 1 else 0.
Definition cmp_str (a b : option cstr) : Z :=
  match a, b with
  | None, _ => -1
  | _, None => 1
  | Some x, Some y => strcmp x y
  end.
Definition cmp_float (a b : Z) : Z := if flt a b then -1 else if flt b a then 1 else 0.
Definition cmp_bool (a b : bool) : Z := Z.b2z a - Z.b2z b.

(** [v.as_string] as a nullable string. *)
Definition read_str (h : heap) (v : uval) : res (option cstr) :=
  let* z := is_null v in
  if (z : bool) then Ok None else let* s := deref_str v h in Ok (Some s).

Fixpoint map_res {A B} (f : A -> res B) (l : list A) : res (list B) :=
  match l with
  | [] => Ok []
  | x :: l' => let* y := f x in let* ys := map_res f l' in Ok (y :: ys)
  end.

(** A call of qsort on the first [n] elements of [cells] with a comparison function
    that reads [key] from each element. *)
Definition qsort_prefix `{Libc} {A K} (key : A -> res K) (cmp : K -> K -> Z)
    (n : nat) (cells : list A) : res (list A) :=
  if (length cells <? n)%nat then UB OutOfBounds
  else
    let* ks := map_res (fun x => let* k := key x in Ok (k, x)) (take n cells) in
    Ok (map snd (qsort (K * A) (fun a b => cmp (fst a) (fst b)) ks) ++ drop n cells).

(** sort_int_array, sort_string_array, sort_float_array (multi_values.c 119-138)
    on the array of the option *)
Definition sort_array `{Libc} {K} (key : heap -> uval -> res K) (cmp : K -> K -> Z) : HM unit :=
  let! o := get_opt in
  if (value_count o <=? 1)%nat then hret tt
  else
    let! h := get_heap in
    let! cs := hderef_arr (value o) in
    let! cs' := hlift (qsort_prefix (key h) cmp (value_count o) cs) in
    hstore (value o) (BArr cs').
Definition sort_int_array `{Libc} := sort_array (fun _ => as_int) cmp_int.
Definition sort_string_array `{Libc} := sort_array read_str cmp_str.
Definition sort_float_array `{Libc} := sort_array (fun _ => as_float) cmp_float.

(** The inner loop [for (j = 0; j < unique_count; j++)] of the uniqueness functions
    (multi_values.c 154-159, 178-186, 205-211). *)
Fixpoint is_dup (same : heap -> uval -> uval -> res bool) (h : heap) (cs : list uval)
    (x : uval) (j n : nat) : res bool :=
  match n with
  | O => Ok false
  | S n' =>
      let* y := cell cs j in
      let* b := same h x y in
      if (b : bool) then Ok true else is_dup same h cs x (S j) n'
  end.

(** The outer loop [for (i = 1; i < count; i++)]: [n] iterations left. *)
Fixpoint uniq_loop (same : heap -> uval -> uval -> res bool) (free_dup : bool)
    (i uc n : nat) (cs : list uval) (h : heap) : res (nat * list uval * heap) :=
  match n with
  | O => Ok (uc, cs, h)
  | S n' =>
      let* x := cell cs i in
      let* d := is_dup same h cs x O uc in
      if (d : bool) then
        let* h' := if free_dup then free x h else Ok h in
        uniq_loop same free_dup (S i) uc n' cs h'
      else
        let* cs' := set_cell cs uc x in
        uniq_loop same free_dup (S i) (S uc) n' cs' h
  end.

(** make_int_array_unique 144-166, make_string_array_unique 168-193,
    make_float_array_unique 195-219: the new count *)
Definition make_unique (same : heap -> uval -> uval -> res bool) (free_dup : bool) : HM nat :=
  let! o := get_opt in
  if (value_count o <=? 1)%nat then hret (value_count o)
  else
    let! h := get_heap in
    let! cs := hderef_arr (value o) in
    let! (uc, cs', h') := hlift (uniq_loop same free_dup 1 1 (value_count o - 1) cs h) in
    put_heap h' ;;;
    hstore (value o) (BArr cs') ;;;
    hret uc.

Definition same_int (_ : heap) (x y : uval) : res bool :=
  let* a := as_int x in let* b := as_int y in Ok (a =? b).
Definition same_str (h : heap) (x y : uval) : res bool :=
  let* nx := is_null x in
  if (nx : bool) then Ok false
  else
    let* ny := is_null y in
    if (ny : bool) then Ok false
    else
      let* s := deref_str x h in
      let* t := deref_str y h in
      Ok (strcmp s t =? 0).
Definition same_float (_ : heap) (x y : uval) : res bool :=
  let* a := as_float x in let* b := as_float y in Ok (fclose a b).
Definition same_bool (_ : heap) (x y : uval) : res bool :=
  let* a := as_bool x in let* b := as_bool y in Ok (Bool.eqb a b).

Definition make_int_array_unique := make_unique same_int false.
Definition make_string_array_unique := make_unique same_str true.
Definition make_float_array_unique := make_unique same_float false.

(** apply_array_flags (multi_values.c 346-400) *)
Definition apply_array_flags `{Libc} : HM unit :=
  let! o := get_opt in
  if (value_count o <=? 1)%nat then hret tt
  else
    let ty := d_vtype (decl_of o) in
    let fl := d_flags (decl_of o) in
    (if has fl FLAG_SORTED then
       if (ty =? VT_ARRAY_INT)%N || (ty =? VT_VARIADIC_INT)%N then sort_int_array
       else if (ty =? VT_ARRAY_STRING)%N || (ty =? VT_VARIADIC_STRING)%N then sort_string_array
       else if (ty =? VT_ARRAY_FLOAT)%N || (ty =? VT_VARIADIC_FLOAT)%N then sort_float_array
       else hret tt
     else hret tt) ;;;
    (if has fl FLAG_UNIQUE then
       if (ty =? VT_ARRAY_INT)%N || (ty =? VT_VARIADIC_INT)%N then
         let! n := make_int_array_unique in mod_opt (fun o => with_count o n)
       else if (ty =? VT_ARRAY_STRING)%N || (ty =? VT_VARIADIC_STRING)%N then
         let! n := make_string_array_unique in mod_opt (fun o => with_count o n)
       else if (ty =? VT_ARRAY_FLOAT)%N || (ty =? VT_VARIADIC_FLOAT)%N then
         let! n := make_float_array_unique in mod_opt (fun o => with_count o n)
       else hret tt
     else hret tt).

(** sort_map_by_* (multi_values.c 225-258) *)
Definition sort_map `{Libc} {K} (key : heap -> uval * uval -> res K) (cmp : K -> K -> Z)
  : HM unit :=
  let! o := get_opt in
  if (value_count o <=? 1)%nat then hret tt
  else
    let! h := get_heap in
    let! cs := hderef_map (value o) in
    let! cs' := hlift (qsort_prefix (key h) cmp (value_count o) cs) in
    hstore (value o) (BMap cs').
Definition sort_map_by_keys `{Libc} := sort_map (fun h kv => read_str h (fst kv)) cmp_str.
Definition sort_map_by_int_values `{Libc} := sort_map (fun _ kv => as_int (snd kv)) cmp_int.
Definition sort_map_by_string_values `{Libc} :=
  sort_map (fun h kv => read_str h (snd kv)) cmp_str.
Definition sort_map_by_float_values `{Libc} := sort_map (fun _ kv => as_float (snd kv)) cmp_float.
Definition sort_map_by_bool_values `{Libc} := sort_map (fun _ kv => as_bool (snd kv)) cmp_bool.

(** make_map_values_unique (multi_values.c 264-340).
    The scratch array of marks is a list; its block is allocated and released. *)
Definition same_map_value (ty : N) (h : heap) (x y : uval) : res bool :=
  if (ty =? VT_INT)%N || (ty =? VT_MAP_INT)%N then same_int h x y
  else if (ty =? VT_STRING)%N || (ty =? VT_MAP_STRING)%N then same_str h x y
  else if (ty =? VT_FLOAT)%N || (ty =? VT_MAP_FLOAT)%N then same_float h x y
  else if (ty =? VT_BOOL)%N || (ty =? VT_MAP_BOOL)%N then same_bool h x y
  else Ok false.

(** inner loop 281-318: [n] iterations left *)
Fixpoint mark_from (same : heap -> uval -> uval -> res bool) (h : heap)
    (cs : list (uval * uval)) (x : uval) (j n : nat) (dups : list bool) : res (list bool) :=
  match n with
  | O => Ok dups
  | S n' =>
      let* dj := cell dups j in
      if (dj : bool) then mark_from same h cs x (S j) n' dups
      else
        let* y := cell cs j in
        let* b := same h x (snd y) in
        let* dups' := if (b : bool) then set_cell dups j true else Ok dups in
        mark_from same h cs x (S j) n' dups'
  end.
(** outer loop 277-319 *)
Fixpoint mark_loop (same : heap -> uval -> uval -> res bool) (h : heap)
    (cs : list (uval * uval)) (i n : nat) (dups : list bool) : res (list bool) :=
  match n with
  | O => Ok dups
  | S n' =>
      let* di := cell dups i in
      if (di : bool) then mark_loop same h cs (S i) n' dups
      else
        let* x := cell cs i in
        let* dups' := mark_from same h cs (snd x) (S i) n' dups in
        mark_loop same h cs (S i) n' dups'
  end.
(** rebuild loop 322-336 *)
Fixpoint rebuild_loop (ty : N) (dups : list bool) (i uc n : nat)
    (cs : list (uval * uval)) (h : heap) : res (nat * list (uval * uval) * heap) :=
  match n with
  | O => Ok (uc, cs, h)
  | S n' =>
      let* di := cell dups i in
      let* x := cell cs i in
      if (di : bool) then
        let* h1 := free (fst x) h in
        let* h2 :=
          if (ty =? VT_STRING)%N || (ty =? VT_MAP_STRING)%N then
            let* z := is_null (snd x) in
            if (z : bool) then Ok h1 else free (snd x) h1
          else Ok h1 in
        rebuild_loop ty dups (S i) uc n' cs h2
      else
        let* cs' := if (i =? uc)%nat then Ok cs else set_cell cs uc x in
        rebuild_loop ty dups (S i) (S uc) n' cs' h
  end.
Definition make_map_values_unique : HM nat :=
  let! o := get_opt in
  let count := value_count o in
  let ty := d_vtype (decl_of o) in
  if (count <=? 1)%nat then hret count
  else
    let! r := hmalloc BTmp in
    match r with
    | None => hret count
    | Some l =>
        let! h := get_heap in
        let! cs := hderef_map (value o) in
        let! dups := hlift (mark_loop (same_map_value ty) h cs O count (replicate count false)) in
        let! (uc, cs', h') := hlift (rebuild_loop ty dups O O count cs h) in
        put_heap h' ;;;
        hstore (value o) (BMap cs') ;;;
        hfree (PHeap l) ;;;
        hret uc
    end.

(** apply_map_flags (multi_values.c 406-445) *)
Definition apply_map_flags `{Libc} : HM unit :=
  let! o := get_opt in
  if (value_count o <=? 1)%nat then hret tt
  else
    let ty := d_vtype (decl_of o) in
    let fl := d_flags (decl_of o) in
    (if has fl FLAG_UNIQUE_VALUE then
       let! n := make_map_values_unique in mod_opt (fun o => with_count o n)
     else hret tt) ;;;
    (if has fl FLAG_SORTED_KEY then sort_map_by_keys
     else if has fl FLAG_SORTED_VALUE then
       if (ty =? VT_MAP_INT)%N then sort_map_by_int_values
       else if (ty =? VT_MAP_STRING)%N then sort_map_by_string_values
       else if (ty =? VT_MAP_FLOAT)%N then sort_map_by_float_values
       else if (ty =? VT_MAP_BOOL)%N then sort_map_by_bool_values
       else hret tt
     else hret tt).

(** MULTI_VALUE_INITIAL_CAPACITY (types.h 290) *)
Definition INITIAL_CAPACITY : nat := 8.

(** Growing an array block to [cap] cells; the new cells are uninitialised. *)
Definition grow_arr (cap : nat) (b : block) : res block :=
  match b with
  | BArr cs => Ok (BArr (take cap cs ++ replicate (cap - length cs) Indet))
  | _ => UB TypeConfusion
  end.
Definition grow_map (cap : nat) (b : block) : res block :=
  match b with
  | BMap cs => Ok (BMap (take cap cs ++ replicate (cap - length cs) (Indet, Indet)))
  | _ => UB TypeConfusion
  end.

(** adjust_array_size (multi_values.c 447-466) and adjust_map_size (468-487);
    [fresh cap] is the block malloc returns. *)
Definition adjust_size (fresh : nat -> block) (grow : nat -> block -> res block) : HM unit :=
  let! o := get_opt in
  let! z := hlift (is_null (value o)) in
  if (z : bool) then
    let! r := hmalloc (fresh INITIAL_CAPACITY) in
    match r with
    | Some l => mod_opt (fun o => with_value (with_capacity o INITIAL_CAPACITY) (PHeap l))
    | None => mod_opt (fun o => with_value (with_capacity o O) VNull)
    end
  else if (value_capacity o <=? value_count o)%nat then
    let cap := (value_capacity o * 2)%nat in
    let! r := hrealloc (value o) (grow cap) in
    match r with
    | Some l => mod_opt (fun o => with_value (with_capacity o cap) (PHeap l))
    | None => hret tt
    end
  else hret tt.
Definition adjust_array_size :=
  adjust_size (fun cap => BArr (replicate cap Indet)) grow_arr.
Definition adjust_map_size :=
  adjust_size (fun cap => BMap (replicate cap (Indet, Indet))) grow_map.

(** map_find_key (multi_values.c 489-496): the loop; None = -1.
    (The index is returned as a natural number, not truncated to int.) *)
Fixpoint map_find_key_loop (h : heap) (cs : list (uval * uval)) (key : cstr) (i n : nat)
  : res (option nat) :=
  match n with
  | O => Ok None
  | S n' =>
      let* kv := cell cs i in
      let* k := read_str h (fst kv) in
      match k with
      | Some s => if strcmp s key =? 0 then Ok (Some i)
                  else map_find_key_loop h cs key (S i) n'
      | None => map_find_key_loop h cs key (S i) n'
      end
  end.
Definition map_find_key (key : cstr) : HM (option nat) :=
  let! o := get_opt in
  if (value_count o =? 0)%nat then hret None
  else
    let! cs := hderef_map (value o) in
    let! h := get_heap in
    hlift (map_find_key_loop h cs key O (value_count o)).

(** ** Handlers *)

(** [as_array[value_count] = x; value_count++] *)
Definition push_value (x : uval) : HM unit :=
  let! o := get_opt in
  arr_write (value o) (value_count o) x ;;;
  mod_opt (fun o => with_count o (S (value_count o))).
(** the same for a map entry *)
Definition push_pair (k v : uval) : HM unit :=
  let! o := get_opt in
  map_write (value o) (value_count o) (k, v) ;;;
  mod_opt (fun o => with_count o (S (value_count o))).

Definition comma : ascii := ","%char.

(** The common frame of the array and map handlers: split at commas, call [one] on
    each element, apply the flags, mark as allocated.
    array_string_handler.c 36-63, array_int_handler.c 120-147,
    array_float_handler.c 25-44, map_string_handler.c 75-104, map_int_handler.c 78-107,
    map_float_handler.c 77-106, map_bool_handler.c 115-144.  *)
Definition list_handler (one : cstr -> HM Z) (apply_flags : HM unit) (v : cstr) : HM Z :=
  let! st :=
    match strchr v comma with
    | Some _ =>
        let! r := split v [comma] in
        match r with
        | None =>
            emit (EDiag E_MEMORY [MText $"Failed to split string '"; MStr (Some v); MText $"'"]) ;;; hret E_MEMORY
        | Some p =>
            let! cells := hderef_arr p in
            let! st := for_words cells one in
            free_split p ;;; hret st
        end
    | None => one v
    end in
  if st =? SUCCESS then
    apply_flags ;;;
    mod_opt (fun o => with_allocated o true) ;;;
    hret SUCCESS
  else hret st.

(** set_value (array_float_handler.c 18-23) *)
Definition set_value_float `{Libc} (v : cstr) : HM Z :=
  adjust_array_size ;;; push_value (of_float (strtof v)) ;;; hret SUCCESS.

(** search_range_separator (array_int_handler.c 37-49): position of the
    separator; [prev] is the character before [s]. *)
Fixpoint search_range_separator (prev : option ascii) (s : cstr) (i : nat) : option nat :=
  match s with
  | [] => None
  | c :: s' =>
      let next_ok := match s' with n :: _ => isdigit n || Ascii.eqb n "-" | [] => false end in
      let prev_ok := match prev with Some p => isdigit p | None => false end in
      if (Ascii.eqb c "-" || Ascii.eqb c ":") && prev_ok && next_ok then Some i
      else search_range_separator (Some c) s' (S i)
  end.

(** parse_int_range (array_int_handler.c 59-83): start and end *)
Definition parse_int_range (v : cstr) : option (Z * Z) :=
  match search_range_separator None v O with
  | Some i =>
      let s := to_int32 (fst (strtoll v)) in
      let e := to_int32 (fst (strtoll (drop (S i) v))) in
      Some (Z.min s e, Z.max s e)
  | None =>
      let '(x, rest) := strtoll v in
      match rest with
      | [] => Some (to_int32 x, to_int32 x)
      | _ :: _ => None
      end
  end.

(** add_range_values (array_int_handler.c 88-95): [n] values from [i] on; the
    increment after INT_MAX is signed overflow. *)
Fixpoint add_range_values (i : Z) (n : nat) : HM unit :=
  match n with
  | O => hret tt
  | S n' =>
      adjust_array_size ;;;
      push_value (of_int i) ;;;
      (if i =? INT_MAX then hub SignedOverflow else add_range_values (i + 1) n')
  end.

(** set_value (array_int_handler.c 100-111) *)
Definition set_value_int (v : cstr) : HM Z :=
  match parse_int_range v with
  | None =>
      emit (EDiag E_INVALID_FORMAT [MText $"Invalid integer or range format: '"; MStr (Some v); MText $"'"]) ;;;
      hret E_INVALID_FORMAT
  | Some (s, e) => add_range_values s (Z.to_nat (e - s + 1)) ;;; hret SUCCESS
  end.

(** set_value (array_string_handler.c 21-34), set_string_value
    (variadic_string_handler.c 21-34) *)
Definition set_value_string (v : cstr) : HM Z :=
  adjust_array_size ;;;
  let! o := get_opt in
  if (value_capacity o =? 0)%nat then hret E_MEMORY
  else
    let! d := hmalloc (BStr v) in
    match d with
    | None => hret E_MEMORY
    | Some l => push_value (PHeap l) ;;; hret SUCCESS
    end.

(** variadic_string_handler (variadic_string_handler.c 36-47) *)
Definition variadic_string_handler `{Libc} (v : cstr) : HM Z :=
  let! st := set_value_string v in
  if st =? SUCCESS then
    apply_array_flags ;;; mod_opt (fun o => with_allocated o true) ;;; hret SUCCESS
  else hret st.

(** set_int_value (variadic_int_handler.c 20-35) *)
Definition set_int_value (v : cstr) : HM Z :=
  adjust_array_size ;;;
  let! o := get_opt in
  if (value_capacity o =? 0)%nat then hret E_MEMORY
  else
    let '(x, rest) := strtoll v in
    match rest with
    | [] => if (length v =? 0)%nat then hret E_INVALID_VALUE
            else push_value (of_int64 x) ;;; hret SUCCESS
    | _ :: _ => hret E_INVALID_VALUE
    end.
(** variadic_int_handler (variadic_int_handler.c 37-50) *)
Definition variadic_int_handler `{Libc} (v : cstr) : HM Z :=
  let! st := set_int_value v in
  if st =? SUCCESS then
    apply_array_flags ;;; mod_opt (fun o => with_allocated o true) ;;; hret SUCCESS
  else
    let! o := get_opt in
    emit (EDiag E_INVALID_VALUE [MText $"Invalid integer value '"; MStr (Some v);
      MText $"' for positional argument '"; MStr (d_name (decl_of o)); MText $"'"]) ;;; hret st.

(** set_float_value (variadic_float_handler.c 19-34) *)
Definition set_float_value `{Libc} (v : cstr) : HM Z :=
  adjust_array_size ;;;
  let! o := get_opt in
  if (value_capacity o =? 0)%nat then hret E_MEMORY
  else
    let '(x, n) := strtod v in
    if (n <? length v)%nat || (n =? 0)%nat then hret E_INVALID_VALUE
    else push_value (of_float x) ;;; hret SUCCESS.
(** variadic_float_handler (variadic_float_handler.c 36-49) *)
Definition variadic_float_handler `{Libc} (v : cstr) : HM Z :=
  let! st := set_float_value v in
  if st =? SUCCESS then
    apply_array_flags ;;; mod_opt (fun o => with_allocated o true) ;;; hret SUCCESS
  else
    let! o := get_opt in
    emit (EDiag E_INVALID_VALUE [MText $"Invalid float value '"; MStr (Some v);
      MText $"' for positional argument '"; MStr (d_name (decl_of o)); MText $"'"]) ;;; hret st.

(** string_to_bool (bool_handler.c 18-42, map_bool_handler.c 32-57): 1, 0 or -1 *)
Definition false_values : list cstr :=
  [$"0"; $"false"; $"no"; $"n"; $"off"; $"0x0"; $"0b0"].
Definition true_values : list cstr :=
  [$"1"; $"true"; $"yes"; $"y"; $"on"; $"0x1"; $"0b1"].
Definition string_to_bool (arg : cstr) : option bool :=
  if (5 <? length arg)%nat then None
  else
    let v := map tolower arg in
    if existsb (fun t => strcmp v t =? 0) true_values then Some true
    else if existsb (fun t => strcmp v t =? 0) false_values then Some false
    else None.

(** bool_handler (bool_handler.c 44-61) *)
Definition bool_handler (arg : option cstr) : HM Z :=
  match arg with
  | None =>
      let! o := get_opt in
      emit (EDiag E_INVALID_ARGUMENT [MText $"Invalid argument for option: '"; MStr (d_name (decl_of o)); MText $"'"]) ;;;
      hret E_INVALID_ARGUMENT
  | Some s =>
      match string_to_bool s with
      | None =>
          emit (EDiag E_INVALID_ARGUMENT [MText $"Invalid boolean value: '"; MStr (Some s);
            MText $"'. Expected 'true' or 'false'"]) ;;;
          hret E_INVALID_ARGUMENT
      | Some b => mod_opt (fun o => with_value o (of_bool b)) ;;; hret SUCCESS
      end
  end.

(** flag_handler (flag_handler.c 14-20) *)
Definition flag_handler : HM Z :=
  mod_opt (fun o => with_value o (of_bool true)) ;;; hret SUCCESS.
(** int_handler (int_handler.c 16-21) *)
Definition int_handler (v : cstr) : HM Z :=
  mod_opt (fun o => with_value o (of_int64 (fst (strtoll v)))) ;;; hret SUCCESS.
(** float_handler (float_handler.c 17-22) *)
Definition float_handler `{Libc} (v : cstr) : HM Z :=
  mod_opt (fun o => with_value o (of_float (strtof v))) ;;; hret SUCCESS.
(** string_handler (string_handler.c 14-19) *)
Definition string_handler (v : option cstr) : HM Z :=
  mod_opt (fun o => with_value o (match v with Some s => PLit s | None => VNull end)) ;;;
  hret SUCCESS.

Definition equal_sign : ascii := "="%char.

(** Overwrite the value of entry [i] of the option's map. *)
Definition set_map_value (i : nat) (v : uval) : HM unit :=
  let! o := get_opt in
  let! cs := hderef_map (value o) in
  let! kv := hlift (cell cs i) in
  map_write (value o) i (fst kv, v).

(** set_kv_pair of the map handlers whose values are not strings
    (map_int_handler.c 25-71, map_float_handler.c 24-70, map_bool_handler.c 62-107);
    [conv] converts the value text, None = invalid; [kind] and [hint] are the words that differ
    in the message about the value. *)
Definition pair_message (pair : cstr) : message :=
  [MText $"Invalid key-value format, expected 'key=value': '"; MStr (Some pair); MText $"'"].
Definition set_kv_scalar (kind hint : cstr) (conv : cstr -> option uval) (pair : cstr) : HM Z :=
  match strchr pair equal_sign with
  | None => emit (EDiag E_INVALID_FORMAT (pair_message pair)) ;;; hret E_INVALID_FORMAT
  | Some n =>
      let! k := hmalloc (BStr (take n pair)) in
      match k with
      | None =>
          (* the null pointer is handed to %s *)
          emit (EDiag E_MEMORY [MText $"Failed to allocate memory for key '"; MStr None; MText $"'"]) ;;; hret E_MEMORY
      | Some lk =>
          match conv (drop (S n) pair) with
          | None =>
              emit (EDiag E_INVALID_VALUE [MText ($"Invalid " ++ kind ++ $" value for key '"); MStr (Some (take n pair));
                MText $"': '"; MStr (Some (drop (S n) pair)); MText ($"'" ++ hint)]) ;;;
              hret E_INVALID_VALUE
          | Some x =>
              let! idx := map_find_key (take n pair) in
              match idx with
              | Some i => set_map_value i x ;;; hret SUCCESS
              | None => adjust_map_size ;;; push_pair (PHeap lk) x ;;; hret SUCCESS
              end
          end
      end
  end.

(** value conversion of map_int_handler.c 45-53 *)
Definition conv_int (v : cstr) : option uval :=
  let '(x, rest) := strtoll v in
  if (length v =? 0)%nat || negb (length rest =? 0)%nat then None else Some (of_int64 x).
(** value conversion of map_float_handler.c 44-52 *)
Definition conv_float `{Libc} (v : cstr) : option uval :=
  let '(x, n) := strtod v in
  if (length v =? 0)%nat || (n <? length v)%nat then None else Some (of_float x).
(** value conversion of map_bool_handler.c 82-89 *)
Definition conv_bool (v : cstr) : option uval :=
  match string_to_bool v with Some b => Some (of_bool b) | None => None end.

(** set_kv_pair (map_string_handler.c 24-67) *)
Definition set_kv_string (pair : cstr) : HM Z :=
  match strchr pair equal_sign with
  | None => emit (EDiag E_INVALID_FORMAT (pair_message pair)) ;;; hret E_INVALID_FORMAT
  | Some n =>
      let! k := hmalloc (BStr (take n pair)) in
      match k with
      | None =>
          (* the null pointer is handed to %s *)
          emit (EDiag E_MEMORY [MText $"Failed to allocate memory for key '"; MStr None; MText $"'"]) ;;; hret E_MEMORY
      | Some lk =>
          let! v := hmalloc (BStr (drop (S n) pair)) in
          match v with
          | None =>
              hfree (PHeap lk) ;;;
              emit (EDiag E_MEMORY [MText $"Failed to allocate memory for value '"; MStr None; MText $"'"]) ;;;
              hret E_MEMORY
          | Some lv =>
              let! idx := map_find_key (take n pair) in
              match idx with
              | Some i =>
                  let! o := get_opt in
                  let! cs := hderef_map (value o) in
                  let! kv := hlift (cell cs i) in
                  hfree (snd kv) ;;;
                  set_map_value i (PHeap lv) ;;; hret SUCCESS
              | None =>
                  adjust_map_size ;;; push_pair (PHeap lk) (PHeap lv) ;;; hret SUCCESS
              end
          end
      end
  end.

(** Passing a null [char *] to a function that reads it. *)
Definition need {A} (v : option cstr) (k : cstr -> HM A) : HM A :=
  match v with Some s => k s | None => hub NullDeref end.

(** [option->handler(argus, option, value)]; [active] is the table that
    get_active_options returns (help_handler.c 20). *)
Definition run_handler `{Libc} (active : nat) (f : handler) (v : option cstr) : HM Z :=
  match f with
  | HFlag => flag_handler
  | HBool => bool_handler v
  | HString => string_handler v
  | HInt => need v int_handler
  | HFloat => need v float_handler
  | HArrayString => need v (list_handler set_value_string apply_array_flags)
  | HArrayInt => need v (list_handler set_value_int apply_array_flags)
  | HArrayFloat => need v (list_handler set_value_float apply_array_flags)
  | HMapString => need v (list_handler set_kv_string apply_map_flags)
  | HMapInt => need v (list_handler (set_kv_scalar $"integer" [] conv_int) apply_map_flags)
  | HMapFloat => need v (list_handler (set_kv_scalar $"float" [] conv_float) apply_map_flags)
  | HMapBool => need v (list_handler (set_kv_scalar $"boolean" $" (expected true/false, yes/no, 1/0, on/off, y/n)" conv_bool) apply_map_flags)
  | HVariadicString => need v variadic_string_handler
  | HVariadicInt => need v variadic_int_handler
  | HVariadicFloat => need v variadic_float_handler
  | HHelp => emit (EHelp active) ;;; hret SUCCESS      (* help_handler.c 15-25 *)
  | HVersion => emit EVersion ;;; hret SUCCESS          (* version_handler.c 15-22 *)
  | HCustom f =>
      let! o := get_opt in
      let '(st, x) := f v (value o) in
      mod_opt (fun o => with_value o x) ;;; hret st
  end.

(** ** Free handlers *)

(** free_map_* : the loop over the entries *)
Fixpoint free_pairs (values_too : bool) (p : uval) (i n : nat) : HM unit :=
  match n with
  | O => hret tt
  | S n' =>
      let! cs := hderef_map p in
      let! kv := hlift (cell cs i) in
      hfree (fst kv) ;;;
      (if values_too then hfree (snd kv) else hret tt) ;;;
      free_pairs values_too p (S i) n'
  end.

(** default_free (default_free.c 15-19); free_array_string_handler
    (array_string_handler.c 65-71), free_variadic_string_handler
    (variadic_string_handler.c 49-55); free_map_string_handler (map_string_handler.c
    109-119), free_map_int_handler (map_int_handler.c 112-121), free_map_float_handler
    (map_float_handler.c 111-120), free_map_bool_handler (map_bool_handler.c 149-158) *)
Definition free_map (values_too : bool) : HM unit :=
  let! o := get_opt in
  let! z := hlift (is_null (value o)) in
  if (z : bool) then hret tt
  else free_pairs values_too (value o) O (value_count o) ;;; hfree (value o).
Definition run_free (f : free_handler_t) : HM unit :=
  let! o := get_opt in
  match f with
  | FDefault => hfree (value o)
  | FArrayString | FVariadicString =>
      free_cells (value o) O (value_count o) ;;; hfree (value o)
  | FMapString => free_map true
  | FMapInt | FMapFloat | FMapBool => free_map false
  end.

(** free_option_value (value_utils.c 17-28) *)
Definition free_option_value : HM unit :=
  let! o := get_opt in
  if is_allocated o then
    (match d_free (decl_of o) with
     | Some f => run_free f
     | None => hfree (value o)
     end) ;;;
    mod_opt (fun o => with_value (with_allocated o false) VNull)
  else hret tt.
