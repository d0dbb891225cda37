(** * Byte buffers and the bounded string functions (includes/argus/internal/cross_platform.h)

    A buffer is the list of its bytes; [None] is a byte that was never written.  Sizes are
    [size_t] values (numbers below 2^64).  Source strings are terminated C strings in other
    objects than the destination (the C library functions require that). *)
From Verif Require Export State.

Notation bytes := (list (option ascii)).
Definition terminator : ascii := Ascii.zero.

(** [strlen]: reads up to the first terminator. *)
Fixpoint strlen (b : bytes) : res nat :=
  match b with
  | [] => UB OutOfBounds
  | None :: _ => UB UninitRead
  | Some c :: b' =>
      if Ascii.eqb c terminator then Ok O else let* n := strlen b' in Ok (S n)
  end.

(** The C string that starts at the beginning of the buffer. *)
Fixpoint read_string (b : bytes) : res cstr :=
  match b with
  | [] => UB OutOfBounds
  | None :: _ => UB UninitRead
  | Some c :: b' =>
      if Ascii.eqb c terminator then Ok [] else let* s := read_string b' in Ok (c :: s)
  end.

(** Storing the bytes [s] from offset [off] on. *)
Definition write (b : bytes) (off : nat) (s : list ascii) : res bytes :=
  if (off + length s <=? length b)%nat
  then Ok (take off b ++ map Some s ++ drop (off + length s) b)
  else UB OutOfBounds.

(** The unbounded C library functions. *)
Definition strcpy (dest : bytes) (src : cstr) : res bytes :=
  write dest O (src ++ [terminator]).
(** [strncpy] stores exactly [n] bytes, padding with terminators. *)
Definition strncpy (dest : bytes) (src : cstr) (n : nat) : res bytes :=
  write dest O (take n src ++ replicate (n - length src) terminator).
Definition strcat (dest : bytes) (src : cstr) : res bytes :=
  let* k := strlen dest in write dest k (src ++ [terminator]).
Definition strncat (dest : bytes) (src : cstr) (n : nat) : res bytes :=
  let* k := strlen dest in write dest k (take n src ++ [terminator]).

(** The bounded functions: whether the result is non-null, and the destination afterwards.
    [None] is a null pointer. *)

(** safe_strcpy (cross_platform.h 64-74) *)
Definition safe_strcpy (dest : option bytes) (dest_size : Z) (src : option cstr)
  : res (bool * option bytes) :=
  match dest, src with
  | Some d, Some s =>
      if dest_size =? 0 then Ok (false, dest)
      else if dest_size <=? Z.of_nat (length s) then Ok (false, dest)
      else let* d' := strcpy d s in Ok (true, Some d')
  | _, _ => Ok (false, dest)
  end.

(** safe_strncpy (cross_platform.h 76-86) *)
Definition safe_strncpy (dest : option bytes) (dest_size : Z) (src : option cstr) (count : Z)
  : res (bool * option bytes) :=
  match dest, src with
  | Some d, Some s =>
      if dest_size =? 0 then Ok (false, dest)
      else
        let copy_len := Z.to_nat (if count <? dest_size - 1 then count else dest_size - 1) in
        let* d1 := strncpy d s copy_len in
        let* d2 := write d1 copy_len [terminator] in
        Ok (true, Some d2)
  | _, _ => Ok (false, dest)
  end.

(** safe_strcat (cross_platform.h 88-100); the sum of two lengths is taken modulo 2^64 *)
Definition safe_strcat (dest : option bytes) (dest_size : Z) (src : option cstr)
  : res (bool * option bytes) :=
  match dest, src with
  | Some d, Some s =>
      if dest_size =? 0 then Ok (false, dest)
      else
        let* dest_len := strlen d in
        if dest_size <=? (Z.of_nat dest_len + Z.of_nat (length s)) mod two64
        then Ok (false, dest)
        else let* d' := strcat d s in Ok (true, Some d')
  | _, _ => Ok (false, dest)
  end.

(** safe_strncat (cross_platform.h 102-117); [available] is taken modulo 2^64 *)
Definition safe_strncat (dest : option bytes) (dest_size : Z) (src : option cstr) (count : Z)
  : res (bool * option bytes) :=
  match dest, src with
  | Some d, Some s =>
      if dest_size =? 0 then Ok (false, dest)
      else
        let* dest_len := strlen d in
        let available := (dest_size - Z.of_nat dest_len - 1) mod two64 in
        if available =? 0 then Ok (false, dest)
        else
          let copy_len := Z.to_nat (if count <? available then count else available) in
          let* d' := strncat d s copy_len in
          Ok (true, Some d')
  | _, _ => Ok (false, dest)
  end.

(** The scan of safe_strndup (cross_platform.h 125-127): number of bytes before the first
    terminator, at most [n] *)
Fixpoint scan (s : bytes) (n : nat) {struct n} : res nat :=
  match n with
  | O => Ok O
  | S n' =>
      match s with
      | [] => UB OutOfBounds
      | None :: _ => UB UninitRead
      | Some c :: s' =>
          if Ascii.eqb c terminator then Ok O else let* k := scan s' n' in Ok (S k)
      end
  end.
(** safe_strndup (cross_platform.h 119-137): the new block, [None] when [malloc] fails
    ([got] = malloc succeeds) *)
Definition safe_strndup (s : bytes) (n : nat) (got : bool) : res (option bytes) :=
  let* len := scan s n in
  if got then
    let* b := write (replicate (len + 1) None) O
                (omap (fun c => c) (take len s)) in
    let* b' := write b len [terminator] in
    Ok (Some b')
  else Ok None.
