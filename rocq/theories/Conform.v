(** * Running the repository's own tests on the model

    The files Conform*.v transcribe the test cases of /repo/tests.  Each becomes an [Example]
    that the model computes; they are evidence that the model is the library, not theorems
    about it.  This file has the harness. *)
From Coq Require Import Floats.SpecFloat.
From Verif Require Export Validate Api ExLib.

(** The numbers that occur in the tests: text, bits of strtod and of strtof, characters read. *)
Definition numbers : list (cstr * Z * Z * nat) :=
  [ (($"-1.41"), 13832400931502015119, 13832400931351691264, 5%nat);
   (($"-2.718"), 13836674847548389720, 13836674847402360832, 6%nat);
   (($"0.0"), 0, 0, 3%nat);
   (($"0.57"), 4603309323120478781, 4603309323056054272, 4%nat);
   (($"1.23e-4"), 4548669923058963014, 4548669923253026816, 7%nat);
   (($"1.41"), 4609028894647239311, 4609028894496915456, 4%nat);
   (($"2.71"), 4613284796295104430, 4613284796381003776, 4%nat);
   (($"3.14"), 4614253070214989087, 4614253070451212288, 4%nat);
   (($"3.14159"), 4614256650576692846, 4614256650843324416, 7%nat)].
Definition number_of (s : cstr) : Z * Z * nat :=
  match List.find (fun e => strcmp (fst (fst (fst e))) s =? 0) numbers with
  | Some (_, d, f, n) => (d, f, n)
  | None => (0, 0, O)
  end.
(** The patterns that occur in the tests, with the subjects they match (PCRE2 is not modelled). *)
Definition EMAIL : cstr := $"^[a-zA-Z0-9._%+-]+@[a-zA-Z0-9.-]+\.[a-zA-Z]{2,}$".
Definition DIGITS : cstr := $"^\d+$".
Definition matching : list (cstr * cstr) :=
  [(EMAIL, $"test@example.com"); (EMAIL, $"user.name+tag@example.co.uk");
   (DIGITS, $"123"); (DIGITS, $"0")].
Definition test_libc (env : list (cstr * cstr)) : Libc := {|
  getenv := fun n =>
    match List.find (fun e => strcmp (fst e) n =? 0) env with
    | Some e => Some (snd e) | None => None end;
  strtod := fun s => let '(d, _, n) := number_of s in (d, n);
  strtof := fun s => let '(_, f, _) := number_of s in f;
  qsort := @insertion_sort;
  regex_enabled := true;
  regex_match := fun p s =>
    if existsb (fun e => (strcmp (fst e) p =? 0) && (strcmp (snd e) s =? 0)) matching
    then RxMatch else RxNoMatch;
  fmt_f := fun _ => [];
  fmt_2g := fun _ => [];
|}.

(** cr_assert_float_eq: the difference is at most [eps]. *)
Definition float_near (x y eps : Z) : bool :=
  match SFcompare (SFabs (SFsub 53 1024 (float_of_bits x) (float_of_bits y))) (float_of_bits eps) with
  | Some Lt | Some Eq => true | _ => false
  end.

(** Where a tested value comes from *)
Inductive source :=
  | Get (path : cstr)                    (* argus_get *)
  | At (path : cstr) (i : nat)           (* argus_array_get *)
  | Key (path key : cstr).               (* argus_map_get *)
(** What is asserted after parsing *)
Inductive check :=
  | Str (w : source) (s : cstr)
  | Int (w : source) (z : Z)
  | Bool (w : source) (b : bool)
  | Float (w : source) (x eps : Z)
  | RawIs (w : source) (z : Z)
  | IsSet (path : cstr) (b : bool)
  | Count (path : cstr) (n : nat)
  | HasCommand (b : bool)
  | Exec (ok : bool) (called : list nat)     (* argus_exec, whether it returns 0, actions run *)
  | Strings (path : cstr) (l : list cstr)    (* iterating, then again after a reset *)
  | Ints (path : cstr) (l : list Z)
  | Pairs (path : cstr) (l : list (cstr * cstr)).

Definition fetch (a : argus) (w : source) : res uval :=
  let* (v, _) :=
    match w with
    | Get p => argus_get a (Some p)
    | At p i => argus_array_get a (Some p) i
    | Key p k => argus_map_get a (Some p) k
    end in
  Ok v.
Definition same (a b : cstr) : bool := strcmp a b =? 0.
Definition yes (r : res bool) : bool := match r with Ok b => b | UB _ => false end.

(** All values an iterator gives, and whether it is at its end after that. *)
Fixpoint iterate (h : heap) (it : option array_it) (n : nat) : res (list uval * option array_it) :=
  let* (more, it') := argus_array_next h it in
  if negb more then Ok ([], it')
  else match n, it' with
       | S n', Some i => let* (l, e) := iterate h it' n' in Ok (it_value i :: l, e)
       | _, _ => UB OutOfBounds
       end.
Fixpoint iterate_map (h : heap) (it : option map_it) (n : nat)
  : res (list (uval * uval) * option map_it) :=
  let* (more, it') := argus_map_next h it in
  if negb more then Ok ([], it')
  else match n, it' with
       | S n', Some i => let* (l, e) := iterate_map h it' n' in Ok ((mt_key i, mt_value i) :: l, e)
       | _, _ => UB OutOfBounds
       end.
Definition lists {A} (eqb : A -> A -> bool) (l m : list A) : bool :=
  (length l =? length m)%nat && forallb (fun p => eqb (fst p) (snd p)) (combine l m).
Definition elements {A} (a : argus) (path : cstr) (read : uval -> res A) (eqb : A -> A -> bool)
    (l : list A) : res bool :=
  let* it := argus_array_it a (Some path) in
  let* (vs, e) := iterate (a_heap a) (Some it) 99 in
  let* xs := map_res read vs in
  let* (vs', _) := iterate (a_heap a) (argus_array_reset e) 99 in
  let* xs' := map_res read vs' in
  Ok ((it_count it =? length l)%nat && lists eqb xs l && lists eqb xs' l).

Definition holds (a : argus) (c : check) : bool :=
  yes match c with
      | Str w s => let* v := fetch a w in let* t := deref_str v (a_heap a) in Ok (same t s)
      | Int w z => let* v := fetch a w in let* x := as_int v in Ok (x =? z)
      | Bool w b => let* v := fetch a w in let* x := as_bool v in Ok (Bool.eqb x b)
      | Float w x e => let* v := fetch a w in let* y := as_float v in Ok (float_near y x e)
      | RawIs w z => let* v := fetch a w in let* x := as_int64 v in Ok (x =? z)
      | IsSet p b => let* x := argus_is_set a (Some p) in Ok (Bool.eqb x b)
      | Count p n => let* x := argus_count a (Some p) in Ok (x =? n)%nat
      | HasCommand b => Ok (Bool.eqb (argus_has_command a) b)
      | Exec ok l =>
          let* (st, a') := argus_exec (fun _ => 0) a in
          Ok (Bool.eqb (st =? 0) ok &&
              lists Nat.eqb (omap (fun e => match e with EAction i => Some i | _ => None end)
                                  (a_log a')) l)
      | Strings p l => elements a p (fun v => deref_str v (a_heap a)) same l
      | Ints p l => elements a p as_int Z.eqb l
      | Pairs p l =>
          let* it := argus_map_it a (Some p) in
          let* (kvs, e) := iterate_map (a_heap a) (Some it) 99 in
          let* xs := map_res (fun kv => let* k := deref_str (fst kv) (a_heap a) in
                                        let* v := deref_str (snd kv) (a_heap a) in Ok (k, v)) kvs in
          let* (more, _) := argus_map_next (a_heap a) (argus_map_reset e) in
          Ok ((mt_count it =? length l)%nat && more &&
              lists (fun x y => same (fst x) (fst y) && same (snd x) (snd y)) xs l)
      end.

(** The expected status of argus_parse *)
Inductive verdict := Succeeds | Fails | Exits.
Definition verdict_is (v : verdict) (o : outcome) : bool :=
  match v, o with
  | Succeeds, Returned z => z =? SUCCESS
  | Fails, Returned z => negb (z =? SUCCESS)
  | Exits, Exited z => z =? 0
  | _, _ => false
  end.
Definition all_released (a : argus) : bool :=
  forallb (fun b : option block => match b with None => true | Some _ => false end)
    (blocks (a_heap a)).

(** argus_init accepts the table, argus_parse gives the expected status, the assertions hold, and
    argus_free (also after a failed parse) is defined and leaves nothing allocated. *)
Definition session (env : list (cstr * cstr)) (prefix : option cstr) (tabs : list (list opt))
    (root : nat) (argv : list cstr) (v : verdict) (cs : list check) : bool :=
  let L := test_libc env in
  yes (let* (i, _) := argus_init (H := L) 9 tabs root 0 in
       match i with
       | None => Ok false
       | Some _ =>
           let* (o, a) := argus_parse (H := L) (make_argus tabs root prefix) argv in
           let* b := match o with
                     | Exited _ => Ok (all_released a)
                     | Returned _ => let* a' := argus_free a in Ok (all_released a')
                     end in
           Ok (verdict_is v o && forallb (holds a) cs && b)
       end).
