(** * Property C70: ordering, choosing and printing single values *)
From Verif Require Import Macros ValueUtils LibProofs SpecGrammar SpecAfter SpecMemory SpecValueUtils OrderProofs ValueUtilsProofs ExLib.

(** ** Comparing *)
Theorem C70_order h ty a b x y : sees h ty a x -> sees h ty b y -> comparable x y ->
  exists r, cmp_value ty a b h = Ok r /\ (r < 0 <-> less x y) /\ (0 < r <-> less y x).
Proof. exact (cmp_value_order h ty a b x y). Qed.
Print Assumptions C70_order.
Example C70_order_example :
  sees fresh_heap VT_STRING (PLit ($"abc")) (SText ($"abc")) /\ sees fresh_heap VT_STRING (PLit ($"abd")) (SText ($"abd")) /\
  comparable (SText ($"abc")) (SText ($"abd")) /\ less (SText ($"abc")) (SText ($"abd")) /\
  cmp_value VT_STRING (PLit ($"abc")) (PLit ($"abd")) fresh_heap = Ok (-1) /\
  cmp_value VT_INT (of_int 100) (of_int 42) fresh_heap = Ok 58.
Proof. split_and!; try (by constructor); try done. by apply strcmp_before. Qed.

(** Numbers further apart than an int can say: undefined, and only those. *)
Theorem C70_overflow h a b x y : as_int a = Ok x -> as_int b = Ok y -> x <> y ->
  (cmp_value VT_INT a b h = UB SignedOverflow <-> ~ -2147483648 <= x - y <= 2147483647).
Proof. exact (cmp_value_overflow h a b x y). Qed.
Print Assumptions C70_overflow.
Theorem C70_distance_refuted : ~ forall h a b x y, sees h VT_INT a x -> sees h VT_INT b y ->
  exists r, cmp_value VT_INT a b h = Ok r.
Proof.
  intros H. destruct (H fresh_heap (of_int 2147483647) (of_int (-1)) (SInt 2147483647) (SInt (-1))) as [r E]; [by constructor..|].
  done.
Qed.
Print Assumptions C70_distance_refuted.
(** A null string is below every string and every string is below it. *)
Theorem C70_null_refuted s h :
  cmp_value VT_STRING VNull (PLit s) h = Ok (-1) /\ cmp_value VT_STRING (PLit s) VNull h = Ok (-1).
Proof. done. Qed.
Print Assumptions C70_null_refuted.
(** So is a NaN among the numbers; yet it is equal to itself. *)
Theorem C70_nan_refuted h : let nan := of_float 9221120237041090560 in let one := of_float 4607182418800017408 in
  cmp_value VT_FLOAT nan one h = Ok (-1) /\ cmp_value VT_FLOAT one nan h = Ok (-1) /\ cmp_value VT_FLOAT nan nan h = Ok 0.
Proof. done. Qed.
Print Assumptions C70_nan_refuted.

(** ** Choosing *)
Theorem C70_choice ty c l i : one_of ty c l -> 
  choices_to_value ty c (length l) i = Ok (default VNull (l !! i)).
Proof. exact (choices_spec ty c l i). Qed.
Print Assumptions C70_choice.
Example C70_choice_example : one_of VT_INT (CInts [10; 20; 30]) [of_int64 10; of_int64 20; of_int64 30] /\
  choices_to_value VT_INT (CInts [10; 20; 30]) 3 2 = Ok (of_int64 30) /\
  choices_to_value VT_INT (CInts [10; 20; 30]) 3 3 = Ok VNull.
Proof. split_and!; try done. constructor. Qed.

(** ** Printing *)
Theorem C70_printed `{Libc} h ty v x t : sees h ty v x -> written x = Some t -> print_value ty v h = Ok t.
Proof. exact (print_value_text h ty v x t). Qed.
Print Assumptions C70_printed.
Theorem C70_printed_list `{Libc} h ty vs xs ts rest :
  Forall2 (sees h ty) vs xs -> Forall2 (fun x t => written x = Some t) xs ts ->
  print_value_array ty (vs ++ rest) h (length vs) = Ok ($"[" ++ joined ts ++ $"]").
Proof. exact (print_array_text h ty vs xs ts rest). Qed.
Print Assumptions C70_printed_list.
Example C70_printed_example :
  Forall2 (sees fresh_heap VT_STRING) [PLit ($"hello"); PLit ($"world")] [SText ($"hello"); SText ($"world")] /\
  print_value_array (H := libc0) VT_STRING [PLit ($"hello"); PLit ($"world")] fresh_heap 2 = Ok ($"[""hello"", ""world""]").
Proof. split; [by repeat constructor|done]. Qed.
(** The null string has no text: printing it is undefined. *)
Theorem C70_print_null_refuted `{Libc} h : sees h VT_STRING VNull SNull /\ print_value VT_STRING VNull h = UB NullDeref.
Proof. split; [constructor|done]. Qed.
Print Assumptions C70_print_null_refuted.
