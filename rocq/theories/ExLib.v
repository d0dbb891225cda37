(** * A concrete C library and concrete option tables, used only by the examples *)
From Verif Require Import Validate.

Fixpoint insert_sorted {A} (cmp : A -> A -> Z) (x : A) (l : list A) : list A :=
  match l with
  | [] => [x]
  | y :: l' => if cmp x y <=? 0 then x :: y :: l' else y :: insert_sorted cmp x l'
  end.
Definition insertion_sort {A} (cmp : A -> A -> Z) (l : list A) : list A :=
  fold_right (insert_sorted cmp) [] l.

(** Bits of the doubles used in examples. *)
Definition bits_1_5 : Z := 4609434218613702656.   (* 1.5 *)
Definition bits_1 : Z := 4607182418800017408.     (* 1.0 *)
Definition bits_2_5 : Z := 4612811918334230528.   (* 2.5 *)
Definition strtod0 (s : cstr) : Z * nat :=
  if strcmp s ($"1.5") =? 0 then (bits_1_5, 3%nat)
  else if strcmp s ($"2.5") =? 0 then (bits_2_5, 3%nat)
  else if strcmp s ($"1") =? 0 then (bits_1, 1%nat)
  else (0, 0%nat).

(** [env]: the environment *)
Definition libc_env (env : list (cstr * cstr)) : Libc := {|
  getenv := fun n =>
    match List.find (fun e => strcmp (fst e) n =? 0) env with
    | Some e => Some (snd e) | None => None end;
  strtod := strtod0;
  strtof := fun s => fst (strtod0 s);
  qsort := @insertion_sort;
  regex_enabled := true;
  regex_match := fun p s => if strcmp p s =? 0 then RxMatch else RxNoMatch;
  fmt_f := fun _ => [];
  fmt_2g := fun _ => [];
|}.
Definition libc0 : Libc := libc_env [].

(** The structure check wants a help text everywhere. *)
Definition hlp : modifier := HELP ($"text").

(** Table 0: options and positionals. *)
Definition ex_flat : list (list opt) :=
  [[HELP_OPTION;
    OPTION_FLAG "v" (Some ($"verbose")) [hlp];
    OPTION_FLAG "x" None [hlp];
    OPTION_STRING "o" (Some ($"output")) [hlp];
    OPTION_INT "n" (Some ($"num")) [hlp];
    OPTION_ARRAY_STRING "t" (Some ($"tags")) [hlp];
    POSITIONAL_INT ($"count") [hlp];
    POSITIONAL_STRING ($"mode") [hlp];
    POSITIONAL_MANY_STRING ($"files") [hlp]]].
Definition ex_flat_ctx : argus := make_argus ex_flat 0 None.

(** Table 0 with two subcommands, whose tables are 1 and 2. *)
Definition ex_tree : list (list opt) :=
  [[HELP_OPTION;
    OPTION_FLAG "v" (Some ($"verbose")) [hlp];
    SUBCOMMAND (Some ($"start")) (Some 1%nat) [hlp; ACTION 7];
    SUBCOMMAND (Some ($"status")) (Some 2%nat) [hlp; ACTION 8]];
   [HELP_OPTION;
    OPTION_STRING "o" (Some ($"output")) [hlp];
    POSITIONAL_STRING ($"what") [hlp]];
   [HELP_OPTION;
    OPTION_FLAG "q" (Some ($"quiet")) [hlp]]].
Definition ex_tree_ctx : argus := make_argus ex_tree 0 None.

(** Both are accepted by argus_init. *)
Example ex_flat_ok : argus_init (H := libc0) 3 ex_flat 0 0 = Ok (Some ex_flat_ctx, O).
Proof. vm_compute. reflexivity. Qed.
Example ex_tree_ok : argus_init (H := libc0) 3 ex_tree 0 0 = Ok (Some ex_tree_ctx, O).
Proof. vm_compute. reflexivity. Qed.
