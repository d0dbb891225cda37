(** * Specification of the command overviews (what argus_exec shows when it runs nothing) *)
From Verif Require Export SpecHelp.

(** ** Lines *)
Definition command_line (c : helper_config) (path : cstr) (help : option cstr) : cstr :=
  $"  " ++ path ++
  spaces (if (length path + 2 <? description_column c)%nat
          then description_column c - (length path + 2) else 2) ++
  match help with Some h => $"- " ++ h | None => [] end ++ [newline].
Definition path_under (base n : cstr) : cstr := base ++ " "%char :: n.
Definition name_of (o : opt) : cstr := default [] (d_name (decl_of o)).
Definition line_of (c : helper_config) (base : cstr) (o : opt) : cstr :=
  command_line c (path_under base (name_of o)) (d_help (decl_of o)).

(** ** All commands *)

(** A command that argus_exec can run. *)
Definition runnable (o : opt) : bool :=
  entry_is TSubcommand o && match d_action (decl_of o) with Some _ => true | None => false end.
Definition children (tabs : list (list opt)) (o : opt) : list opt :=
  match d_sub (decl_of o) with Some t => default [] (tabs !! t) | None => [] end.
(** A command with a runnable command below it. *)
Definition family (tabs : list (list opt)) (o : opt) : bool :=
  entry_is TSubcommand o && existsb runnable (children tabs o).
(** Blocks with an empty line between them. *)
Fixpoint spaced (l : list cstr) : cstr :=
  match l with
  | [] => []
  | [t] => t
  | t :: l' => t ++ newline :: spaced l'
  end.
Definition family_block (c : helper_config) (prog : cstr) (tabs : list (list opt)) (o : opt) : cstr :=
  (if runnable o then line_of c prog o else []) ++
  concat (map (line_of c (path_under prog (name_of o))) (List.filter runnable (children tabs o))).
Definition overview_blocks (c : helper_config) (prog : cstr) (tabs : list (list opt)) (T : list opt)
  : list cstr :=
  match List.filter (fun o => runnable o && negb (family tabs o)) T with
  | [] => []
  | l => [concat (map (line_of c prog) l)]
  end ++
  map (family_block c prog tabs) (List.filter (family tabs) T).
Definition overview (p : program) (tabs : list (list opt)) (T : list opt) : cstr :=
  $"No command specified." ++ [newline; newline] ++ $"Available commands:" ++ [newline] ++
  spaced (overview_blocks (p_config p) (p_name p) tabs T) ++
  [newline] ++ $"Run '" ++ p_name p ++
  $" COMMAND --help' for more information on a specific command." ++ [newline].

(** Subcommands have names and existing tables; their paths fit the buffers. *)
Definition good_command (tabs : list (list opt)) (o : opt) : Prop :=
  entry_is TSubcommand o = true ->
  is_Some (d_name (decl_of o)) /\
  forall t, d_sub (decl_of o) = Some t -> is_Some (tabs !! t).
Definition short_paths (prog : cstr) (tabs : list (list opt)) (T : list opt) : Prop :=
  forall o, o ∈ T -> good_command tabs o /\
    (length (path_under prog (name_of o)) <= 511)%nat /\
    forall o', o' ∈ children tabs o -> good_command tabs o' /\
      (length (path_under (path_under prog (name_of o)) (name_of o')) <= 1023)%nat.

(** ** The commands below one command: each is followed by the commands below it *)
Inductive lists_below (c : helper_config) (tabs : list (list opt)) : cstr -> list opt -> cstr -> Prop :=
  | below_nil base : lists_below c tabs base [] []
  | below_other base o T t :
      entry_is TSubcommand o = false -> lists_below c tabs base T t ->
      lists_below c tabs base (o :: T) t
  | below_leaf base o n T t :
      entry_is TSubcommand o = true -> d_name (decl_of o) = Some n ->
      (length (path_under base n) <= 511)%nat ->
      d_sub (decl_of o) = None -> lists_below c tabs base T t ->
      lists_below c tabs base (o :: T) (command_line c (path_under base n) (d_help (decl_of o)) ++ t)
  | below_node base o n T t k T' u :
      entry_is TSubcommand o = true -> d_name (decl_of o) = Some n ->
      (length (path_under base n) <= 511)%nat ->
      d_sub (decl_of o) = Some k -> tabs !! k = Some T' ->
      lists_below c tabs (path_under base n) T' u -> lists_below c tabs base T t ->
      lists_below c tabs base (o :: T)
        (command_line c (path_under base n) (d_help (decl_of o)) ++ u ++ t).
Definition below_screen (p : program) (names : list cstr) (n body : cstr) : cstr :=
  $"The '" ++ n ++ $"' command cannot be executed by itself." ++ [newline; newline] ++
  $"Available commands:" ++ [newline] ++ body ++
  [newline] ++ $"Run '" ++ p_name p ++ path_words names ++
  $" SUBCOMMAND --help' for more information." ++ [newline].
