(** * A command seen as a program of its own: property C90 *)
From Verif Require Import Validate Api LibProofs SpecGrammar GrammarProofs GrammarLemmas MoreFacts SpecNest NestWhole NestAccess ExLib ExGrammar ExAfter
  SpecAfter.

(** ** C90 *)

(** "prog command words…" ends as a program would that has the description of the command and is
    called with those words: accepted, refused or left in the same way, with the same values,
    messages and memory.  The program itself asks for nothing (see [idle]), and at most 7 commands
    follow the first, which is what the stack of commands has room for. *)
Theorem C90_whole `{Libc} a T i c t w argv o b : fresh a -> a_tabs a !! a_root a = Some T ->
  (forall s, w <> "-"%char :: s) -> selects (map decl_of T) w i -> T !! i = Some c -> d_sub (decl_of c) = Some t ->
  idle a T i -> argus_parse (as_program t a) argv = Ok (o, b) -> (length (a_stack b) < 8)%nat ->
  argus_parse a (w :: argv) = Ok (o, as_command (a_root a) i T b).
Proof. exact (nested a T i c t w argv o b). Qed.
Print Assumptions C90_whole.

(** For the words alone, before variables and final checks, the program may ask for anything. *)
Theorem C90_reading `{Libc} a T i c t w argv st b : fresh a -> a_tabs a !! a_root a = Some T ->
  (forall s, w <> "-"%char :: s) -> selects (map decl_of T) w i -> T !! i = Some c -> d_sub (decl_of c) = Some t ->
  parse_args (as_program t a) (Some t) 0 false argv = Ok (st, b) -> (length (a_stack b) < 8)%nat ->
  parse_args a (Some (a_root a)) 0 false (w :: argv) = Ok (st, as_command (a_root a) i T b).
Proof. exact (nested_reading a T i c t w argv st b). Qed.
Print Assumptions C90_reading.

(** Afterwards a name that the command's own program knows is answered alike: value, mark, count and elements. *)
Theorem C90_value `{Libc} a T i c t w argv b p v b' : fresh a -> a_tabs a !! a_root a = Some T ->
  (forall s, w <> "-"%char :: s) -> selects (map decl_of T) w i -> T !! i = Some c -> d_sub (decl_of c) = Some t ->
  idle a T i -> argus_parse (as_program t a) argv = Ok (Returned 0, b) -> (length (a_stack b) < 8)%nat ->
  "."%char ∉ p -> argus_get b (Some p) = Ok (v, b') -> a_err b' = 0 ->
  argus_get (as_command (a_root a) i T b) (Some p) = Ok (v, as_command (a_root a) i T b') /\
  argus_is_set (as_command (a_root a) i T b) (Some p) = argus_is_set b (Some p) /\
  argus_count (as_command (a_root a) i T b) (Some p) = argus_count b (Some p) /\
  forall k x b2, argus_array_get b (Some p) k = Ok (x, b2) ->
    argus_array_get (as_command (a_root a) i T b) (Some p) k = Ok (x, as_command (a_root a) i T b2).
Proof. exact (fun h1 h2 h3 h4 h5 h6 h7 h8 h9 => nested_value a T i c t w argv b h1 h2 h3 h4 h5 h6 h7 h8 h9 p v b'). Qed.
Print Assumptions C90_value.
(** So are the keys of maps, and what the iterators over arrays and maps start from. *)
Theorem C90_collections `{Libc} a T i c t w argv b p v b' : fresh a -> a_tabs a !! a_root a = Some T ->
  (forall s, w <> "-"%char :: s) -> selects (map decl_of T) w i -> T !! i = Some c -> d_sub (decl_of c) = Some t ->
  idle a T i -> argus_parse (as_program t a) argv = Ok (Returned 0, b) -> (length (a_stack b) < 8)%nat ->
  "."%char ∉ p -> argus_get b (Some p) = Ok (v, b') -> a_err b' = 0 ->
  (forall key x b2, argus_map_get b (Some p) key = Ok (x, b2) ->
    argus_map_get (as_command (a_root a) i T b) (Some p) key = Ok (x, as_command (a_root a) i T b2)) /\
  argus_array_it (as_command (a_root a) i T b) (Some p) = argus_array_it b (Some p) /\
  argus_map_it (as_command (a_root a) i T b) (Some p) = argus_map_it b (Some p).
Proof. exact (fun h1 h2 h3 h4 h5 h6 h7 h8 h9 => nested_collections a T i c t w argv b h1 h2 h3 h4 h5 h6 h7 h8 h9 p v b'). Qed.
Print Assumptions C90_collections.
(** Any other name is looked up in the program's own table, as with a leading dot. *)
Theorem C90_unknown `{Libc} a T i c t w argv b p v b' : fresh a -> a_tabs a !! a_root a = Some T ->
  (forall s, w <> "-"%char :: s) -> selects (map decl_of T) w i -> T !! i = Some c -> d_sub (decl_of c) = Some t ->
  idle a T i -> argus_parse (as_program t a) argv = Ok (Returned 0, b) -> (length (a_stack b) < 8)%nat ->
  "."%char ∉ p -> argus_get b (Some p) = Ok (v, b') -> a_err b' <> 0 ->
  argus_get (as_command (a_root a) i T b) (Some p) = argus_get (as_command (a_root a) i T b) (Some ("."%char :: p)).
Proof. exact (fun h1 h2 h3 h4 h5 h6 h7 h8 h9 => nested_unknown a T i c t w argv b h1 h2 h3 h4 h5 h6 h7 h8 h9 p v b'). Qed.
Print Assumptions C90_unknown.
(** A path through the command, "command.path", finds what its own program finds by the path; for a
    last component alone, what that program finds by ".name".  The name of the command has no dot. *)
Theorem C90_path `{Libc} a T i c t w argv b p q n v b' : fresh a -> a_tabs a !! a_root a = Some T ->
  (forall s, w <> "-"%char :: s) -> selects (map decl_of T) w i -> T !! i = Some c -> d_sub (decl_of c) = Some t ->
  idle a T i -> argus_parse (as_program t a) argv = Ok (Returned 0, b) -> (length (a_stack b) < 8)%nat ->
  d_name (decl_of c) = Some n -> n <> [] -> "."%char ∉ n ->
  ("."%char ∈ p /\ (forall s, p <> "."%char :: s) /\ q = p \/ "."%char ∉ p /\ q = "."%char :: p) ->
  argus_get b (Some q) = Ok (v, b') ->
  argus_get (as_command (a_root a) i T b) (Some (n ++ "."%char :: p)) = Ok (v, as_command (a_root a) i T b') /\
  argus_is_set (as_command (a_root a) i T b) (Some (n ++ "."%char :: p)) = argus_is_set b (Some q) /\
  argus_count (as_command (a_root a) i T b) (Some (n ++ "."%char :: p)) = argus_count b (Some q).
Proof. exact (fun h1 h2 h3 h4 h5 h6 h7 h8 h9 => nested_path a T i c t w argv b h1 h2 h3 h4 h5 h6 h7 h8 h9 p q v b' n). Qed.
Print Assumptions C90_path.
(** If a further command follows, argus_exec runs the action that the command's own program would run. *)
Theorem C90_action `{Libc} a T i c t w argv b act z b' : fresh a -> a_tabs a !! a_root a = Some T ->
  (forall s, w <> "-"%char :: s) -> selects (map decl_of T) w i -> T !! i = Some c -> d_sub (decl_of c) = Some t ->
  idle a T i -> argus_parse (as_program t a) argv = Ok (Returned 0, b) -> (length (a_stack b) < 8)%nat ->
  a_stack b <> [] -> argus_exec act b = Ok (z, b') ->
  argus_exec act (as_command (a_root a) i T b) = Ok (z, as_command (a_root a) i T b').
Proof. exact (fun h1 h2 h3 h4 h5 h6 h7 h8 h9 => nested_action a T i c t w argv b h1 h2 h3 h4 h5 h6 h7 h8 h9 act z b'). Qed.
Print Assumptions C90_action.

(** If none follows, it runs the action of the command itself. *)
Theorem C90_itself `{Libc} a T i c t w argv b act f : fresh a -> a_tabs a !! a_root a = Some T ->
  (forall s, w <> "-"%char :: s) -> selects (map decl_of T) w i -> T !! i = Some c -> d_sub (decl_of c) = Some t ->
  idle a T i -> argus_parse (as_program t a) argv = Ok (Returned 0, b) -> a_stack b = [] -> d_action (decl_of c) = Some f ->
  argus_exec act (as_command (a_root a) i T b) = Ok (act f, as_command (a_root a) i T (add_log b [EAction f])).
Proof.
  intros h1 h2 h3 h4 h5 h6 h7 h8 h9. refine (nested_itself a T i c t w argv b h1 h2 h3 h4 h5 h6 h7 h8 _ act f h9).
  rewrite h9. cbn. lia.
Qed.
Print Assumptions C90_itself.

(** The same behind options and positionals of the program itself: they are read first, and leave the context [a1]. *)
Theorem C90_after `{Libc} a pre k its a1 T i c t w argv st b : fresh a ->
  reached a pre (a_root a) (map decl_of T) k false its -> (forall t' j, Enter t' j ∉ its) ->
  perform a its = Ok (0, a1) -> a_tabs a1 !! a_root a = Some T ->
  (forall s, w <> "-"%char :: s) -> selects (map decl_of T) w i -> T !! i = Some c -> d_sub (decl_of c) = Some t ->
  parse_args (as_program t a1) (Some t) 0 false argv = Ok (st, b) -> (length (a_stack b) < 8)%nat ->
  parse_args a (Some (a_root a)) 0 false (pre ++ w :: argv) = Ok (st, as_command (a_root a) i T b).
Proof. exact (nested_after a pre k its a1 T i c t w argv st b). Qed.
Print Assumptions C90_after.

(** ** Examples *)

Definition T_tree : list opt := default [] (head ex_tree).
Definition start_entry : opt := nth 2 T_tree HELP_OPTION.
Lemma start_selects : selects (map decl_of T_tree) ($"start") 2.
Proof.
  split; [|left; exists (decl_of start_entry); by split].
  exists (decl_of start_entry). split; [reflexivity|]. split.
  - split; [reflexivity|]. by exists [].
  - intros [|[|j]] d L Hd; [injection Hd as <-; by intros [? _]..|lia].
Qed.
Lemma tree_idle : idle (H := env1) ex_tree_ctx T_tree 2.
Proof.
  assert (F : Forall (fun o => (is_set o = false /\ is_allocated o = false) /\ env_variable None (decl_of o) = None /\
    d_type (decl_of o) <> TPositional) T_tree) by (repeat constructor; done).
  rewrite Forall_forall in F. split.
  - intros o Ho. by apply F.
  - intros o n Ho. cbn. by rewrite (proj1 (proj2 (F o Ho))).
  - intros o Ho E. by destruct (proj2 (proj2 (F o Ho))).
  - intros o [= <-]. done.
Qed.
Definition words : list cstr := [$"-o"; $"x"; $"w"].
Lemma no_dash : forall s, $"start" <> "-"%char :: s.
Proof. intros s. discriminate. Qed.
(** Accepted: "prog start -o x w" *)
Example C90_whole_example :
  argus_parse (H := env1) ex_tree_ctx ($"start" :: words) =
    Ok (Returned 0, as_command 0 2 T_tree (ran env1 (as_program 1 ex_tree_ctx) words)).
Proof.
  refine (C90_whole (H := env1) ex_tree_ctx T_tree 2 start_entry 1 ($"start") words _ _
    tree_fresh eq_refl no_dash start_selects eq_refl eq_refl tree_idle _ _).
  - vm_compute. reflexivity.
  - vm_compute. repeat constructor.
Qed.
(** Refused: a second word where the command takes one *)
Example C90_refused_example :
  argus_parse (H := env1) ex_tree_ctx ($"start" :: words ++ [$"y"]) =
    Ok (Returned E_INVALID_ARGUMENT, as_command 0 2 T_tree (ran env1 (as_program 1 ex_tree_ctx) (words ++ [$"y"]))).
Proof.
  refine (C90_whole (H := env1) ex_tree_ctx T_tree 2 start_entry 1 ($"start") (words ++ [$"y"]) _ _
    tree_fresh eq_refl no_dash start_selects eq_refl eq_refl tree_idle _ _).
  - vm_compute. reflexivity.
  - vm_compute. repeat constructor.
Qed.
Definition read_by (a : argus) (r : nat) (ws : list cstr) : argus :=
  match parse_args (H := env1) a (Some r) 0 false ws with Ok (_, b) => b | UB _ => a end.
Example C90_reading_example :
  parse_args (H := env1) ex_tree_ctx (Some 0%nat) 0 false ($"start" :: words) =
    Ok (0, as_command 0 2 T_tree (read_by (as_program 1 ex_tree_ctx) 1 words)).
Proof.
  refine (C90_reading (H := env1) ex_tree_ctx T_tree 2 start_entry 1 ($"start") words _ _
    tree_fresh eq_refl no_dash start_selects eq_refl eq_refl _ _).
  - vm_compute. reflexivity.
  - vm_compute. repeat constructor.
Qed.

(** Two commands deep: "prog remote add -t a,b -D k=v u" *)
Definition ex_deep : list (list opt) :=
  [[HELP_OPTION;
    OPTION_FLAG "v" (Some ($"verbose")) [hlp];
    SUBCOMMAND (Some ($"remote")) (Some 1%nat) [hlp; ACTION 3]];
   [HELP_OPTION;
    SUBCOMMAND (Some ($"add")) (Some 2%nat) [hlp; ACTION 4]];
   [HELP_OPTION;
    OPTION_ARRAY_STRING "t" (Some ($"tags")) [hlp];
    OPTION_MAP_STRING "D" (Some ($"define")) [hlp];
    POSITIONAL_STRING ($"url") [hlp]]].
Definition deep_ctx : argus := make_argus ex_deep 0 None.
Definition T_deep : list opt := default [] (head ex_deep).
Definition remote_entry : opt := nth 2 T_deep HELP_OPTION.
Definition deep_words : list cstr := [$"add"; $"-t"; $"a,b"; $"-D"; $"k=v"; $"u"].
Definition own : argus := ran env1 (as_program 1 deep_ctx) deep_words.
Lemma deep_fresh : fresh deep_ctx.
Proof. apply freshb_ok. vm_compute. reflexivity. Qed.
Lemma remote_selects : selects (map decl_of T_deep) ($"remote") 2.
Proof.
  split; [|left; exists (decl_of remote_entry); by split].
  exists (decl_of remote_entry). split; [reflexivity|]. split.
  - split; [reflexivity|]. by exists [].
  - intros [|[|j]] d L Hd; [injection Hd as <-; by intros [? _]..|lia].
Qed.
Lemma deep_idle : idle (H := env1) deep_ctx T_deep 2.
Proof.
  assert (F : Forall (fun o => (is_set o = false /\ is_allocated o = false) /\ env_variable None (decl_of o) = None /\
    d_type (decl_of o) <> TPositional) T_deep) by (repeat constructor; done).
  rewrite Forall_forall in F. split.
  - intros o Ho. by apply F.
  - intros o n Ho. cbn. by rewrite (proj1 (proj2 (F o Ho))).
  - intros o Ho E. by destruct (proj2 (proj2 (F o Ho))).
  - intros o [= <-]. done.
Qed.
Lemma no_dash2 : forall s, $"remote" <> "-"%char :: s.
Proof. intros s. discriminate. Qed.
Lemma own_ran : argus_parse (H := env1) (as_program 1 deep_ctx) deep_words = Ok (Returned 0, own).
Proof. vm_compute. reflexivity. Qed.
Lemma own_short : (length (a_stack own) < 8)%nat.
Proof. vm_compute. repeat constructor. Qed.
Lemma no_dot (p : cstr) : strchr p "." = None -> "."%char ∉ p.
Proof. by rewrite strchr_None. Qed.
Definition own_value (p : cstr) : uval := match argus_get own (Some p) with Ok (v, _) => v | UB _ => VNull end.
Example C90_value_example :
  argus_count (as_command 0 2 T_deep own) (Some ($"tags")) = Ok 2%nat /\
  argus_is_set (as_command 0 2 T_deep own) (Some ($"url")) = Ok true.
Proof.
  split.
  - destruct (C90_value (H := env1) deep_ctx T_deep 2 remote_entry 1 ($"remote") deep_words own ($"tags")
      (own_value ($"tags")) (set_err own 0)
      deep_fresh eq_refl no_dash2 remote_selects eq_refl eq_refl deep_idle own_ran own_short) as (_ & _ & X & _).
    + apply no_dot. reflexivity.
    + vm_compute. reflexivity.
    + reflexivity.
    + change 0%nat with (a_root deep_ctx) at 1. rewrite X. vm_compute. reflexivity.
  - destruct (C90_value (H := env1) deep_ctx T_deep 2 remote_entry 1 ($"remote") deep_words own ($"url")
      (own_value ($"url")) (set_err own 0)
      deep_fresh eq_refl no_dash2 remote_selects eq_refl eq_refl deep_idle own_ran own_short) as (_ & X & _ & _).
    + apply no_dot. reflexivity.
    + vm_compute. reflexivity.
    + reflexivity.
    + change 0%nat with (a_root deep_ctx) at 1. rewrite X. vm_compute. reflexivity.
Qed.
Definition own_key (p key : cstr) : uval := match argus_map_get own (Some p) key with Ok (v, _) => v | UB _ => VNull end.
Example C90_collections_example :
  argus_map_get (as_command 0 2 T_deep own) (Some ($"define")) ($"k") =
    Ok (own_key ($"define") ($"k"), as_command 0 2 T_deep (set_err own 0)) /\
  own_key ($"define") ($"k") <> VNull /\
  argus_map_it (as_command 0 2 T_deep own) (Some ($"define")) = Ok (MapIt (own_value ($"define")) 1 0 VNull VNull).
Proof.
  destruct (C90_collections (H := env1) deep_ctx T_deep 2 remote_entry 1 ($"remote") deep_words own ($"define")
      (own_value ($"define")) (set_err own 0)
      deep_fresh eq_refl no_dash2 remote_selects eq_refl eq_refl deep_idle own_ran own_short) as (X & _ & Y).
  - apply no_dot. reflexivity.
  - vm_compute. reflexivity.
  - reflexivity.
  - split_and!.
    + refine (X _ _ _ _). vm_compute. reflexivity.
    + vm_compute. discriminate.
    + change 0%nat with (a_root deep_ctx) at 1. rewrite Y. vm_compute. reflexivity.
Qed.
(** "verbose" belongs to the program *)
Example C90_unknown_example :
  argus_get (as_command 0 2 T_deep own) (Some ($"verbose")) = argus_get (as_command 0 2 T_deep own) (Some ($".verbose")).
Proof.
  refine (C90_unknown (H := env1) deep_ctx T_deep 2 remote_entry 1 ($"remote") deep_words own ($"verbose") VNull (set_err own 22)
    deep_fresh eq_refl no_dash2 remote_selects eq_refl eq_refl deep_idle own_ran own_short _ _ _).
  - apply no_dot. reflexivity.
  - vm_compute. reflexivity.
  - discriminate.
Qed.
(** "remote.add.tags" is "add.tags" of the program of "remote"; "remote.tags" is not known there, like ".tags" *)
Example C90_path_example :
  argus_get (as_command 0 2 T_deep own) (Some ($"remote.add.tags")) =
    Ok (own_value ($"add.tags"), as_command 0 2 T_deep (set_err own 0)) /\
  own_value ($"add.tags") <> VNull /\
  argus_count (as_command 0 2 T_deep own) (Some ($"remote.add.tags")) = Ok 2%nat /\
  argus_get (as_command 0 2 T_deep own) (Some ($"remote.tags")) = Ok (VNull, as_command 0 2 T_deep (set_err own 22)).
Proof.
  destruct (C90_path (H := env1) deep_ctx T_deep 2 remote_entry 1 ($"remote") deep_words own ($"add.tags") ($"add.tags") ($"remote")
      (own_value ($"add.tags")) (set_err own 0)
      deep_fresh eq_refl no_dash2 remote_selects eq_refl eq_refl deep_idle own_ran own_short eq_refl) as (X & _ & Y).
  - discriminate.
  - apply no_dot. reflexivity.
  - left. split_and!; [apply elem_of_list_In; cbn; auto 10|intros s; discriminate|reflexivity].
  - vm_compute. reflexivity.
  - destruct (C90_path (H := env1) deep_ctx T_deep 2 remote_entry 1 ($"remote") deep_words own ($"tags") ($".tags") ($"remote")
        VNull (set_err own 22)
        deep_fresh eq_refl no_dash2 remote_selects eq_refl eq_refl deep_idle own_ran own_short eq_refl) as (Z & _).
    + discriminate.
    + apply no_dot. reflexivity.
    + right. split; [apply no_dot; reflexivity|reflexivity].
    + vm_compute. reflexivity.
    + split; [exact X|]. split; [vm_compute; discriminate|]. split; [|exact Z].
      refine (eq_trans Y _). vm_compute. reflexivity.
Qed.
Example C90_action_example :
  argus_exec (fun n => if (n =? 4)%nat then 40 else 1) (as_command 0 2 T_deep own) =
    Ok (40, as_command 0 2 T_deep (add_log own [EAction 4])).
Proof.
  refine (C90_action (H := env1) deep_ctx T_deep 2 remote_entry 1 ($"remote") deep_words own _ _ _
    deep_fresh eq_refl no_dash2 remote_selects eq_refl eq_refl deep_idle own_ran own_short _ _).
  - vm_compute. discriminate.
  - vm_compute. reflexivity.
Qed.
(** "prog remote" *)
Example C90_itself_example :
  argus_exec (fun n => if (n =? 3)%nat then 30 else 1) (as_command 0 2 T_deep (ran env1 (as_program 1 deep_ctx) [])) =
    Ok (30, as_command 0 2 T_deep (add_log (ran env1 (as_program 1 deep_ctx) []) [EAction 3])).
Proof.
  refine (C90_itself (H := env1) deep_ctx T_deep 2 remote_entry 1 ($"remote") [] (ran env1 (as_program 1 deep_ctx) [])
    (fun n => if (n =? 3)%nat then 30 else 1) 3
    deep_fresh eq_refl no_dash2 remote_selects eq_refl eq_refl deep_idle _ _ _).
  - vm_compute. reflexivity.
  - vm_compute. reflexivity.
  - reflexivity.
Qed.

(** "prog --verbose start -o x w" *)
Definition after_v : argus := match perform (H := env1) ex_tree_ctx [Call 0 1 None] with Ok (_, x) => x | UB _ => ex_tree_ctx end.
Definition T_v : list opt := default [] (head (a_tabs after_v)).
Lemma reached_v : reached ex_tree_ctx [$"--verbose"] 0 (map decl_of T_v) 0 false [Call 0 1 None].
Proof. exact tree_reached. Qed.
Example C90_after_example :
  parse_args (H := env1) ex_tree_ctx (Some 0%nat) 0 false ([$"--verbose"] ++ $"start" :: words) =
    Ok (0, as_command 0 2 T_v (read_by (as_program 1 after_v) 1 words)).
Proof.
  refine (C90_after (H := env1) ex_tree_ctx [$"--verbose"] 0 [Call 0 1 None] after_v T_v 2 start_entry 1 ($"start") words _ _
    tree_fresh reached_v _ _ eq_refl no_dash start_selects eq_refl eq_refl _ _).
  - intros t j Hx. apply elem_of_list_singleton in Hx. discriminate.
  - vm_compute. reflexivity.
  - vm_compute. reflexivity.
  - vm_compute. repeat constructor.
Qed.
