(** * Specification of the screens *)
From Coq Require Import Sorting.Sorted.
From Verif Require Export SpecBuffer Display.

(** ** Wrapping

    [cut_into w text lines]: [text] is cut into [lines] of at most [w] characters.  A line
    ends at a newline of the text, at a space of the text, or, when [w] characters hold no
    space but possibly a leading one, in the middle of a word.  Only that newline or space
    is dropped.  A line ends at a space only if it is the last space among the [w] characters
    that come first. *)
Inductive cut_into (w : nat) : cstr -> list cstr -> Prop :=
  | cut_last t : newline ∉ t -> (length t < w)%nat -> cut_into w t [t]
  | cut_newline l t ls :
      newline ∉ l -> (length l <= w)%nat -> cut_into w t ls ->
      cut_into w (l ++ newline :: t) (l :: ls)
  | cut_space l u v ls :
      l <> [] -> newline ∉ l ++ u -> " "%char ∉ u -> length (l ++ " "%char :: u) = w ->
      cut_into w (u ++ v) ls -> cut_into w (l ++ " "%char :: u ++ v) (l :: ls)
  | cut_word l t ls :
      newline ∉ l -> " "%char ∉ tail l -> length l = w -> cut_into w t ls ->
      cut_into w (l ++ t) (l :: ls).

(** [t] is [ls] with nothing, a space or a newline between two lines. *)
Inductive rejoined : list cstr -> cstr -> Prop :=
  | rejoined_one l : rejoined [l] l
  | rejoined_more l ls sep t :
      sep = [] \/ sep = [" "%char] \/ sep = [newline] -> rejoined ls t ->
      rejoined (l :: ls) (l ++ sep ++ t).

(** The lines on the screen: each but the first is preceded by [pad], except an empty line at
    the end. *)
Fixpoint layout (pad : cstr) (ls : list cstr) : cstr :=
  match ls with
  | [] => []
  | [l] => l
  | [l; []] => l ++ [newline]
  | l :: ls' => l ++ newline :: pad ++ layout pad ls'
  end.

(** Words separated by single spaces. *)
Fixpoint unwords (ws : list cstr) : cstr :=
  match ws with
  | [] => []
  | [w] => w
  | w :: ws' => w ++ " "%char :: unwords ws'
  end.
(** A word: not empty, no space, no newline. *)
Definition is_word (w : cstr) : Prop := w <> [] /\ " "%char ∉ w /\ newline ∉ w.

(** ** Organising *)

(** The group an entry stands in: the name of the last group entry before it, if it has one. *)
Definition is_group (o : opt) : bool :=
  match d_type (decl_of o) with TGroup => true | _ => false end.
Definition group_at (T : list opt) (i : nat) : option cstr :=
  match last (List.filter is_group (take i T)) with
  | Some o => d_name (decl_of o)
  | None => None
  end.
Definition entry_is (ty : optype) (o : opt) : bool :=
  match d_type (decl_of o), ty with
  | TOption, TOption | TGroup, TGroup | TPositional, TPositional
  | TSubcommand, TSubcommand => true
  | _, _ => false
  end.
(** An option that is not hidden (flag bit 1, types.h 82). *)
Definition visible (o : opt) : bool :=
  entry_is TOption o && negb (N.testbit (d_flags (decl_of o)) 1).

(** The positions of the entries that satisfy [f], in order. *)
Definition positions (f : nat -> opt -> bool) (T : list opt) : list nat :=
  List.filter (fun i => match T !! i with Some o => f i o | None => false end)
    (seq 0 (length T)).
Definition in_group (T : list opt) (n : option cstr) (i : nat) (o : opt) : bool :=
  visible o && bool_decide (group_at T i = n).

(** [D] shows table [T]: each list has the right entries in order, each group is shown once
    with at least one option, and groups come in the order of their first options. *)
Definition first_index (g : group) : nat :=
  match g_options g with (_, i) :: _ => i | [] => O end.
Record organized (T : list opt) (D : help_data) : Prop := {
  org_positionals : map snd (hd_positionals D) = positions (fun _ => entry_is TPositional) T;
  org_subcommands : map snd (hd_subcommands D) = positions (fun _ => entry_is TSubcommand) T;
  org_ungrouped : map snd (hd_ungrouped D) = positions (in_group T None) T;
  org_group : forall g, g ∈ hd_groups D ->
    map snd (g_options g) = positions (in_group T (Some (g_name g))) T /\ g_options g <> [];
  org_names : NoDup (map g_name (hd_groups D));
  org_all : forall i o n, T !! i = Some o -> visible o = true -> group_at T i = Some n ->
    n ∈ map g_name (hd_groups D);
  org_order : StronglySorted (fun g g' => (first_index g < first_index g')%nat) (hd_groups D);
}.

(** ** Texts *)

(** Values separated by '|'. *)
Fixpoint bars (l : list cstr) : cstr :=
  match l with
  | [] => []
  | [t] => t
  | t :: l' => t ++ "|"%char :: bars l'
  end.
