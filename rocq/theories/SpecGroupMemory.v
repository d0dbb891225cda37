(** * Specification: the memory that the help screen asks for first

    Before printing, the help asks for one cell for every entry that it will list, and before
    the first listed option of a group for a record of that group. *)
From Verif Require Export SpecDisplay.

(** No option listed before position [i] is in the group named [n]. *)
Definition first_of_group (T : list opt) (i : nat) (n : cstr) : bool :=
  bool_decide (positions (in_group (take i T) (Some n)) (take i T) = []).
(** The requests for the entry at position [i]; [true] asks for the record of a group. *)
Definition requests_at (T : list opt) (i : nat) : list bool :=
  match T !! i with
  | None => []
  | Some o =>
      if visible o then
        match group_at T i with
        | Some n => if first_of_group T i n then [true; false] else [false]
        | None => [false]
        end
      else if entry_is TPositional o || entry_is TSubcommand o then [false] else []
  end.
Definition requests (T : list opt) : list bool := concat (map (requests_at T) (seq 0 (length T))).
(** A record of a group is refused; [oom] tells which requests are. *)
Definition record_refused (T : list opt) (oom : list bool) : Prop :=
  exists k, requests T !! k = Some true /\ oom !! k = Some true.
