(** * Property C20: splitting list texts *)
From Verif Require Import Macros SpecGrammar SpecAfter SpecMemory HeapProofs SplitProofs ExLib.

(** ** C20 *)

(** Whatever allocations fail, [split] never goes wrong; with no failure it delivers an array of
    the pieces, each in a block of its own, ended by NULL; after a failure every block it made is
    released again. *)
Theorem C20_split s (cs : cstr) o h lg : exists r h',
  split s cs (Hst o h lg) = Ok (r, Hst o h' lg) /\
  (oom h = [] -> r <> None) /\
  match r with
  | None => forall l b, blocks h' !! l = Some (Some b) <-> blocks h !! l = Some (Some b)
  | Some x => exists p ls ws, x = PHeap p /\ cut (fun c => c ∈ cs) s ws /\ NoDup (p :: ls) /\
      blocks h' !! p = Some (Some (BArr (map PHeap ls ++ [VNull]))) /\
      Forall2 (fun l w => blocks h' !! l = Some (Some (BStr w))) ls ws /\
      moves [] h (p :: ls) h'
  end.
Proof.
  destruct (split_spec s cs o h lg) as (r & s' & E & h' & -> & Ho & Hr). exists r, h'. split; [done|].
  split; [intros H0; by apply Ho|]. destruct r as [x|]; [done|].
  intros l b. split; intros Hb.
  - destruct (mv_live _ _ _ _ Hr l b Hb) as [[]%elem_of_nil|[Hn Hlt]].
    by rewrite <- (mv_frame _ _ _ _ Hr l Hlt Hn).
  - eapply moves_other; [exact Hr|apply not_elem_of_nil|done].
Qed.
Print Assumptions C20_split.
(** Every text has exactly one list of pieces; … *)
Theorem C20_pieces_exist (cs s : cstr) : exists ws, cut (fun c => c ∈ cs) s ws.
Proof. exact (cut_total cs s). Qed.
Print Assumptions C20_pieces_exist.
Theorem C20_pieces_unique (sep : ascii -> Prop) s ws1 ws2 : cut sep s ws1 -> cut sep s ws2 -> ws1 = ws2.
Proof. intros H1. exact (cut_fun sep s ws1 H1 ws2). Qed.
Print Assumptions C20_pieces_unique.
(** … no piece is empty or contains a separator, … *)
Theorem C20_pieces_clean (sep : ascii -> Prop) s ws w :
  cut sep s ws -> w ∈ ws -> w <> [] /\ forall c, c ∈ w -> ~ sep c.
Proof. intros Hc. exact (cut_words sep s ws Hc w). Qed.
Print Assumptions C20_pieces_clean.
(** … and together they are all characters that are not separators, in order. *)
Theorem C20_pieces_lossless (sep : ascii -> bool) s ws :
  cut (fun c => sep c = true) s ws -> concat ws = List.filter (fun c => negb (sep c)) s.
Proof. exact (cut_lossless sep s ws). Qed.
Print Assumptions C20_pieces_lossless.

Definition opt0 : opt := OPTION_ARRAY_STRING "t" (Some ($"tags")) [].
(** ",ab,,c," has the pieces "ab" and "c". *)
Example C20_example_cut : cut (fun c => c ∈ [","%char]) ($",ab,,c,") [$"ab"; $"c"].
Proof.
  apply (cut_word _ [","%char] ($"ab") ($",,c,")).
  - repeat constructor.
  - done.
  - repeat constructor; intros Hc%elem_of_list_singleton; discriminate.
  - simpl. by left.
  - apply (cut_word _ [","%char; ","%char] ($"c") ($",")).
    + repeat constructor.
    + done.
    + repeat constructor. intros Hc%elem_of_list_singleton; discriminate.
    + simpl. by left.
    + apply cut_end. repeat constructor.
Qed.
Example C20_example : exists h',
  split ($",ab,,c,") [","%char] (Hst opt0 (Heap [] []) []) = Ok (Some (PHeap 0), Hst opt0 h' []) /\
  blocks h' = [Some (BArr [PHeap 1; PHeap 2; VNull]); Some (BStr ($"ab")); Some (BStr ($"c"))].
Proof. eexists. split; [vm_compute; reflexivity|reflexivity]. Qed.
(** The third allocation fails: all that was made is released. *)
Example C20_example_failure : exists h',
  split ($",ab,,c,") [","%char] (Hst opt0 (Heap [] [false; false; true]) []) = Ok (None, Hst opt0 h' []) /\
  blocks h' = [None; None].
Proof. eexists. split; [vm_compute; reflexivity|reflexivity]. Qed.
