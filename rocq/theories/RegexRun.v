(** * A program deciding whether a regular expression matches

    Not a model of code in the repository: it shows that the meaning of [Regex.found] is
    computable, so that a library behaving as [Regex.pcre2] says exists ([RegexProofs]). *)
From Verif Require Export Regex.

Section iterate.
  Variable step : nat -> list nat.
  (** Where one can be after [step] from one of the places of [l]. *)
  Definition steps (l : list nat) : list nat := nodup Nat.eq_dec (flat_map step l).
  Fixpoint iterate (k : nat) (l : list nat) : list nat :=
    match k with O => l | S k => iterate k (steps l) end.
  (** Places after at most [k] further steps. *)
  Fixpoint upto (k : nat) (l : list nat) : list nat :=
    match k with
    | O => l
    | S k => match l with [] => [] | _ => l ++ upto k (steps l) end
    end.
End iterate.

(** The lengths of the beginnings of [s], standing after [pre], that [r] matches. *)
Fixpoint ends (r : re) (pre s : cstr) {struct r} : list nat :=
  match r with
  | REmpty => [O]
  | RSet k => match s with c :: _ => if in_set k c then [1%nat] else [] | [] => [] end
  | RSeq a b =>
      nodup Nat.eq_dec
        (flat_map (fun n => map (Nat.add n) (ends b (pre ++ take n s) (drop n s))) (ends a pre s))
  | RAlt a b => nodup Nat.eq_dec (ends a pre s ++ ends b pre s)
  | RRep lo hi a =>
      let step n := map (Nat.add n) (ends a (pre ++ take n s) (drop n s)) in
      match hi with
      | Some h => if (lo <=? h)%nat then nodup Nat.eq_dec (upto step (h - lo) (iterate step lo [O])) else []
      | None => nodup Nat.eq_dec (upto step (length s) (iterate step lo [O]))
      end
  | RStart => match pre with [] => [O] | _ => [] end
  | REnd =>
      match s with
      | [] => [O]
      | [c] => if Ascii.eqb c newline then [O] else []
      | _ => []
      end
  | RAhead positive a =>
      if Bool.eqb positive (match ends a pre s with [] => false | _ => true end) then [O] else []
  | RBehind positive k =>
      if Bool.eqb positive (match rev pre with c :: _ => in_set k c | [] => false end) then [O] else []
  end.
Definition findb (r : re) (s : cstr) : bool :=
  existsb (fun n => match ends r (take n s) (drop n s) with [] => false | _ => true end) (seq 0 (S (length s))).

Definition run (p s : cstr) : regex_result :=
  match compile p with
  | Some r => if findb r s then RxMatch else RxNoMatch
  | None => RxBadPattern
  end.
