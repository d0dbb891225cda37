(** * The descriptions of the error codes: proof *)
From Verif Require Import Api SpecCodes.

Definition speaksb (name text : cstr) : bool :=
  let try p := match take (length p) name with q => bool_decide (q = p) &&
    let w := drop (length p) name in negb (bool_decide (w = [])) && bool_decide (take (length w) (shouted text) = w) end in
  try ($"ARGUS_ERROR_") || try ($"ARGUS_").
Lemma speaksb_ok name text : speaksb name text = true -> speaks_of name text.
Proof.
  unfold speaksb. cbv zeta.
  assert (X : forall p, bool_decide (take (length p) name = p) && (negb (bool_decide (drop (length p) name = [])) &&
    bool_decide (take (length (drop (length p) name)) (shouted text) = drop (length p) name)) = true ->
    name = p ++ drop (length p) name /\ drop (length p) name <> [] /\
    shouted text = drop (length p) name ++ drop (length (drop (length p) name)) (shouted text)).
  { intros p E. apply andb_true_iff in E as [E1 E]. apply andb_true_iff in E as [E2 E3].
    apply bool_decide_eq_true in E1, E3. apply negb_true_iff, bool_decide_eq_false in E2.
    split_and!; [|done|].
    - by rewrite <- E1 at 1; rewrite take_drop.
    - rewrite <- E3 at 1. by rewrite take_drop. }
  intros E. apply orb_true_iff in E as [E|E]; apply X in E as (E1 & E2 & E3); eexists _, _; eauto.
Qed.
Lemma strerror_named n name : enumerators !! n = Some name -> argus_strerror (Z.of_nat n) <> $"Unknown error" ->
  speaks_of name (argus_strerror (Z.of_nat n)).
Proof.
  intros Hn Hu. apply speaksb_ok.
  assert (A : forall l k, forallb (fun p => bool_decide (argus_strerror (Z.of_nat (fst p)) = $"Unknown error") || speaksb (snd p) (argus_strerror (Z.of_nat (fst p))))
    (zip (seq k (length l)) l) = true -> l !! n = Some name -> argus_strerror (Z.of_nat (k + n)) <> $"Unknown error" -> speaksb name (argus_strerror (Z.of_nat (k + n))) = true).
  { clear. revert n. intros n l. revert n. induction l as [|x l IH]; intros n k E Hn Hu; [done|]. cbn in E. apply andb_true_iff in E as [E1 E].
    destruct n as [|n].
    - injection Hn as <-. rewrite Nat.add_0_r in *. apply orb_true_iff in E1 as [E1|E1]; [by apply bool_decide_eq_true in E1|done].
    - rewrite <- Nat.add_succ_comm in *. by apply IH. }
  apply (A enumerators 0%nat); [vm_compute; reflexivity|done|done].
Qed.
