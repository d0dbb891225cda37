(** * Which options share a variable: proofs *)
From Verif Require Import Macros Validate Api LibProofs FrameProofs SpecGrammar GrammarProofs GrammarLemmas
  ActiveProofs AfterProofs EnvProofs CallProofs WholeProofs AfterFacts MoreFacts.
From Coq Require Import Lia.
From Verif Require Export SpecVariables.

Definition same_letterb (c d : ascii) : bool :=
  let x := N_of_ascii c in let y := N_of_ascii d in
  (x =? y)%N || ((97 <=? x) && (x <=? 122) && (x =? y + 32))%N || ((97 <=? y) && (y <=? 122) && (y =? x + 32))%N ||
  ((x =? 45) && (y =? 95))%N || ((x =? 95) && (y =? 45))%N.
Lemma code_is c n : (N_of_ascii c =? n)%N = true -> c = ascii_of_N n.
Proof. intros E. apply N.eqb_eq in E. rewrite <- E. by rewrite ascii_N_embedding. Qed.
Lemma same_letterb_ok c d : same_letterb c d = true <-> same_letter c d.
Proof.
  unfold same_letterb, same_letter, capital. cbv zeta. rewrite !orb_true_iff, !andb_true_iff, !N.leb_le. split.
  - intros [[[[E|[[E1 E2] E3]]|[[E1 E2] E3]]|[E1 E2]]|[E1 E2]].
    + left. apply N.eqb_eq in E. rewrite <- (ascii_N_embedding c), E. apply ascii_N_embedding.
    + right. left. apply N.eqb_eq in E3. lia.
    + right. right. left. apply N.eqb_eq in E3. lia.
    + do 3 right. left. apply code_is in E1, E2. by subst.
    + do 4 right. apply code_is in E1, E2. by subst.
  - intros [->|[[[E1 E2] E3]|[[[E1 E2] E3]|[[-> ->]|[-> ->]]]]].
    + do 4 left. apply N.eqb_refl.
    + do 3 left. right. split; [done|]. by apply N.eqb_eq.
    + do 2 left. right. split; [done|]. by apply N.eqb_eq.
    + left. right. done.
    + right. done.
Qed.
Definition all_ascii : list ascii := map (fun n => ascii_of_nat n) (seq 0 256).
Lemma all_ascii_in c : In c all_ascii.
Proof.
  unfold all_ascii. rewrite <- (ascii_nat_embedding c). apply in_map, in_seq. split; [lia|].
  apply nat_ascii_bounded.
Qed.
Lemma upper_table : forallb (fun c => forallb (fun d =>
  Bool.eqb (Ascii.eqb (env_upper c) (env_upper d)) (same_letterb c d)) all_ascii) all_ascii = true.
Proof. vm_compute. reflexivity. Qed.
Lemma upper_same c d : env_upper c = env_upper d <-> same_letter c d.
Proof.
  rewrite <- same_letterb_ok, <- Ascii.eqb_eq.
  pose proof upper_table as H. rewrite forallb_forall in H. specialize (H c (all_ascii_in c)).
  rewrite forallb_forall in H. specialize (H d (all_ascii_in d)). apply eqb_prop in H. by rewrite H.
Qed.
Lemma upper_alike n : forall m, map env_upper n = map env_upper m <-> alike n m.
Proof.
  unfold alike. induction n as [|c n IH]; intros [|d m]; cbn [map].
  - split; [constructor|done].
  - split; [done|]. intros E. inversion E.
  - split; [done|]. intros E. inversion E.
  - split.
    + intros E. injection E as E1 E2. constructor; [by apply upper_same|by apply IH].
    + intros E. inversion E; subst. f_equal; [by apply upper_same|by apply IH].
Qed.

(** ** Whole names *)
Lemma prefixed_split prefix : exists u, forall n, prefixed prefix n = u ++ n.
Proof.
  unfold prefixed. destruct prefix as [[|c p]|]; [by exists []| |by exists []].
  case_bool_decide; [by exists (c :: p)|]. exists ((c :: p) ++ ["_"%char]). intros n. by rewrite <- app_assoc.
Qed.
Lemma taken prefix d n : fits prefix d n ->
  take 127 (if bare d then n else prefixed prefix n) = if bare d then n else prefixed prefix n.
Proof. intros F. by apply take_ge. Qed.
Lemma derived_same prefix d e n m : derives d n -> derives e m -> bare d = bare e ->
  fits prefix d n -> fits prefix e m ->
  get_env_var_name prefix d = get_env_var_name prefix e <-> alike n m.
Proof.
  intros (D1 & D2 & D3) (E1 & E2 & E3) Hb Fd Fe. rewrite <- !env_variable_eq. unfold env_variable.
  rewrite D1, D2, D3, E1, E2, E3. fold (bare d). fold (bare e). cbv zeta.
  rewrite (taken prefix d n Fd), (taken prefix e m Fe). rewrite !(map_ext _ _ upper_case_eq), Hb.
  rewrite <- upper_alike. destruct (bare e).
  - split; [by intros [= ?]|by intros ->].
  - destruct (prefixed_split prefix) as [u Hu]. rewrite !Hu, !map_app. split.
    + intros [= E]. by apply app_inv_head in E.
    + by intros ->.
Qed.
Lemma declared_same prefix d e n m : declares d n -> declares e m -> bare d = bare e ->
  has_prefix prefix n = has_prefix prefix m -> fits prefix d n -> fits prefix e m ->
  get_env_var_name prefix d = get_env_var_name prefix e <-> n = m.
Proof.
  unfold declares. intros D E Hb Hp Fd Fe. rewrite <- !env_variable_eq. unfold env_variable.
  rewrite D, E. cbv zeta. fold (bare d). fold (bare e). rewrite Hp, <- Hb.
  destruct (bare d) eqn:B; cbn [orb].
  - split; [by intros [= ?]|by intros ->].
  - destruct (has_prefix prefix m).
    + split; [by intros [= ?]|by intros ->].
    + pose proof (taken prefix d n Fd) as T1. pose proof (taken prefix e m Fe) as T2.
      rewrite <- Hb in T2. rewrite B in T1. rewrite T1, T2.
      destruct (prefixed_split prefix) as [u Hu]. rewrite !Hu. split.
      * intros [= X]. by apply app_inv_head in X.
      * by intros ->.
Qed.
