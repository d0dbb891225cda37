(** * The parser refines the grammar *)
From Verif Require Import Api LibProofs FrameProofs SpecGrammar.
From Coq Require Import Lia.

Local Notation eq_char := "="%char.

(** ** Searches on declarations *)
Definition is_t (t : optype) (d : decl) : bool := bool_decide (d_type d = t).
Definition dlong (T : list decl) (n : cstr) : option nat :=
  find_index (fun d => is_t TOption d &&
    match d_lname d with Some l => strcmp l n =? 0 | None => false end) T.
Definition dshort (T : list decl) (c : ascii) : option nat :=
  find_index (fun d => is_t TOption d && Ascii.eqb (d_sname d) c) T.
Fixpoint dpos (T : list decl) (k : nat) : option nat :=
  match T with
  | [] => None
  | d :: T' =>
      if is_t TPositional d then
        if has (d_vtype d) VT_VARIADIC || (k =? 0)%nat then Some O
        else match dpos T' (k - 1) with Some n => Some (S n) | None => None end
      else match dpos T' k with Some n => Some (S n) | None => None end
  end.
Definition dmatch (w : cstr) (d : decl) : bool :=
  is_t TSubcommand d &&
  match starts_with (Some w) (d_name d) with Some _ => true | None => false end.
Definition dexact (w : cstr) (d : decl) : bool :=
  match d_name d with Some n => strcmp w n =? 0 | None => false end.
Fixpoint dsub_loop (T : list decl) (w : cstr) (found : option nat) (i : nat) : sub_result :=
  match T with
  | [] => match found with Some j => SubFound j | None => SubNone end
  | d :: T' =>
      if dmatch w d then
        match found with
        | Some j => SubAmbiguous j i
        | None => if dexact w d then SubFound i else dsub_loop T' w (Some i) (S i)
        end
      else dsub_loop T' w found (S i)
  end.

Lemma find_lname_decl T n : find_option_by_lname T n = dlong (map decl_of T) n.
Proof. apply find_index_ext. done. Qed.
Lemma find_sname_decl T n : find_option_by_sname T n = dshort (map decl_of T) n.
Proof. apply find_index_ext. done. Qed.
Lemma find_pos_decl T k : find_positional T k = dpos (map decl_of T) k.
Proof.
  revert k. induction T as [|o T IH]; intros k; simpl; [done|].
  unfold is_type, is_t. rewrite !IH. done.
Qed.
Lemma find_sub_decl T w : find_subcommand T w = dsub_loop (map decl_of T) w None O.
Proof.
  unfold find_subcommand. generalize (@None nat) at 1 2. generalize O.
  induction T as [|o T IH]; intros n f; simpl; [done|].
  unfold dmatch, dexact, is_t, is_type. rewrite !IH. done.
Qed.

(** ** Meaning of the searches *)
Lemma find_index_first {A} (p : A -> bool) (P : A -> Prop) l i :
  (forall x, p x = true <-> P x) -> find_index p l = Some i <-> first P l i.
Proof.
  intros H. rewrite find_index_Some. unfold first. split.
  - intros (x & ? & Hp & Hj). exists x. split_and!; [done|by apply H|].
    intros j y Hlt Hy HP. apply H in HP. rewrite (Hj j y) in HP; done.
  - intros (x & ? & Hp & Hj). exists x. split_and!; [done|by apply H|].
    intros j y Hlt Hy. specialize (Hj j y Hlt Hy). rewrite <- H in Hj.
    destruct (p y); [destruct Hj; done|done].
Qed.
Lemma find_index_nowhere {A} (p : A -> bool) (P : A -> Prop) l :
  (forall x, p x = true <-> P x) -> find_index p l = None <-> nowhere P l.
Proof.
  intros H. rewrite find_index_None. unfold nowhere. split.
  - intros Hj x Hx HP. apply elem_of_list_lookup in Hx as [j Hx]. apply H in HP.
    rewrite (Hj j x) in HP; done.
  - intros Hj j y Hy. specialize (Hj y). rewrite <- H in Hj.
    destruct (p y); [destruct Hj; [|done]; eapply elem_of_list_lookup_2; eauto|done].
Qed.

Lemma long_named_dec n d :
  is_t TOption d && match d_lname d with Some l => strcmp l n =? 0 | None => false end = true
  <-> long_named n d.
Proof.
  unfold long_named, is_t. rewrite andb_true_iff, bool_decide_eq_true.
  destruct (d_lname d) as [l|]; [rewrite strcmp_eqb, bool_decide_eq_true|]; naive_solver.
Qed.
Lemma short_named_dec c d :
  is_t TOption d && Ascii.eqb (d_sname d) c = true <-> short_named c d.
Proof. unfold short_named, is_t. rewrite andb_true_iff, bool_decide_eq_true, Ascii.eqb_eq. done. Qed.

Lemma dlong_Some T n i : dlong T n = Some i <-> first (long_named n) T i.
Proof. apply find_index_first. intros. apply long_named_dec. Qed.
Lemma dlong_None T n : dlong T n = None <-> nowhere (long_named n) T.
Proof. apply find_index_nowhere. intros. apply long_named_dec. Qed.
Lemma dshort_Some T n i : dshort T n = Some i <-> first (short_named n) T i.
Proof. apply find_index_first. intros. apply short_named_dec. Qed.
Lemma dshort_None T n : dshort T n = None <-> nowhere (short_named n) T.
Proof. apply find_index_nowhere. intros. apply short_named_dec. Qed.

Lemma has_testbit v m :
  has v m = true <-> exists b, N.testbit v b = true /\ N.testbit m b = true.
Proof.
  unfold has. destruct (N.eqb_spec (N.land v m) 0) as [E|E]; simpl.
  - split; [done|]. intros (b & H1 & H2).
    assert (N.testbit (N.land v m) b = true) by (rewrite N.land_spec, H1, H2; done).
    rewrite E, N.bits_0 in *. done.
  - split; [|done]. intros _. exists (N.log2 (N.land v m)).
    apply andb_true_iff. rewrite <- N.land_spec. apply N.bit_log2. done.
Qed.
Lemma has_bit v b : has v (2 ^ b) = true <-> N.testbit v b = true.
Proof.
  rewrite has_testbit. split.
  - intros (c & H1 & H2). rewrite N.pow2_bits_eqb in H2. apply N.eqb_eq in H2. congruence.
  - intros H. exists b. split; [done|]. apply N.pow2_bits_true.
Qed.
Lemma has_lor v m n : has v (N.lor m n) = has v m || has v n.
Proof.
  apply Bool.eq_iff_eq_true. rewrite orb_true_iff, !has_testbit. split.
  - intros (b & H1 & H2). rewrite N.lor_spec, orb_true_iff in H2. naive_solver.
  - intros [(b & H1 & H2)|(b & H1 & H2)]; exists b; rewrite N.lor_spec, H2;
      rewrite ?orb_true_r; done.
Qed.
Lemma variadic_dec d : has (d_vtype d) VT_VARIADIC = true <-> variadic d.
Proof.
  unfold VT_VARIADIC. rewrite !has_lor, !orb_true_iff.
  change VT_VARIADIC_STRING with (2 ^ 12)%N. change VT_VARIADIC_INT with (2 ^ 13)%N.
  change VT_VARIADIC_FLOAT with (2 ^ 14)%N. rewrite !has_bit. done.
Qed.
Lemma numeric_dec d : has (d_vtype d) VT_ANY_NUMERIC = true <-> numeric d.
Proof.
  unfold VT_ANY_NUMERIC. rewrite has_lor, orb_true_iff.
  change VT_INT with (2 ^ 0)%N. change VT_FLOAT with (2 ^ 2)%N. rewrite !has_bit. done.
Qed.

Lemma positionals_cons d T i :
  positionals_before (d :: T) (S i) =
  ((if is_t TPositional d then 1 else 0) + positionals_before T i)%nat.
Proof. unfold positionals_before, is_t. simpl. destruct (bool_decide _); done. Qed.

Lemma receives_cons d T k i :
  receives (d :: T) k (S i) <->
  (is_t TPositional d = false /\ receives T k i) \/
  (is_t TPositional d = true /\ ~ variadic d /\ (0 < k)%nat /\ receives T (k - 1) i).
Proof.
  unfold receives. split.
  - intros (e & He & Hp & Hv & Hc). simpl in He. rewrite positionals_cons in Hc.
    destruct (is_t TPositional d) eqn:E.
    + right. assert (~ variadic d).
      { apply (Hv O d); [lia|done|]. unfold is_t in E. apply bool_decide_eq_true in E. done. }
      split_and!; [done|done| |].
      * destruct Hc as [Hc|[_ Hc]]; lia.
      * exists e. split_and!; [done|done| |].
        -- intros j x Hlt Hx. apply (Hv (S j)); [lia|done].
        -- destruct Hc as [Hc|[? Hc]]; [left; lia|right; split; [done|lia]].
    + left. split; [done|]. exists e. split_and!; [done|done| |done].
      intros j x Hlt Hx. apply (Hv (S j)); [lia|done].
  - intros [(E & e & He & Hp & Hv & Hc)|(E & Hnv & Hk & e & He & Hp & Hv & Hc)];
      exists e; rewrite positionals_cons, E; split_and!; try done.
    + intros [|j] x Hlt Hx Hpx; simpl in Hx.
      * injection Hx as ->. unfold is_t in E. apply bool_decide_eq_false in E. done.
      * apply (Hv j); [lia|done|done].
    + intros [|j] x Hlt Hx Hpx; simpl in Hx.
      * injection Hx as ->. done.
      * apply (Hv j); [lia|done|done].
    + destruct Hc as [Hc|[? Hc]]; [left; lia|right; split; [done|lia]].
Qed.
Lemma receives_zero d T k :
  receives (d :: T) k 0 <-> is_t TPositional d = true /\ (variadic d \/ k = O).
Proof.
  unfold receives. split.
  - intros (e & [= ->] & Hp & _ & Hc). unfold is_t. rewrite bool_decide_eq_true.
    split; [done|]. unfold positionals_before in Hc. simpl in Hc. naive_solver.
  - unfold is_t. rewrite bool_decide_eq_true. intros [Hp Hc]. exists d.
    split_and!; [done|done|intros; lia|].
    unfold positionals_before. simpl. destruct Hc; [right|left]; [split; [done|lia]|lia].
Qed.

Lemma dpos_Some T k i : dpos T k = Some i <-> receives T k i.
Proof.
  revert k i. induction T as [|d T IH]; intros k i; simpl.
  - split; [done|]. intros (e & He & _). destruct i; done.
  - destruct i as [|i].
    + rewrite receives_zero. destruct (is_t TPositional d) eqn:E.
      * destruct (has (d_vtype d) VT_VARIADIC) eqn:V; simpl.
        { apply variadic_dec in V. naive_solver. }
        assert (~ variadic d) by (rewrite <- variadic_dec; congruence).
        destruct (Nat.eqb_spec k 0) as [->|].
        { naive_solver. }
        split; [|naive_solver]. destruct (dpos T (k - 1)); naive_solver.
      * split; [|naive_solver]. destruct (dpos T k); naive_solver.
    + rewrite receives_cons. destruct (is_t TPositional d) eqn:E.
      * destruct (has (d_vtype d) VT_VARIADIC) eqn:V; simpl.
        { apply variadic_dec in V. naive_solver. }
        assert (~ variadic d) by (rewrite <- variadic_dec; congruence).
        destruct (Nat.eqb_spec k 0) as [->|].
        { split; [done|]. intros [?|(?&?&?&?)]; [naive_solver|lia]. }
        rewrite <- !IH. split.
        -- destruct (dpos T (k - 1)); [|done]. intros [= ->]. right. split_and!; try done. lia.
        -- intros [?|(?&?&?&Hd)]; [naive_solver|]. rewrite Hd. done.
      * rewrite <- !IH. split.
        -- destruct (dpos T k); [|done]. intros [= ->]. auto.
        -- intros [[_ Hd]|?]; [rewrite Hd; done|naive_solver].
Qed.
Lemma dpos_None T k : dpos T k = None <-> no_receiver T k.
Proof.
  unfold no_receiver. split.
  - intros E i H. apply dpos_Some in H. congruence.
  - intros H. destruct (dpos T k) as [i|] eqn:E; [|done]. apply dpos_Some in E.
    destruct (H i E).
Qed.

Lemma dmatch_dec w d : dmatch w d = true <-> sub_match w d.
Proof.
  unfold dmatch, sub_match, is_t. rewrite andb_true_iff, bool_decide_eq_true.
  destruct (d_name d) as [n|]; [|simpl; split; [intros [_ ?]; done|intros [_ [r H]]; done]].
  destruct (starts_with (Some w) (Some n)) as [r|] eqn:E.
  - apply starts_with_Some in E as ->. split; intros [? _]; split; eauto.
  - split; [intros [_ ?]; done|]. intros [? [r [= ->]]].
    apply starts_with_None with (r := r) in E. done.
Qed.
Lemma dexact_dec w d : dmatch w d = true -> dexact w d = true <-> sub_exact w d.
Proof.
  intros H. apply dmatch_dec in H as [? [r Hr]]. unfold dexact, sub_exact. rewrite Hr.
  rewrite strcmp_eqb, bool_decide_eq_true. split; [intros <-; done|intros [_ E]; congruence].
Qed.

Lemma dsub_loop_found T w j i :
  dsub_loop T w (Some j) i =
  match find_index (dmatch w) T with Some m => SubAmbiguous j (i + m) | None => SubFound j end.
Proof.
  revert i. induction T as [|d T IH]; intros i; simpl; [done|].
  destruct (dmatch w d); [by rewrite Nat.add_0_r|]. rewrite IH. destruct (find_index (dmatch w) T); [|done]. by rewrite Nat.add_succ_r.
Qed.
Lemma dsub_loop_none T w i :
  dsub_loop T w None i =
  match find_index (dmatch w) T with
  | None => SubNone
  | Some n =>
      match T !! n with
      | None => SubNone
      | Some d => if dexact w d then SubFound (i + n) else
          match find_index (dmatch w) (drop (S n) T) with
          | Some m => SubAmbiguous (i + n) (S (i + n) + m) | None => SubFound (i + n) end
      end
  end.
Proof.
  revert i. induction T as [|d T IH]; intros i; simpl; [done|].
  destruct (dmatch w d) eqn:E.
  - cbn. rewrite drop_0, Nat.add_0_r. destruct (dexact w d); [done|]. apply dsub_loop_found.
  - rewrite IH. destruct (find_index (dmatch w) T) as [n|]; [|done]. simpl.
    destruct (T !! n); [|done]. rewrite <- Nat.add_succ_comm. done.
Qed.

Inductive dsub_spec (T : list decl) (w : cstr) : sub_result -> Prop :=
  | ds_none : no_subcommand T w -> dsub_spec T w SubNone
  | ds_found i : selects T w i -> dsub_spec T w (SubFound i)
  | ds_amb i j : ambiguous T w i j -> dsub_spec T w (SubAmbiguous i j).

Lemma dsub_loop_spec T w : dsub_spec T w (dsub_loop T w None 0).
Proof.
  rewrite dsub_loop_none. destruct (find_index (dmatch w) T) as [n|] eqn:E.
  - pose proof E as E0.
    apply (find_index_first _ (sub_match w)) in E; [|intros; apply dmatch_dec].
    assert (E' := E). destruct E' as (d & Hd & Hm & Hf).
    rewrite Hd. simpl. destruct (dexact w d) eqn:X.
    + constructor. split; [done|]. left. exists d. split; [done|].
      apply dexact_dec; [|done]. apply dmatch_dec. done.
    + assert (~ sub_exact w d).
      { rewrite <- dexact_dec; [congruence|]. apply dmatch_dec; done. }
      destruct (find_index (dmatch w) (drop (S n) T)) as [m|] eqn:E2.
      * apply find_index_Some in E2 as (e & He & Hme & Hb). rewrite lookup_drop in He.
        apply dmatch_dec in Hme. constructor. exists d, e.
        split_and!; try done; [lia|]. intros k f Hk Hkf Hmf. apply dmatch_dec in Hmf.
        rewrite (Hb (k - S n)%nat f) in Hmf; [done|lia|]. rewrite lookup_drop, <- Hkf. f_equal. lia.
      * constructor. split; [done|]. right. intros j e He Hme.
        destruct (lt_eq_lt_dec j n) as [[?|?]|?]; [|done|].
        -- destruct (Hf j e); done.
        -- apply dmatch_dec in Hme.
           apply (find_index_None) with (j := (j - S n)%nat) (y := e) in E2; [congruence|].
           rewrite lookup_drop. rewrite <- He. f_equal. lia.
  - constructor. apply (find_index_nowhere _ (sub_match w)) in E; [done|].
    intros; apply dmatch_dec.
Qed.

Lemma first_unique {A} (P : A -> Prop) l i j : first P l i -> first P l j -> i = j.
Proof.
  intros (x & Hx & Px & Fx) (y & Hy & Py & Fy).
  destruct (lt_eq_lt_dec i j) as [[L|L]|L]; [|done|].
  - destruct (Fy i x L Hx Px).
  - destruct (Fx j y L Hy Py).
Qed.
Lemma first_nowhere {A} (P : A -> Prop) l i : first P l i -> nowhere P l -> False.
Proof.
  intros (x & Hx & Px & Fx) H. apply (H x); [|done]. eapply elem_of_list_lookup_2; eauto.
Qed.

Lemma dsub_spec_fun T w r1 r2 : dsub_spec T w r1 -> dsub_spec T w r2 -> r1 = r2.
Proof.
  assert (X1 : forall i, no_subcommand T w -> selects T w i -> False).
  { intros i Hn [Hf _]. eapply first_nowhere; eauto. }
  assert (X2 : forall i j, no_subcommand T w -> ambiguous T w i j -> False).
  { intros i j Hn (? & ? & Hf & _). eapply first_nowhere; eauto. }
  assert (X3 : forall k i j, selects T w k -> ambiguous T w i j -> False).
  { intros k i j [Hf [(d & Hd & He)|Hu]] (d' & e & Hf' & Hd' & Hx & Hne & Hj & Hm & _);
      pose proof (first_unique _ _ _ _ Hf Hf') as ->.
    - congruence.
    - specialize (Hu j e Hj Hm). lia. }
  intros [H1|i H1|i i' H1] [H2|j H2|j j' H2]; try done; try (exfalso; eauto; fail).
  - f_equal. destruct H1, H2. eapply first_unique; eauto.
  - destruct H1 as (d & e & Hf & Hd & Hx & Hlt & He & Hm & Hb), H2 as (d' & e' & Hf' & Hd' & Hx' & Hlt' & He' & Hm' & Hb').
    pose proof (first_unique _ _ _ _ Hf Hf') as ->. f_equal.
    destruct (lt_eq_lt_dec i' j') as [[L|L]|L]; [|done|].
    + destruct (Hb' i' e); done.
    + destruct (Hb j' e'); done.
Qed.
Lemma dsub_find T w r : dsub_spec T w r <-> dsub_loop T w None 0 = r.
Proof.
  split; [|intros <-; apply dsub_loop_spec]. intros H.
  eapply dsub_spec_fun; [apply dsub_loop_spec|done].
Qed.

(** ** Negative numbers *)
Lemma isdigit_digits c : isdigit c = true <-> c ∈ digits.
Proof.
  split.
  - intros H. destruct c as [[] [] [] [] [] [] [] []]; vm_compute in H; try discriminate;
      apply (bool_decide_unpack _); vm_compute; exact I.
  - intros H. unfold digits in H. cbn in H.
    repeat (apply elem_of_cons in H as [->|H]; [done|]). apply elem_of_nil in H. done.
Qed.
Lemma negative_dec s : is_negative_number s = true <-> negative_tail s.
Proof.
  unfold is_negative_number, negative_tail. destruct s as [|c r].
  - split; [done|]. intros [(?&?&?&?)|(?&?&?&?)]; done.
  - rewrite orb_true_iff, andb_true_iff, isdigit_digits, Ascii.eqb_eq. split.
    + intros [H|[-> H]]; [left; eauto|]. right. destruct r as [|d r]; [done|].
      apply isdigit_digits in H. unfold dot. eauto.
    + intros [(?&?&[= <- <-]&?)|(?&?&[= -> ->]&?)]; [auto|]. right.
      rewrite isdigit_digits. done.
Qed.

Definition dneg (T : list decl) (k : nat) (s : cstr) : bool :=
  is_negative_number s &&
  match dpos T k with
  | Some i => match T !! i with Some d => has (d_vtype d) VT_ANY_NUMERIC | None => false end
  | None => false
  end.
Lemma dneg_dec T k s : dneg T k s = true <-> negative_for T k s.
Proof.
  unfold dneg, negative_for. rewrite andb_true_iff, negative_dec. split.
  - intros [? H]. split; [done|]. destruct (dpos T k) as [i|] eqn:E; [|done].
    destruct (T !! i) as [d|] eqn:Ed; [|done]. exists i, d.
    rewrite <- dpos_Some, <- numeric_dec. done.
  - intros (? & i & d & Hr & Hd & Hn). split; [done|].
    apply dpos_Some in Hr. rewrite Hr, Hd. apply numeric_dec. done.
Qed.

(** ** The plan of a command line, as a function *)
Fixpoint cplan (T : list decl) (t : nat) (rest : list cstr) (chars : cstr)
  : list item * option (list cstr) :=
  match chars with
  | [] => ([], Some rest)
  | c :: cs =>
      match dshort T c with
      | None => ([Reject E_INVALID_ARGUMENT (quoted_short $"Unknown option: " c)], None)
      | Some i =>
          match T !! i with
          | None => ([], None)
          | Some d =>
              if (d_vtype d =? VT_FLAG)%N then
                let '(its, r) := cplan T t rest cs in (Call t i None :: its, r)
              else
                match cs, rest with
                | _ :: _, _ => ([Call t i (Some cs)], Some rest)
                | [], v :: rest' => ([Call t i (Some v)], Some rest')
                | [], [] => ([Reject E_MISSING_VALUE (quoted_short $"Missing value for option: " c)], None)
                end
          end
      end
  end.

Fixpoint plan (D : list (list decl)) (t k : nat) (only : bool) (argv : list cstr) : list item :=
  match argv with
  | [] => []
  | w :: rest =>
      if strcmp w ($"--") =? 0 then plan D t k true rest
      else
        match D !! t with
        | None => []
        | Some T =>
            let as_positional only' :=
              match dpos T k with
              | None => [Reject E_INVALID_ARGUMENT (quoted $"Unknown positional: " (MStr (Some w)))]
              | Some i => Call t i (Some w) :: plan D t (S k) only' rest
              end in
            if only then as_positional true
            else
              match starts_with (Some ($"--")) (Some w) with
              | Some s =>
                  match dlong T (long_option_name s) with
                  | None => [Reject E_INVALID_ARGUMENT (quoted_long $"Unknown option: " (long_option_name s))]
                  | Some i =>
                      match T !! i with
                      | None => []
                      | Some d =>
                          if (d_vtype d =? VT_FLAG)%N then
                            Call t i None :: plan D t k false rest
                          else
                            match strchr s equal_sign, rest with
                            | Some n, _ => Call t i (Some (drop (S n) s)) :: plan D t k false rest
                            | None, v :: rest' => Call t i (Some v) :: plan D t k false rest'
                            | None, [] =>
                                [Reject E_MISSING_VALUE (quoted_long $"Missing value for option: " (long_option_name s))]
                            end
                      end
                  end
              | None =>
                  match starts_with (Some ($"-")) (Some w) with
                  | Some s =>
                      if dneg T k s then as_positional false
                      else
                        match cplan T t rest s, rest with
                        | (its, None), _ => its
                        | (its, Some r), _ :: rest' =>
                            its ++ (if (length r <? length rest)%nat then plan D t k false rest'
                                    else plan D t k false rest)
                        | (its, Some r), [] => its
                        end
                  | None =>
                      match dsub_loop T w None 0 with
                      | SubAmbiguous i j =>
                          match T !! i, T !! j with
                          | Some d, Some e => [Reject E_AMBIGUOUS_SUBCOMMAND (two_matches w d e)]
                          | _, _ => []
                          end
                      | SubFound i =>
                          match T !! i with
                          | Some d =>
                              match d_sub d with
                              | Some t' => Enter t i :: plan D t' 0 false rest
                              | None => []
                              end
                          | None => []
                          end
                      | SubNone => as_positional false
                      end
                  end
              end
        end
  end.

Lemma cplan_rest T t rest chars its r :
  cplan T t rest chars = (its, Some r) -> r = rest \/ (exists v, rest = v :: r).
Proof.
  revert its. induction chars as [|c cs IH]; intros its; simpl.
  - intros [= <- <-]. auto.
  - destruct (dshort T c) as [i|]; [|done]. destruct (T !! i) as [d|]; [|done].
    destruct (_ =? _)%N.
    + destruct (cplan T t rest cs) as [its' r'] eqn:E. intros [= <- ->]. eauto.
    + destruct cs; [|intros [= <- <-]; auto]. destruct rest as [|v rest']; [done|].
      intros [= <- <-]. eauto.
Qed.

(** ** [plan] is the unique reading *)
Lemma first_lookup {A} (P : A -> Prop) l i : first P l i -> exists x, l !! i = Some x.
Proof. intros (x & ? & _). eauto. Qed.

Lemma cluster_cplan T t rest chars its r :
  cluster T t rest chars its r -> cplan T t rest chars = (its, r).
Proof.
  induction 1; simpl; try done.
  - apply dshort_Some in H. rewrite H, H0, IHcluster.
    apply N.eqb_eq in H1. change VT_FLAG with 16%N. rewrite H1. done.
  - apply dshort_Some in H. rewrite H, H0.
    apply N.eqb_neq in H1. change VT_FLAG with 16%N. rewrite H1. destruct v; done.
  - subst. apply dshort_Some in H. rewrite H, H0.
    apply N.eqb_neq in H1. change VT_FLAG with 16%N. rewrite H1. done.
  - subst. apply dshort_Some in H. rewrite H, H0.
    apply N.eqb_neq in H1. change VT_FLAG with 16%N. rewrite H1. done.
  - apply dshort_None in H. rewrite H. done.
Qed.

Lemma cplan_cluster T t rest chars its r :
  cplan T t rest chars = (its, r) -> cluster T t rest chars its r.
Proof.
  revert its. induction chars as [|c cs IH]; intros its; simpl.
  - intros [= <- <-]. constructor.
  - destruct (dshort T c) as [i|] eqn:Ei.
    2:{ intros [= <- <-]. constructor. by apply dshort_None. }
    apply dshort_Some in Ei. destruct (first_lookup _ _ _ Ei) as [d Hd]. rewrite Hd.
    destruct (N.eqb_spec (d_vtype d) VT_FLAG) as [F|F].
    + destruct (cplan T t rest cs) as [its' r'] eqn:E. intros [= <- ->].
      econstructor; eauto.
    + destruct cs as [|c' cs'].
      * destruct rest as [|v rest']; intros [= <- <-].
        -- eapply cl_missing; eauto.
        -- eapply cl_separate; eauto.
      * intros [= <- <-]. eapply cl_attached; eauto.
Qed.

Lemma long_name_eq name v :
  eq_char ∉ name -> long_option_name (name ++ eq_char :: v) = key63 name.
Proof.
  intros Hn. unfold long_option_name.
  assert (strchr (name ++ eq_char :: v) equal_sign = Some (length name)) as ->.
  { apply strchr_Some. exists name, v. done. }
  unfold key63, OPTION_NAME_MAX. rewrite Nat.min_comm, <- take_take, take_app. done.
Qed.

Lemma long_name_plain name : eq_char ∉ name -> long_option_name name = key63 name.
Proof.
  intros Hn. unfold long_option_name.
  assert (strchr name equal_sign = None) as -> by (apply strchr_None; done). done.
Qed.
Lemma strchr_app_eq name v :
  eq_char ∉ name -> strchr (name ++ eq_char :: v) equal_sign = Some (length name).
Proof. intros. apply strchr_Some. exists name, v. done. Qed.
Lemma strchr_plain name : eq_char ∉ name -> strchr name equal_sign = None.
Proof. apply strchr_None. Qed.

Lemma dashes_neq s : s <> [] -> strcmp ($"--" ++ s) ($"--") =? 0 = false.
Proof.
  intros Hs. rewrite strcmp_eqb. apply bool_decide_eq_false. destruct s; done.
Qed.
Lemma starts_dashes s : starts_with (Some ($"--")) (Some ($"--" ++ s)) = Some s.
Proof. apply starts_with_Some. done. Qed.
Lemma starts_dash s : starts_with (Some ($"-")) (Some ($"-" ++ s)) = Some s.
Proof. apply starts_with_Some. done. Qed.
Lemma starts_dashes_no s : (forall s', s <> "-"%char :: s') ->
  starts_with (Some ($"--")) (Some ($"-" ++ s)) = None.
Proof. intros H. apply starts_with_None. intros r E. cbn in E. injection E as E. eapply H; eauto. Qed.
Lemma dash_neq s : (forall s', s <> "-"%char :: s') -> strcmp ($"-" ++ s) ($"--") =? 0 = false.
Proof.
  intros H. rewrite strcmp_eqb. apply bool_decide_eq_false. intros E. cbn in E.
  injection E as E. eapply H; eauto.
Qed.
Lemma word_neq w : (forall s, w <> "-"%char :: s) -> strcmp w ($"--") =? 0 = false.
Proof.
  intros H. rewrite strcmp_eqb. apply bool_decide_eq_false. intros E. cbn in E. eapply H; eauto.
Qed.
Lemma word_nodashes w : (forall s, w <> "-"%char :: s) ->
  starts_with (Some ($"--")) (Some w) = None.
Proof. intros H. apply starts_with_None. intros r E. cbn in E. eapply H, E. Qed.
Lemma word_nodash w : (forall s, w <> "-"%char :: s) ->
  starts_with (Some ($"-")) (Some w) = None.
Proof. intros H. apply starts_with_None. intros r E. cbn in E. eapply H, E. Qed.
Lemma raw_neq w : w <> $"--" -> strcmp w ($"--") =? 0 = false.
Proof. intros H. rewrite strcmp_eqb. apply bool_decide_eq_false. done. Qed.
Lemma flag_eqb d : flag_option d -> (d_vtype d =? VT_FLAG)%N = true.
Proof. intros H. apply N.eqb_eq. done. Qed.
Lemma nonflag_eqb d : ~ flag_option d -> (d_vtype d =? VT_FLAG)%N = false.
Proof. intros H. apply N.eqb_neq. done. Qed.
Lemma negative_nodash T k s : negative_for T k s -> forall s', s <> "-"%char :: s'.
Proof.
  intros [[(c & r & -> & Hc)|(c & r & -> & Hc)] _] s' E; [|done].
  injection E as -> ->. apply isdigit_digits in Hc. done.
Qed.

Lemma reads_plan D t k only argv its : reads D t k only argv its -> plan D t k only argv = its.
Proof.
  induction 1.
  - done.
  - simpl. done.
  - cbn [plan]. rewrite raw_neq, H by done. apply dpos_Some in H1. rewrite H1, IHreads. done.
  - cbn [plan]. rewrite raw_neq, H by done. apply dpos_None in H1. rewrite H1. done.
  - cbn [plan]. rewrite dashes_neq, H, starts_dashes by done.
    assert (long_option_name (name ++ suffix) = key63 name) as ->.
    { destruct H2 as [->|[v ->]]; [rewrite app_nil_r; by apply long_name_plain|by apply long_name_eq]. }
    apply dlong_Some in H3. rewrite H3, H4, flag_eqb, IHreads by done. done.
  - cbn [plan]. rewrite dashes_neq, H, starts_dashes by (destruct name; done).
    rewrite long_name_eq by done. apply dlong_Some in H1.
    rewrite H1, H2, nonflag_eqb, strchr_app_eq, IHreads by done.
    do 3 f_equal. change (S (length name)) with (1 + length name)%nat.
    rewrite Nat.add_comm, <- drop_drop, drop_app. done.
  - cbn [plan]. rewrite dashes_neq, H, starts_dashes by done.
    rewrite long_name_plain by done. apply dlong_Some in H2.
    rewrite H2, H3, nonflag_eqb, strchr_plain, IHreads by done. done.
  - cbn [plan]. rewrite dashes_neq, H, starts_dashes by done.
    rewrite long_name_plain by done. apply dlong_Some in H2.
    rewrite H2, H3, nonflag_eqb, strchr_plain by done. done.
  - cbn [plan]. rewrite dashes_neq, H, starts_dashes by done.
    assert (long_option_name (name ++ suffix) = key63 name) as ->.
    { destruct H2 as [->|[v ->]]; [rewrite app_nil_r; by apply long_name_plain|by apply long_name_eq]. }
    apply dlong_None in H3. rewrite H3. done.
  - assert (Hs := negative_nodash _ _ _ H0).
    cbn [plan]. rewrite dash_neq, H, starts_dashes_no, starts_dash by done.
    apply dneg_dec in H0. rewrite H0. apply dpos_Some in H1. rewrite H1, IHreads. done.
  - cbn [plan]. rewrite dash_neq, H, starts_dashes_no, starts_dash by done.
    assert (dneg T k s = false) as ->.
    { destruct (dneg T k s) eqn:E; [|done]. apply dneg_dec in E. done. }
    apply cluster_cplan in H2. rewrite H2.
    pose proof (cplan_rest _ _ _ _ _ _ H2) as Hr.
    destruct rest as [|w rest0].
    + destruct Hr as [->|[v Hv]]; [|done]. cbn in IHreads. rewrite <- IHreads, app_nil_r. done.
    + f_equal. destruct Hr as [->|[v [= -> ->]]].
      * rewrite Nat.ltb_irrefl. done.
      * simpl. assert (length rest' <? S (length rest') = true)%nat as ->; [|done].
        apply Nat.ltb_lt. lia.
  - cbn [plan]. rewrite dash_neq, H, starts_dashes_no, starts_dash by done.
    assert (dneg T k s = false) as ->.
    { destruct (dneg T k s) eqn:E; [|done]. apply dneg_dec in E. done. }
    apply cluster_cplan in H2. rewrite H2. done.
  - cbn [plan]. rewrite word_neq, H, word_nodashes, word_nodash by done.
    assert (dsub_loop T w None 0 = SubFound i) as ->.
    { apply dsub_find. constructor. done. }
    rewrite H2, H3, IHreads. done.
  - cbn [plan]. rewrite word_neq, H, word_nodashes, word_nodash by done.
    assert (dsub_loop T w None 0 = SubAmbiguous i j) as ->.
    { apply dsub_find. constructor. done. }
    by rewrite H2, H3.
  - cbn [plan]. rewrite word_neq, H, word_nodashes, word_nodash by done.
    assert (dsub_loop T w None 0 = SubNone) as ->.
    { apply dsub_find. constructor. done. }
    apply dpos_Some in H2. rewrite H2, IHreads. done.
  - cbn [plan]. rewrite word_neq, H, word_nodashes, word_nodash by done.
    assert (dsub_loop T w None 0 = SubNone) as ->.
    { apply dsub_find. constructor. done. }
    apply dpos_None in H2. rewrite H2. done.
Qed.

Lemma selects_sub T w i d : selects T w i -> T !! i = Some d -> d_type d = TSubcommand.
Proof. intros [(e & He & [Ht _] & _) _] Hd. congruence. Qed.

Lemma plan_reads D t k only argv :
  subs_present D -> is_Some (D !! t) -> reads D t k only argv (plan D t k only argv).
Proof.
  intros HD. remember (length argv) as n eqn:Hn. assert (Hle : (length argv <= n)%nat) by lia.
  clear Hn. revert t k only argv Hle.
  induction n as [|n IH]; intros t k only argv Hle [T HT].
  { destruct argv; [constructor|simpl in Hle; lia]. }
  destruct argv as [|w rest]; [constructor|].
  simpl in Hle. cbn [plan].
  destruct (strcmp w ($"--") =? 0) eqn:Ew.
  { apply Z.eqb_eq, strcmp_0 in Ew as ->. constructor. apply IH; [lia|eauto]. }
  assert (Hw : w <> $"--") by (intros ->; done).
  rewrite HT.
  destruct only.
  { destruct (dpos T k) as [i|] eqn:Ei.
    - apply dpos_Some in Ei. econstructor; eauto. apply IH; [lia|eauto].
    - apply dpos_None in Ei. econstructor; eauto. }
  destruct (starts_with (Some ($"--")) (Some w)) as [s|] eqn:E2.
  - apply starts_with_Some in E2 as ->.
    assert (Hs : s <> []) by (intros ->; done).
    destruct (strchr s equal_sign) as [n0|] eqn:Eq.
    + apply strchr_Some in Eq as (name & v & -> & <- & Hname).
      rewrite long_name_eq by done.
      destruct (dlong T (key63 name)) as [i|] eqn:Ei.
      * apply dlong_Some in Ei. destruct (first_lookup _ _ _ Ei) as [d Hd]. rewrite Hd.
        destruct (N.eqb_spec (d_vtype d) VT_FLAG).
        -- eapply r_long_flag; eauto. apply IH; [lia|eauto].
        -- change (S (length name)) with (1 + length name)%nat.
           rewrite Nat.add_comm, <- drop_drop, drop_app.
           eapply r_long_equal; eauto. apply IH; [lia|eauto].
      * apply dlong_None in Ei. eapply r_long_unknown; eauto.
    + apply strchr_None in Eq. rewrite long_name_plain by done.
      destruct (dlong T (key63 s)) as [i|] eqn:Ei.
      * apply dlong_Some in Ei. destruct (first_lookup _ _ _ Ei) as [d Hd]. rewrite Hd.
        destruct (N.eqb_spec (d_vtype d) VT_FLAG).
        -- rewrite <- (app_nil_r s) at 1. eapply r_long_flag; eauto.
           { rewrite app_nil_r. done. }
           apply IH; [lia|eauto].
        -- destruct rest as [|v rest'].
           ++ eapply r_long_missing; eauto.
           ++ eapply r_long_separate; eauto. apply IH; [simpl in Hle; lia|eauto].
      * apply dlong_None in Ei. rewrite <- (app_nil_r s) at 1. eapply r_long_unknown; eauto.
        rewrite app_nil_r. done.
  - destruct (starts_with (Some ($"-")) (Some w)) as [s|] eqn:E1.
    + apply starts_with_Some in E1 as ->.
      assert (Hs : forall s', s <> "-"%char :: s').
      { intros s' ->. apply starts_with_None with (r := s') in E2. done. }
      destruct (dneg T k s) eqn:En.
      * apply dneg_dec in En. pose proof En as (_ & i & d & Hr & _ & _).
        pose proof Hr as Hr'. apply dpos_Some in Hr'. rewrite Hr'.
        eapply r_negative; eauto. apply IH; [lia|eauto].
      * assert (~ negative_for T k s) by (rewrite <- dneg_dec; congruence).
        destruct (cplan T t rest s) as [its [r|]] eqn:Ec.
        -- pose proof (cplan_rest _ _ _ _ _ _ Ec) as Hr. apply cplan_cluster in Ec.
           destruct rest as [|v rest'].
           ++ destruct Hr as [->|[v Hv]]; [|done].
              rewrite <- (app_nil_r its). eapply r_short; eauto. constructor.
           ++ eapply r_short; eauto. destruct Hr as [->|[v' [= -> ->]]].
              ** rewrite Nat.ltb_irrefl. apply IH; [lia|eauto].
              ** simpl. assert (length r <? S (length r) = true)%nat as ->.
                 { apply Nat.ltb_lt. lia. }
                 apply IH; [simpl in Hle; lia|eauto].
        -- apply cplan_cluster in Ec. eapply r_short_bad; eauto.
    + assert (Hd : forall s, w <> "-"%char :: s).
      { intros s ->. apply starts_with_None with (r := s) in E1. done. }
      pose proof (dsub_loop_spec T w) as Hsub.
      destruct (dsub_loop T w None 0) as [|i|i j] eqn:Es; inversion Hsub as [Hx|? Hx|? ? Hx]; subst.
      * destruct (dpos T k) as [i|] eqn:Ei.
        -- apply dpos_Some in Ei. eapply r_word; eauto. apply IH; [lia|eauto].
        -- apply dpos_None in Ei. eapply r_word_extra; eauto.
      * destruct Hx as [Hf Hx']. destruct (first_lookup _ _ _ Hf) as [d Hdd]. rewrite Hdd.
        destruct (HD t T i d HT Hdd) as (t' & Ht' & Hex).
        { eapply selects_sub; [split|]; eauto. }
        rewrite Ht'. eapply r_sub; eauto. { split; done. } apply IH; [lia|done].
      * pose proof Hx as (d & e & _ & Hdi & _ & _ & Hej & _). rewrite Hdi, Hej. eapply r_ambiguous; eauto.
Qed.

Section libc.
Context `{Libc}.

(** ** The parser performs the plan *)
Lemma decls_table a t T : decls a !! t = Some T ->
  exists T', table a t = Ok T' /\ map decl_of T' = T.
Proof.
  unfold decls, table. rewrite list_lookup_fmap. destruct (a_tabs a !! t); [|done].
  intros [= <-]. eauto.
Qed.
Lemma decls_cell T' i d : map decl_of T' !! i = Some d -> exists o, cell T' i = Ok o /\ decl_of o = d.
Proof.
  unfold cell. rewrite list_lookup_fmap. destruct (T' !! i); [|done]. intros [= <-]. eauto.
Qed.

Lemma select_enter a t i :
  enter_subcommand a t i =
  let* o := get_option a t i in let* a' := select a t i in Ok (d_sub (decl_of o), a').
Proof.
  unfold enter_subcommand, select. destruct (get_option a t i) as [o|]; [|done]. cbn [rbind].
  change MAX_SUBCOMMAND_DEPTH with 8%nat.
  destruct (Nat.leb_spec 8 (length (a_stack a)));
    destruct (Nat.ltb_spec (length (a_stack a)) 8); cbn [rbind]; first [done|lia].
Qed.

(** handle_short_option performs the cluster and tells whether it used the next argument *)
Lemma short_perform D t T chars : forall a rest its r its2 (K : bool -> argus -> res (Z * argus)),
  decls a = D -> D !! t = Some T ->
  cplan T t rest chars = (its, Some r) ->
  (forall a', decls a' = D -> K (length r <? length rest)%nat a' = perform a' its2) ->
  (let* (st, used, a') := handle_short_option a t chars (head rest) in
   if st =? SUCCESS then K used a' else Ok (st, a')) = perform a (its ++ its2).
Proof.
  induction chars as [|c chars IH]; intros a rest its r its2 K Ha HT Hp HK.
  - cbn in Hp. injection Hp as <- <-. simpl. rewrite <- HK, Nat.ltb_irrefl by done. done.
  - cbn [handle_short_option]. cbn [cplan] in Hp.
    destruct (decls_table a t T) as (T' & Ht & HTT); [congruence|]. rewrite Ht. cbn [rbind].
    rewrite find_sname_decl, HTT.
    destruct (dshort T c) as [i|]; [|done].
    destruct (T !! i) as [d|] eqn:Hd; [|done].
    destruct (decls_cell T' i d) as (o & Ho & Hod); [congruence|]. rewrite Ho. cbn [rbind].
    rewrite Hod.
    destruct (d_vtype d =? VT_FLAG)%N.
    + destruct (cplan T t rest chars) as [its' r'] eqn:Ec. injection Hp as <- ->.
      cbn [app perform]. destruct (execute_callbacks a t i None) as [[st a']|] eqn:Ee; [|done].
      cbn [rbind]. apply execute_callbacks_frame in Ee. destruct Ee as [_ _ _ Ee _].
      change SUCCESS with 0. destruct (st =? 0) eqn:Est.
      * rewrite <- (IH a' rest its' r its2 K) by (congruence || done). done.
      * simpl. change SUCCESS with 0. rewrite Est. done.
    + destruct chars as [|c' chars'].
      * destruct rest as [|v rest']; [done|]. injection Hp as <- <-. cbn [app perform head].
        destruct (execute_callbacks a t i (Some v)) as [[st a']|] eqn:Ee; [|done]. cbn [rbind].
        apply execute_callbacks_frame in Ee. destruct Ee as [_ _ _ Ee _].
        change SUCCESS with 0. destruct (st =? 0) eqn:Est; [|done].
        rewrite <- HK by congruence. f_equal. symmetry. apply Nat.ltb_lt. simpl. lia.
      * injection Hp as <- <-. cbn [app perform].
        destruct (execute_callbacks a t i (Some (c' :: chars'))) as [[st a']|] eqn:Ee; [|done].
        cbn [rbind].
        apply execute_callbacks_frame in Ee. destruct Ee as [_ _ _ Ee _].
        change SUCCESS with 0. destruct (st =? 0) eqn:Est; [|done].
        rewrite <- HK by congruence. rewrite Nat.ltb_irrefl. done.
Qed.
Lemma short_perform_bad D t T chars : forall a rest its (K : bool -> argus -> res (Z * argus)),
  decls a = D -> D !! t = Some T ->
  cplan T t rest chars = (its, None) ->
  (let* (st, used, a') := handle_short_option a t chars (head rest) in
   if st =? SUCCESS then K used a' else Ok (st, a')) = perform a its.
Proof.
  induction chars as [|c chars IH]; intros a rest its K Ha HT Hp; [done|].
  cbn [handle_short_option]. cbn [cplan] in Hp.
  destruct (decls_table a t T) as (T' & Ht & HTT); [congruence|]. rewrite Ht. cbn [rbind].
  rewrite find_sname_decl, HTT.
  destruct (dshort T c) as [i|] eqn:Ei.
  2:{ injection Hp as <-. done. }
  apply dshort_Some in Ei. destruct (first_lookup _ _ _ Ei) as [d Hd]. rewrite Hd in Hp.
  destruct (decls_cell T' i d) as (o & Ho & Hod); [congruence|]. rewrite Ho. cbn [rbind].
  rewrite Hod.
  destruct (d_vtype d =? VT_FLAG)%N.
  + destruct (cplan T t rest chars) as [its' r'] eqn:Ec. injection Hp as <- ->.
    cbn [app perform]. destruct (execute_callbacks a t i None) as [[st a']|] eqn:Ee; [|done].
    cbn [rbind]. apply execute_callbacks_frame in Ee. destruct Ee as [_ _ _ Ee _].
    change SUCCESS with 0. destruct (st =? 0) eqn:Est.
    * rewrite <- (IH a' rest its' K) by (congruence || done). done.
    * simpl. change SUCCESS with 0. rewrite Est. done.
  + destruct chars as [|c' chars']; [|done]. destruct rest; [|done].
    injection Hp as <-. done.
Qed.

Lemma pos_perform D t T k w a its K :
  decls a = D -> D !! t = Some T ->
  (forall a', decls a' = D -> K a' = perform a' its) ->
  (let* (st, a') := handle_positional a t w k in
   if st =? SUCCESS then K a' else Ok (st, a')) =
  perform a match dpos T k with
            | None => [Reject E_INVALID_ARGUMENT (quoted $"Unknown positional: " (MStr (Some w)))]
            | Some i => Call t i (Some w) :: its
            end.
Proof.
  intros Ha HT HK. unfold handle_positional.
  destruct (decls_table a t T) as (T' & Ht & HTT); [congruence|]. rewrite Ht. cbn [rbind].
  rewrite find_pos_decl, HTT. destruct (dpos T k) as [i|]; [|done].
  cbn [perform]. destruct (execute_callbacks a t i (Some w)) as [[st a']|] eqn:Ee; [|done].
  cbn [rbind]. apply execute_callbacks_frame in Ee. destruct Ee as [_ _ _ Ee _].
  change SUCCESS with 0. destruct (st =? 0); [|done]. apply HK. congruence.
Qed.

Lemma neg_eq T' T k s : map decl_of T' = T ->
  is_negative_number s &&
    match find_positional T' k with
    | Some i => match T' !! i with
                | Some o => has (d_vtype (decl_of o)) VT_ANY_NUMERIC
                | None => false
                end
    | None => false
    end = dneg T k s.
Proof.
  intros <-. unfold dneg. f_equal. rewrite find_pos_decl. destruct (dpos _ k) as [i|]; [|done].
  rewrite list_lookup_fmap. destruct (T' !! i); done.
Qed.

Lemma parse_perform D : subs_present D -> forall n argv, (length argv <= n)%nat ->
  forall a t k only, decls a = D -> is_Some (D !! t) ->
  parse_args a (Some t) k only argv = perform a (plan D t k only argv).
Proof.
  intros HD. induction n as [|n IH]; intros argv Hle a t k only Ha [T HT].
  { destruct argv; [done|simpl in Hle; lia]. }
  destruct argv as [|w rest]; [done|]. simpl in Hle.
  cbn [parse_args plan].
  destruct (strcmp w ($"--") =? 0). { apply IH; [lia|done|eauto]. }
  rewrite HT.
  destruct only.
  { apply pos_perform with (D := D); [done..|]. intros. apply IH; [lia|done|eauto]. }
  destruct (decls_table a t T) as (T' & Ht & HTT); [congruence|].
  destruct (starts_with (Some ($"--")) (Some w)) as [s|].
  { unfold handle_long_option. rewrite Ht. cbn [rbind]. rewrite find_lname_decl, HTT.
    destruct (dlong T (long_option_name s)) as [i|] eqn:Ei; [|done].
    apply dlong_Some in Ei. destruct (first_lookup _ _ _ Ei) as [d Hd]. rewrite Hd.
    destruct (decls_cell T' i d) as (o & Ho & Hod); [congruence|]. rewrite Ho. cbn [rbind].
    rewrite Hod.
    assert (Hex : forall v used rest0, (length rest0 <= n)%nat ->
      (used = false -> rest0 = rest) -> (used = true -> exists x, rest = x :: rest0) ->
      (let* (st, used', a') := (let* (st, a') := execute_callbacks a t i v in Ok (st, used, a')) in
       if st =? SUCCESS
       then match rest with
            | _ :: rest' => if (used' : bool) then parse_args a' (Some t) k false rest'
                            else parse_args a' (Some t) k false rest
            | [] => Ok (SUCCESS, a')
            end
       else Ok (st, a')) = perform a (Call t i v :: plan D t k false rest0)).
    { intros v used rest0 Hl Hu1 Hu2. cbn [perform].
      destruct (execute_callbacks a t i v) as [[st a']|] eqn:Ee; [|done].
      apply execute_callbacks_frame in Ee. destruct Ee as [_ _ _ Ee _].
      cbn [rbind]. change SUCCESS with 0. destruct (st =? 0); [|done].
      rewrite <- IH by (try congruence; eauto; congruence).
      destruct used.
      - destruct (Hu2 eq_refl) as [x ->]. done.
      - rewrite Hu1 by done. destruct rest; done. }
    destruct (d_vtype d =? VT_FLAG)%N.
    { apply (Hex None false rest); [lia|done|done]. }
    destruct (strchr s equal_sign) as [m|].
    { rewrite <- (Hex (Some (drop (S m) s)) false rest) by (lia || done). done. }
    destruct rest as [|v rest']; [done|].
    simpl in Hle. rewrite <- (Hex (Some v) true rest') by first [lia | (intros; discriminate) | (intros; eauto)]. done. }
  destruct (starts_with (Some ($"-")) (Some w)) as [s|].
  { rewrite Ht. cbn [rbind]. cbv zeta. rewrite (neg_eq T' T) by done.
    destruct (dneg T k s).
    { apply pos_perform with (D := D); [done..|]. intros. apply IH; [lia|done|eauto]. }
    destruct (cplan T t rest s) as [its [r|]] eqn:Ec.
    - pose proof (cplan_rest _ _ _ _ _ _ Ec) as Hr.
      destruct rest as [|v rest'].
      + rewrite <- (app_nil_r its).
        apply (short_perform D t T s a [] its r []
          (fun used a' => Ok (SUCCESS, a'))); done.
      + apply (short_perform D t T s a (v :: rest') its r _
          (fun used a' => if used then parse_args a' (Some t) k false rest'
                          else parse_args a' (Some t) k false (v :: rest'))); [done..|].
        intros a' Ha'. simpl in Hle.
        destruct (_ <? _)%nat; apply IH; simpl; try lia; eauto.
    - eapply (short_perform_bad D t T s a rest its
          (fun used a' => match rest with
            | _ :: rest' => if (used : bool) then parse_args a' (Some t) k false rest'
                            else parse_args a' (Some t) k false rest
            | [] => Ok (SUCCESS, a')
            end)) in Ec; [|done..]. rewrite Ec. done. }
  rewrite Ht. cbn [rbind]. rewrite find_sub_decl, HTT.
  destruct (dsub_loop T w None 0) as [|i|i j] eqn:Es.
  3:{ apply dsub_find in Es. inversion Es as [| |i' j' Ham]; subst i' j'.
      destruct Ham as (d & e & _ & Hdi & _ & _ & Hej & _). rewrite Hdi, Hej.
      destruct (decls_cell T' i d) as (o & Ho & Hod); [congruence|]. destruct (decls_cell T' j e) as (o' & Ho' & Hoe); [congruence|].
      rewrite Ho, Ho'. cbn [rbind]. rewrite Hod, Hoe. done. }
  { apply pos_perform with (D := D); [done..|]. intros. apply IH; [lia|done|eauto]. }
  apply dsub_find in Es. inversion Es as [|i' Hsel|]; subst i'.
  destruct Hsel as [Hf Hx']. destruct (first_lookup _ _ _ Hf) as [d Hdd]. rewrite Hdd.
  destruct (HD t T i d HT Hdd) as (t' & Ht' & Hex).
  { eapply selects_sub; [split|]; eauto. }
  rewrite Ht'. cbn [perform].
  pose proof (enter_decls a t i) as Hdec. pose proof (enter_subcommand_frame a t i) as Hfr.
  rewrite select_enter in *. unfold select in *.
  destruct (get_option a t i) as [o|] eqn:Ho; cbn [rbind] in *; [|done].
  destruct (_ <? _)%nat; cbn [rbind] in *; [|done].
  assert (decl_of o = d) as Hod.
  { unfold get_option in Ho. rewrite Ht in Ho. cbn [rbind] in Ho.
    destruct (decls_cell T' i d) as (o' & Ho' & Hod); [congruence|]. congruence. }
  rewrite Hod, Ht'. apply IH; [lia| |done].
  rewrite <- Ha. eapply Hdec. eauto.
Qed.

(** Main statement: the parser does what the grammar says. *)
Lemma parse_reads a t k only argv its :
  subs_present (decls a) -> is_Some (decls a !! t) -> reads (decls a) t k only argv its ->
  parse_args a (Some t) k only argv = perform a its.
Proof.
  intros HD HT Hr. erewrite parse_perform; eauto. f_equal. by apply reads_plan.
Qed.
Lemma reads_total D t k only argv :
  subs_present D -> is_Some (D !! t) -> exists its, reads D t k only argv its.
Proof. intros. eexists. by apply plan_reads. Qed.
Lemma reads_unique D t k only argv its1 its2 :
  reads D t k only argv its1 -> reads D t k only argv its2 -> its1 = its2.
Proof. intros H1 H2. apply reads_plan in H1, H2. congruence. Qed.
End libc.
