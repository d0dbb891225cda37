(** * Proofs about the check of default values on real streams *)
From Verif Require Import SpecGrammar SpecAfter SpecMessages SpecRefused FaultProofs MessageProofs BufferProofs FrameProofs.
From Verif Require Export DefaultOs StreamProofs.
From Verif Require Import SpecFaults.
From Coq Require Import Lia.

(** ** Standard error only *)
Definition kept (s s' : os) : Prop :=
  o_files s' = o_files s /\ o_fails s' = o_fails s /\ o_cap s' = o_cap s /\
  forall j, j <> 2%nat -> o_infos s' !! j = o_infos s !! j.
Lemma kept_trans s1 s2 s3 : kept s1 s2 -> kept s2 s3 -> kept s1 s3.
Proof.
  intros (A1 & A2 & A3 & A4) (B1 & B2 & B3 & B4). unfold kept. split_and!; try congruence.
  intros j N. by rewrite B4, A4.
Qed.
Lemma kept_captured s s' : kept s s' -> ~ captured s' 2 ->
  (forall fd, standard fd -> fd <> 2 -> ~ captured s fd) -> forall fd, standard fd -> ~ captured s' fd.
Proof.
  intros (_ & _ & _ & K) N2 N fd S. destruct (Z.eq_dec fd 2) as [->|D]; [done|].
  intros (i & E & A). apply (N fd S D). exists i. split; [|done]. rewrite <- E. symmetry. apply K.
  unfold standard in S. lia.
Qed.

Lemma two_standard : standard 2.
Proof. unfold standard. lia. Qed.
Lemma redirect_calm s0 s : reached s0 s -> ~ captured s 2 -> o_fails s = [] ->
  exists s', stream_redirect s 2 = Done (STREAM_SUCCESS, s') /\ reached s0 s' /\ captured s' 2 /\ unread s' 2 = [] /\
    kept s s' /\ o_mem s' = o_mem s.
Proof.
  intros R N F. destruct (redirect_cases s0 s 2 R two_standard) as (c & s' & E & A & B).
  destruct (Z.eq_dec c STREAM_SUCCESS) as [->|D].
  2:{ destruct (B D) as (_ & _ & [X|X]); [done|congruence]. }
  destruct (A eq_refl) as (_ & C & _ & U).
  exists s'. split; [done|]. split.
  { apply (reached_step s0 s (ORedirect 2)); [done|]. cbn [step]. by rewrite E. }
  split; [done|]. split; [by rewrite U|].
  destruct (reached_inv _ _ R) as (own & I & O).
  destruct (active_owned _ _ _ _ I two_standard) as (i & Ei & Ac).
  assert (Af : i_active i = false).
  { destruct (i_active i) eqn:X; [|done]. exfalso. apply N. by exists i. }
  assert (Op : is_Some (connection s 2)).
  { rewrite (back_again s0 s 2 R two_standard N). apply O, two_standard. }
  destruct (redirect_char s 2 i two_standard Ei Af Op) as (c' & s'' & E' & [[X _]|(_ & r & b & T)]);
    rewrite E in E'; injection E' as <- <-; [done|].
  unfold taken in T. destruct T as (_ & _ & _ & _ & _ & _ & TI & _ & _ & TF & _ & TC & TM & TX).
  unfold kept. rewrite TF, TX, TC, TI, F. split; [|done]. split_and!; try done. intros j J. rewrite list_lookup_insert_ne; [done|].
  change (Z.to_nat 2) with 2%nat. lia.
Qed.
Lemma print_calm s0 s t : reached s0 s -> captured s 2 ->
  Z.of_nat (length (unread s 2)) + Z.of_nat (length t) <= o_cap s ->
  exists s', print_text s t = Done s' /\ reached s0 s' /\ captured s' 2 /\ unread s' 2 = unread s 2 ++ t /\ kept s s' /\
    o_mem s' = o_mem s.
Proof.
  intros R C L. destruct t as [|x t]; cbn [print_text].
  { exists s. rewrite app_nil_r. split_and!; done. }
  destruct (reached_inv _ _ R) as (own & I & O).
  pose proof C as C'. apply (captured_owned _ _ _ _ I two_standard) in C' as [[[r b] p] Ev].
  destruct (iv_some _ _ _ I _ _ _ _ Ev) as (_ & A2 & _).
  destruct (owned_pipe _ _ _ _ _ _ _ I Ev) as [c P].
  assert (U : unread s 2 = c) by (unfold unread, in_pipe; rewrite A2, P; cbn; by rewrite app_nil_r).
  assert (E : print_err s (x :: t) = Done (with_pipes s (<[p := c ++ x :: t]> (o_pipes s)))).
  { unfold print_err, sys_write. fold (connection s 2). rewrite A2, P, (proj2 (Z.leb_le _ _)); [done|]. by rewrite U in L. }
  rewrite E. eexists. split; [done|]. split.
  { apply (reached_step s0 s (OPrintErr (x :: t))); [done|]. exact E. }
  split; [done|]. split; [|done].
  rewrite U. unfold unread, in_pipe.
  change (connection (with_pipes s (<[p := c ++ x :: t]> (o_pipes s))) 2) with (connection s 2). rewrite A2.
  cbn [with_pipes o_pipes].
  rewrite list_lookup_insert by (by apply lookup_lt_Some in P). cbn. by rewrite app_nil_r.
Qed.
Lemma sys_read_kept s fd n t s' : sys_read s fd n = (t, s') -> kept s s' /\ o_infos s' = o_infos s /\ o_mem s' = o_mem s.
Proof.
  unfold sys_read. destruct (fd_get _ _) as [[]|]; try (by intros [= <- <-]).
  destruct (_ !! _); by intros [= <- <-].
Qed.
Lemma read_loop_kept fuel fd : forall s b n x s', read_loop fuel s fd b n = Done (x, s') ->
  kept s s' /\ o_infos s' = o_infos s.
Proof.
  induction fuel as [|fuel IH]; intros s b n x s'; cbn [read_loop]; [done|].
  destruct (sys_read s fd BUFFER_SIZE) as [t s1] eqn:Er. destruct (sys_read_kept _ _ _ _ _ Er) as (K1 & K2 & _).
  destruct t as [|y t]; [by intros [= <- <-]|].
  destruct (_ <? _)%nat.
  - destruct (pop (o_mem s1)) as [bad l]. destruct bad; [by intros [= <- <-]|].
    destruct (write _ _ _); [|done]. intros E. destruct (IH _ _ _ _ _ E) as [J1 J2]. split; [|by rewrite J2].
    by apply (kept_trans _ s1).
  - destruct (write _ _ _); [|done]. intros E. destruct (IH _ _ _ _ _ E) as [J1 J2]. split; [|by rewrite J2].
    by apply (kept_trans _ s1).
Qed.
Lemma read_kept s x s' : stream_read s 2 = Done (x, s') -> kept s s'.
Proof.
  unfold stream_read. change (is_valid_fd 2) with true. cbn [negb]. destruct (info_at s 2) as [i|]; [|done].
  destruct (negb _); [by intros [= <- <-]|]. change (flush s 2) with (Done s). cbn [ebind].
  destruct (read_loop _ s _ _ _) as [[r s1]| |] eqn:E; cbn [ebind]; [|done..].
  destruct (read_loop_kept _ _ _ _ _ _ _ E) as [K _].
  destruct r as [[b n]|]; [|by intros [= <- <-]]. destruct (_ =? _)%nat; [by intros [= <- <-]|].
  destruct (write _ _ _); [|done]. destruct (pop _) as [bad l]. by intros [= <- <-].
Qed.
Lemma read_calm s0 s : reached s0 s -> captured s 2 -> o_mem s = [] -> Z.of_nat (length (unread s 2)) <= o_cap s ->
  exists s', stream_read s 2 = Done (block_of (unread s 2), s') /\ reached s0 s' /\ captured s' 2 /\ kept s s' /\ o_mem s' = [].
Proof.
  intros R C M L. destruct (read_exact s0 s 2 R two_standard C M L) as (s' & E & C' & _ & _ & M').
  exists s'. split; [done|]. split; [|split; [done|split; [by eapply read_kept|done]]].
  apply (reached_step s0 s (ORead 2)); [done|]. cbn [step]. by rewrite E.
Qed.
Lemma drain_kept fuel fd : forall s, kept s (drain fuel s fd) /\ o_infos (drain fuel s fd) = o_infos s /\
  o_mem (drain fuel s fd) = o_mem s.
Proof.
  induction fuel as [|fuel IH]; intros s; cbn [drain]; [done|].
  destruct (sys_read s fd BUFFER_SIZE) as [t s1] eqn:Er. destruct (sys_read_kept _ _ _ _ _ Er) as (K1 & K2 & K3).
  destruct t; [done|]. destruct (IH s1) as (J1 & J2 & J3). split; [by apply (kept_trans _ s1)|]. split; congruence.
Qed.
Lemma restore_calm s0 s : reached s0 s ->
  exists s', stream_restore s 2 = Done s' /\ reached s0 s' /\ ~ captured s' 2 /\ kept s s' /\ o_mem s' = o_mem s.
Proof.
  intros R. destruct (reached_inv _ _ R) as (own & I & O).
  destruct (active_owned _ _ _ _ I two_standard) as (i & Ei & Ac).
  assert (X : exists s', stream_restore s 2 = Done s' /\ kept s s' /\ o_mem s' = o_mem s).
  { unfold stream_restore. change (is_valid_fd 2) with true. cbn [negb]. unfold info_at. rewrite Ei.
    destruct (negb (i_active i)); [by eexists|]. change (flush s 2) with (Done s). cbn [ebind].
    destruct (drain_kept (reads s (i_read i)) (i_read i) s) as (K1 & K2 & K3).
    set (s1 := drain _ _ _) in *. clearbody s1. destruct (pop (o_fails2 s1)) as [bad l].
    assert (Y : forall s2, kept s1 s2 -> o_infos s2 = o_infos s1 -> o_mem s2 = o_mem s1 ->
      exists s', Done (set_info (sys_close (sys_close s2 (i_backup i)) (i_read i)) 2 (Info (-1) (-1) (-1) (-1) false)) = Done s' /\
        kept s s' /\ o_mem s' = o_mem s).
    { intros s2 J1 J2 J3. eexists. split; [done|]. split; [|cbn; congruence].
      apply (kept_trans _ _ _ (kept_trans _ _ _ K1 J1)). unfold kept. cbn. split_and!; try done.
      intros j N. rewrite list_lookup_insert_ne; [done|]. change (Pos.to_nat 2) with 2%nat. lia. }
    unfold sys_dup2. destruct (fd_get _ _) as [t|]; [destruct bad|]; by apply Y. }
  destruct X as (s' & E & K & M). exists s'. split; [done|].
  destruct (restored s0 s 2 s' R two_standard E) as [_ N].
  split; [by apply (reached_step s0 s (ORestore 2))|]. done.
Qed.

(** ** What validators print *)
Section checks.
Context `{L : Libc} (pcre : cstr -> cstr) (p : program).

(** A validator that accepts prints nothing; one that prints gives one message. *)
Lemma validator_prints f arg h st ev : run_validator f arg h = Ok (st, ev) ->
  ev = [] \/ (st <> SUCCESS /\ exists c m, ev = [EDiag c m]).
Proof.
  destruct f, arg; cbn [run_validator]; try discriminate.
  - unfold range_validator. destruct (_ <? _); [intros [= <- <-]; right; split; [done|eauto]|].
    intros E. apply rbind_Ok in E as (x & _ & E). destruct (_ || _); injection E as <- <-; [right; split; [done|eauto]|by left].
  - unfold length_validator. intros E. apply rbind_Ok in E as ([] & _ & E); [injection E as <- <-; right; split; [done|eauto]|].
    destruct (_ || _); [injection E as <- <-; right; split; [done|eauto]|].
    destruct (_ <? _); [injection E as <- <-; right; split; [done|eauto]|].
    apply rbind_Ok in E as (x & _ & E). destruct (_ || _); injection E as <- <-; [right; split; [done|eauto]|by left].
  - unfold count_validator. destruct (_ || _); [intros [= <- <-]; right; split; [done|eauto]|].
    destruct (_ <? _); [intros [= <- <-]; right; split; [done|eauto]|].
    destruct (_ || _); intros [= <- <-]; [right; split; [done|eauto]|by left].
  - unfold regex_validator. destruct (negb _); [intros [= <- <-]; right; split; [done|eauto]|].
    destruct pattern; [|intros [= <- <-]; right; split; [done|eauto]].
    destruct s; [|destruct (regex_match _ _); intros [= <- <-]; right; (split; [done|eauto])].
    destruct (regex_match _ _); intros [= <- <-]; (by left) || (right; split; [done|eauto]).
  - unfold choices_string_validator. intros E. apply rbind_Ok in E as (x & _ & E).
    destruct (existsb _ _); injection E as <- <-; [by left|right; split; [done|eauto]].
  - unfold choices_int_validator. intros E. apply rbind_Ok in E as (x & _ & E).
    destruct (existsb _ _); injection E as <- <-; [by left|right; split; [done|eauto]].
  - unfold choices_float_validator. intros E. apply rbind_Ok in E as (x & _ & E).
    destruct (existsb _ _); injection E as <- <-; [by left|right; split; [done|eauto]].
  - intros [= <- <-]. by left.
  - intros [= <- <-]. by left.
Qed.
Definition one_call (o : opt) (h : heap) (e : ventry) : res (Z * list event) :=
  match v_order e with
  | ORDER_PRE =>
      if (d_vtype (decl_of o) =? VT_STRING)%N then
        let* s := read_str h (d_default (decl_of o)) in
        run_validator (v_fun e) (ArgText s) h
      else Ok (SUCCESS, [])
  | ORDER_POST => run_validator (v_fun e) (ArgOption o) h
  end.
Lemma one_call_prints o h e r ev : one_call o h e = Ok (r, ev) ->
  ev = [] \/ (r <> SUCCESS /\ exists c m, ev = [EDiag c m]).
Proof.
  unfold one_call. destruct (v_order e); [|apply validator_prints].
  destruct (_ =? _)%N; [|intros [= <- <-]; by left].
  intros E. apply rbind_Ok in E as (x & _ & E). by eapply validator_prints.
Qed.
Lemma captured_one c m t : StructErrors.captured pcre p [EDiag c m] = Ok t -> t <> [].
Proof.
  cbn [StructErrors.captured]. intros E. apply rbind_Ok in E as (x & Ex & E). cbn [rbind] in E. injection E as <-.
  unfold error_line in Ex. apply rbind_Ok in Ex as (y & _ & Ex). injection Ex as <-. rewrite app_nil_r.
  intros X. apply (f_equal length) in X. rewrite !app_length in X. cbn in X. lia.
Qed.

Definition refusal (t : cstr) : cstr :=
  $"Default value does not pass validations: " ++ [newline] ++ ["009"%char] ++ $"    " ++ t.
Lemma in_refusal (c : ascii) t : c ∈ t -> c ∈ refusal t.
Proof. intros H. unfold refusal. rewrite !elem_of_app. tauto. Qed.
Lemma refusal_longer t : (length t <= length (refusal t))%nat.
Proof. unfold refusal. repeat rewrite app_length. lia. Qed.

Lemma read_block t : t <> [] -> terminator ∉ t -> exists b, block_of t = Some b /\ read_string b = Ok t.
Proof.
  intros N T. assert (E : block_of t = Some (map Some t ++ [Some terminator])) by (by destruct t).
  eexists. split; [done|]. by apply (read_holds _ t []).
Qed.

Lemma loop_on s0 n f line o h : connection s0 2 = Some (TFile n) ->
  forall l s st ts st', reached s0 s -> (forall fd, standard fd -> ~ captured s fd) -> o_fails s = [] -> o_mem s = [] ->
  default_validators_say pcre p o h l st = Ok ts -> default_validators o h l st = Ok st' ->
  Forall (fun t => terminator ∉ t /\ Z.of_nat (length t) <= o_cap s) ts ->
  exists s' xs, default_validators_on pcre p s (Some f) line o h l st = Done (st', s') /\
    Forall2 (complaint f line (Some (decl_of o))) ts xs /\ o_files s' = o_files s ++ map (pair n) xs /\
    reached s0 s' /\ forall fd, standard fd -> ~ captured s' fd.
Proof.
  intros C0. induction l as [|e l IH]; intros s st ts st' R N F M.
  { cbn. intros [= <-] [= <-] _. exists s, []. cbn. rewrite app_nil_r. by split_and!. }
  cbn [default_validators_say default_validators default_validators_on]. fold (one_call o h e).
  destruct (redirect_calm s0 s R (N 2 two_standard) F) as (s1 & E1 & R1 & C1 & U1 & K1 & M1).
  rewrite E1. cbn [ebind]. unfold call_validator. fold (one_call o h e).
  destruct (one_call o h e) as [[r ev]|] eqn:Ec; cbn [rbind]; [|done].
  destruct (StructErrors.captured pcre p ev) as [t|] eqn:Et; cbn [rbind of_res ebind]; [|done].
  set (st1 := if r =? SUCCESS then st else E_INVALID_DEFAULT).
  pose proof (one_call_prints _ _ _ _ _ Ec) as Pr.
  assert (Cap : forall s x, kept s x -> o_cap x = o_cap s) by (by intros ? ? (_ & _ & Q & _)).
  assert (Fl : forall s x, kept s x -> o_fails x = o_fails s) by (by intros ? ? (_ & Q & _)).
  assert (Fi : forall s x, kept s x -> o_files x = o_files s) by (by intros ? ? (Q & _)).
  destruct (Z.eqb_spec st1 SUCCESS) as [Z1|Z1].
  - (* accepted so far: nothing was printed *)
    assert (ev = []) as ->.
    { destruct Pr as [->|[Hr _]]; [done|]. unfold st1 in Z1. by rewrite (proj2 (Z.eqb_neq _ _) Hr) in Z1. }
    cbn in Et. injection Et as <-. cbn [print_text ebind].
    destruct (restore_calm s0 s1 R1) as (s2 & E2 & R2 & N2 & K2 & M2). rewrite E2. cbn [ebind].
    pose proof (kept_trans _ _ _ K1 K2) as K. intros Hs Hd Hf.
    destruct (IH s2 st1 ts st') as (s' & xs & A & B & D & G1 & G2); try done.
    + intros fd S. by apply (kept_captured s s2 K N2); [intros; apply N|].
    + by rewrite (Fl _ _ K).
    + congruence.
    + by rewrite (Cap _ _ K).
    + exists s', xs. rewrite <- (Fi _ _ K). by split_and!.
  - destruct Pr as [->|(Hr & c & m & ->)]; [done|].
    intros Hs Hd Hf. apply rbind_Ok in Hs as (more & Hmore & Hs). injection Hs as <-.
    fold (refusal t) in *. apply Forall_cons in Hf as [[Hf1 Hf2] Hf].
    pose proof (captured_one _ _ _ Et) as Tn.
    assert (Tt : terminator ∉ t) by (intros X; by apply Hf1, in_refusal).
    assert (Tl : Z.of_nat (length t) <= o_cap s).
    { pose proof (refusal_longer t). change (Z.of_nat (length (refusal t)) <= o_cap s) in Hf2. lia. }
    destruct (print_calm s0 s1 t R1 C1) as (s2 & E2 & R2 & C2 & U2 & K2 & M2).
    { rewrite U1, (Cap _ _ K1). cbn [length]. lia. }
    rewrite E2. cbn [ebind]. rewrite U1 in U2. cbn [app] in U2.
    destruct (read_calm s0 s2 R2 C2) as (s3 & E3 & R3 & C3 & K3 & M3).
    { congruence. } { rewrite U2, (Cap _ _ K2), (Cap _ _ K1). done. }
    rewrite E3. cbn [ebind].
    destruct (restore_calm s0 s3 R3) as (s4 & E4 & R4 & N4 & K4 & M4). rewrite E4. cbn [ebind].
    rewrite U2. destruct (read_block t Tn Tt) as (b & -> & Hb). rewrite Hb. cbn [of_res ebind].
    destruct (line_spec pcre f line (Some o) (refusal t)) as (x & Ex & Hx). match goal with |- context [struct_error_line _ _ _ ?w] => change w with (refusal t) end. rewrite Ex. cbn [of_res ebind].
    pose proof (kept_trans _ _ _ K1 (kept_trans _ _ _ K2 (kept_trans _ _ _ K3 K4))) as K.
    assert (N4' : forall fd, standard fd -> ~ captured s4 fd) by (apply (kept_captured s s4 K N4); intros; by apply N).
    assert (E5 : print_err s4 x = Done (with_files s4 (o_files s4 ++ [(n, x)]))).
    { unfold print_err, sys_write. fold (connection s4 2). by rewrite (none_left s0 s4 R4 N4' 2), C0. }
    rewrite E5. cbn [ebind].
    destruct (IH (with_files s4 (o_files s4 ++ [(n, x)])) E_INVALID_DEFAULT more st') as (s' & xs & A & B & D & G1 & G2); try done.
    + by apply (reached_step s0 s4 (OPrintErr x)).
    + cbn. by rewrite (Fl _ _ K).
    + cbn. congruence.
    + cbn. by rewrite (Cap _ _ K).
    + exists s', (x :: xs). split; [done|]. split; [by constructor|]. split; [|done].
      rewrite D. cbn [with_files o_files map]. rewrite (Fi _ _ K), <- app_assoc. done.
Qed.

Lemma default_on s0 s n f line o h ts st :
  reached s0 s -> (forall fd, standard fd -> ~ captured s fd) -> connection s0 2 = Some (TFile n) ->
  o_fails s = [] -> o_mem s = [] ->
  default_says pcre p o h = Ok ts -> validate_default_value o h = Ok st ->
  Forall (fun t => terminator ∉ t /\ Z.of_nat (length t) <= o_cap s) ts ->
  exists s' xs, validate_default_on pcre p s (Some f) line o h = Done (st, s') /\
    Forall2 (complaint f line (Some (decl_of o))) ts xs /\ o_files s' = o_files s ++ map (pair n) xs /\
    (forall fd, connection s' fd = connection s fd) /\ reached s0 s' /\ forall fd, standard fd -> ~ captured s' fd.
Proof.
  intros R N C0 F M Hs Hd Hf.
  assert (X : exists s' xs, validate_default_on pcre p s (Some f) line o h = Done (st, s') /\
    Forall2 (complaint f line (Some (decl_of o))) ts xs /\ o_files s' = o_files s ++ map (pair n) xs /\
    reached s0 s' /\ forall fd, standard fd -> ~ captured s' fd).
  { revert Hs Hd. unfold default_says, validate_default_value, validate_default_on.
    assert (Z0 : forall st ts, @Ok (list cstr) [] = Ok ts -> Ok SUCCESS = Ok st ->
      exists s' xs, @Done (Z * os) (SUCCESS, s) = Done (st, s') /\ Forall2 (complaint f line (Some (decl_of o))) ts xs /\
        o_files s' = o_files s ++ map (pair n) xs /\ reached s0 s' /\ forall fd, standard fd -> ~ captured s' fd).
    { intros ? ? [= <-] [= <-]. exists s, []. cbn. rewrite app_nil_r. by split_and!. }
    destruct (d_have_default _); [|apply Z0]. destruct (_ =? _)%N.
    - intros [= <-] [= <-]. cbv beta.
      destruct (line_spec pcre f line (Some o) ($"Option type flag cannot have a default value")) as (x & Ex & Hx).
      rewrite Ex. cbn [of_res ebind].
      assert (E5 : print_err s x = Done (with_files s (o_files s ++ [(n, x)]))).
      { unfold print_err, sys_write. fold (connection s 2). by rewrite (none_left s0 s R N 2), C0. }
      rewrite E5. cbn [ebind]. eexists _, [x]. split; [done|]. split; [by repeat constructor|]. split; [done|].
      split; [by apply (reached_step s0 s (OPrintErr x))|]. done.
    - destruct (d_validators _); [|apply Z0]. intros Hs Hd. by eapply loop_on. }
  destruct X as (s' & xs & A & B & D & R' & N'). exists s', xs. split_and!; try done.
  intros fd. by rewrite (none_left s0 s' R' N'), (none_left s0 s R N).
Qed.
End checks.

(** ** In the words of the specification *)
Section said.
Context `{L : Libc} (pcre : cstr -> cstr) (p : program).
Lemma default_told s0 s n f line o h st :
  (forall e, e ∈ validators (decl_of o) -> listable (v_fun e)) ->
  reached s0 s -> (forall fd, standard fd -> ~ captured s fd) -> connection s0 2 = Some (TFile n) ->
  o_fails s = [] -> o_mem s = [] -> validate_default_value o h = Ok st ->
  (forall w, bad_default pcre (p_name p) o h w -> terminator ∉ w /\ Z.of_nat (length w) <= o_cap s) ->
  exists s' ws xs, validate_default_on pcre p s (Some f) line o h = Done (st, s') /\
    (forall w, w ∈ ws <-> bad_default pcre (p_name p) o h w) /\ (st = 0 <-> ws = []) /\
    Forall2 (complaint f line (Some (decl_of o))) ws xs /\ o_files s' = o_files s ++ map (pair n) xs /\
    (forall fd, connection s' fd = connection s fd) /\ forall fd, standard fd -> ~ captured s' fd.
Proof.
  intros Hl R N C0 F M Hd Hw. pose proof (default_agree pcre p o h Hl) as X. rewrite Hd in X.
  destruct X as (ms & Hs & Hz & Hms).
  destruct (default_on pcre p s0 s n f line o h ms st R N C0 F M Hs Hd) as (s' & xs & A & B & D & G1 & _ & G2).
  { apply Forall_forall. intros w H. by apply Hw, Hms. }
  exists s', ms, xs. by split_and!.
Qed.
End said.
