(** * Proofs: checking a description *)
From stdpp Require Import list.
From Coq Require Import Lia.
From Verif Require Import SpecCheck LibProofs FrameProofs GrammarProofs AfterProofs StructProofs SafeContext MacroProofs.

Section libc.
Context `{Libc}.

(** ** Defaults *)
Definition declared (o : opt) : Prop :=
  d_have_default (decl_of o) = true ->
  (forall e, e ∈ validators (decl_of o) -> suits (decl_of o) e) /\ typed o /\ is_set o = true /\
  (d_vtype (decl_of o) = 2%N -> exists s, d_default (decl_of o) = PLit s).
Lemma builtin_explains e : builtin (v_fun e) <-> explains e.
Proof. done. Qed.
Lemma one_runs o h e : suits (decl_of o) e -> typed o -> is_set o = true ->
  (d_vtype (decl_of o) = 2%N -> exists s, d_default (decl_of o) = PLit s) ->
  exists r ev,
    match v_order e with
    | ORDER_PRE => if (d_vtype (decl_of o) =? VT_STRING)%N
        then let* s := read_str h (d_default (decl_of o)) in run_validator (v_fun e) (ArgText s) h
        else Ok (SUCCESS, [])
    | ORDER_POST => run_validator (v_fun e) (ArgOption o) h
    end = Ok (r, ev) /\
    ((r = 0 /\ content o h e) \/ (r <> 0 /\ ~ content o h e /\ (explains e -> ev <> []))).
Proof.
  intros Su Ty Se De. unfold content. destruct (v_order e) eqn:Eo.
  - destruct (N.eqb_spec (d_vtype (decl_of o)) VT_STRING) as [Ev|Ev].
    + change VT_STRING with 2%N in Ev. destruct (De Ev) as [s Es]. rewrite Es. cbn [read_str rbind].
      assert (Hr : exists r ev, run_validator (v_fun e) (ArgText (Some s)) h = Ok (r, ev)).
      { unfold suits in Su. rewrite Eo in Su. destruct (v_fun e); try done; cbn [run_validator]; [|eauto].
        unfold regex_validator. destruct (negb regex_enabled); [eauto|]. destruct pattern; [|eauto].
        destruct (regex_match _ _); eauto. }
      destruct Hr as (r & ev & Er). exists r, ev. split; [done|].
      destruct (run_pre _ _ _ _ _ Er) as [(-> & A & ->)|(N & A & B)]; [left|right].
      * split; [done|]. intros _. by exists (Some s).
      * split; [done|]. split; [intros X; destruct (X Ev) as (v & [= <-] & Y); done|].
        intros X. by destruct (B X) as [m ->].
    + exists 0, []. split; [done|]. left. split; [done|]. intros X. done.
  - assert (Hr : exists r ev, run_validator (v_fun e) (ArgOption o) h = Ok (r, ev)).
    { destruct (post_ok o h [e]) as (r & ev & Er); [by intros x ->%elem_of_list_singleton|done|done|].
      cbn [run_validators] in Er. unfold is_order in Er. rewrite Eo in Er.
      apply rbind_Ok in Er as ([r1 ev1] & Er & _). eauto. }
    destruct Hr as (r & ev & Er). exists r, ev. split; [done|].
    destruct (run_post _ _ _ _ _ Er) as [(-> & A & ->)|(N & [A _] & B)]; [by left|right].
    split; [done|]. split; [done|]. intros X. by destruct (B X) as [m ->].
Qed.
Lemma validators_run o h l : typed o -> is_set o = true ->
  (d_vtype (decl_of o) = 2%N -> exists s, d_default (decl_of o) = PLit s) ->
  forall st, (forall e, e ∈ l -> suits (decl_of o) e) ->
  (forall i j e e', (i <= j)%nat -> l !! i = Some e -> l !! j = Some e' ->
    ~ content o h e -> ~ content o h e' /\ explains e') ->
  (st <> 0 -> forall e, e ∈ l -> ~ content o h e /\ explains e) ->
  exists r, default_validators o h l st = Ok r.
Proof.
  intros Ty Se De. induction l as [|e l IH]; intros st Su Lo St; cbn [default_validators]; [eauto|].
  destruct (one_runs o h e) as (r & ev & -> & Hr); [apply Su; by left|done..|]. cbn [rbind].
  assert (Su' : forall x, x ∈ l -> suits (decl_of o) x) by (intros x Hx; apply Su; by right).
  assert (Lo' : forall i j x x', (i <= j)%nat -> l !! i = Some x -> l !! j = Some x' ->
    ~ content o h x -> ~ content o h x' /\ explains x').
  { intros i j x x' L Hi Hj. apply (Lo (S i) (S j)); [lia|done|done]. }
  assert (Rest : ~ content o h e -> forall x, x ∈ l -> ~ content o h x /\ explains x).
  { intros N x Hx. apply elem_of_list_lookup in Hx as [j Hj]. apply (Lo 0%nat (S j) e x); [lia|done|done|done]. }
  destruct Hr as [[-> C]|(N & C & B)].
  - change (0 =? SUCCESS) with true. cbv iota. destruct (Z.eqb_spec st SUCCESS) as [->|Ns].
    + apply IH; try done.
    + exfalso. destruct (St Ns e) as [X _]; [by left|done].
  - change (r =? SUCCESS) with (r =? 0). destruct (Z.eqb_spec r 0) as [|_]; [done|].
    change (E_INVALID_DEFAULT =? SUCCESS) with false. cbv iota.
    destruct ev as [|x ev].
    + exfalso. apply B; [|done]. by apply (Lo 0%nat 0%nat e e).
    + apply IH; [done|done|]. intros _. by apply Rest.
Qed.
Lemma default_runs o h : declared o -> loud h o -> exists r, validate_default_value o h = Ok r.
Proof.
  intros De Lo. unfold validate_default_value. unfold declared, loud, validators in *.
  destruct (d_have_default (decl_of o)) eqn:Eh; [|eauto]. destruct (_ =? _)%N; [eauto|].
  destruct (d_validators (decl_of o)) as [l|]; [|eauto]. cbn [default from_option id] in *.
  destruct (De eq_refl) as (A & B & C & D). apply validators_run; try done. by apply Lo.
Qed.

(** ** Tables *)
Lemma type_format_runs T h l : forall st, (forall o, o ∈ l -> declared o /\ loud h o) ->
  exists r, validate_type_format T l h st = Ok r.
Proof.
  induction l as [|o l IH]; intros st Hl; cbn [validate_type_format]; [eauto|].
  assert (Hd : exists r, validate_default_value o h = Ok r).
  { apply default_runs; apply Hl; by left. }
  destruct Hd as [dv Hd].
  assert (Hr : exists r, match d_type (decl_of o) with
        | TOption => validate_option T o h
        | TPositional => validate_positional o h
        | TGroup => Ok (validate_group (decl_of o))
        | TSubcommand => Ok (validate_subcommand (decl_of o))
        end = Ok r).
  { destruct (d_type (decl_of o)); [unfold validate_option| |unfold validate_positional|]; rewrite ?Hd; cbn [rbind]; eauto. }
  destruct Hr as [r ->]. cbn [rbind]. apply IH. intros x Hx. apply Hl. by right.
Qed.
Lemma subs_run rec l : (forall t d st d', rec t d = Ok (st, d') -> d' = d) ->
  forall st depth,
  (forall o t d, o ∈ l -> d_type (decl_of o) = TSubcommand -> d_sub (decl_of o) = Some t ->
     exists x, rec t d = Ok x) ->
  exists x, validate_subs rec l st depth = Ok x.
Proof.
  intros Hrec. induction l as [|o l IH]; intros st depth Hl; cbn [validate_subs]; [eauto|].
  assert (Hl' : forall st d, exists x, validate_subs rec l st d = Ok x).
  { intros st' d'. apply IH. intros x t d Hx. apply Hl. by right. }
  destruct (d_type (decl_of o)) eqn:Et; try apply Hl'. destruct (d_sub (decl_of o)) as [t|] eqn:Es; [|apply Hl'].
  destruct (Hl o t (S depth)) as [[r d2] ->]; [by left|done|done|]. cbn [rbind]. apply Hl'.
Qed.
Lemma way_snoc D t t' t'' : way_down D t t' -> below D t' t'' -> way_down D t t''.
Proof.
  intros W B. induction W as [t t' X|t t1 t' X W IH].
  - eapply wd_more; [exact X|]. by apply wd_one.
  - eapply wd_more; [exact X|]. by apply IH.
Qed.
Lemma structure_unfold fuel a t depth : validate_structure (S fuel) a t depth =
  let* T := table a t in
  let st := if validate_placement T =? SUCCESS then SUCCESS else E_MALFORMED_OPTION in
  let st := if validate_naming T =? SUCCESS then st else E_MALFORMED_OPTION in
  let* tf := validate_type_format T T (a_heap a) SUCCESS in
  let st := if tf =? SUCCESS then st else E_MALFORMED_OPTION in
  validate_subs (validate_structure fuel a) T st depth.
Proof. done. Qed.
Lemma structure_runs a :
  (forall t T o, a_tabs a !! t = Some T -> o ∈ T -> declared o /\ loud (a_heap a) o) ->
  (forall t t', below (decls a) t t' -> is_Some (a_tabs a !! t')) ->
  acyclic (decls a) (a_root a) ->
  forall m path t depth,
    reachable (decls a) (a_root a) t -> is_Some (a_tabs a !! t) -> NoDup (t :: path) ->
    (forall x, x ∈ path -> is_Some (a_tabs a !! x) /\ way_down (decls a) x t /\ reachable (decls a) (a_root a) x) ->
    (length (a_tabs a) - length (t :: path) <= m)%nat ->
    exists x, validate_structure (S m) a t depth = Ok x.
Proof.
  intros Hd Hs Hc. induction m as [|m IH]; intros path t depth Rt [T HT] ND Hp Hm;
    rewrite structure_unfold; unfold table; rewrite HT; cbn [rbind];
    (destruct (type_format_runs T (a_heap a) T SUCCESS) as [tf ->]; [intros o Ho; by eapply Hd|]); cbn [rbind].
  all: assert (New : forall o t', o ∈ T -> d_type (decl_of o) = TSubcommand -> d_sub (decl_of o) = Some t' ->
      below (decls a) t t' /\ is_Some (a_tabs a !! t') /\ NoDup (t' :: t :: path)).
  1, 3: intros o t' Ho Et Es;
    assert (B : below (decls a) t t') by
     (apply elem_of_list_lookup in Ho as [i Hi]; exists (map decl_of T), i, (decl_of o);
      split; [by apply decls_tab|]; split; [|done]; by rewrite list_lookup_fmap, Hi);
    (split; [done|]; split; [by eapply Hs|]);
    apply NoDup_cons; (split; [|done]); intros X; apply elem_of_cons in X as [->|X];
      [apply (Hc t Rt); by apply wd_one|
       destruct (Hp t' X) as (_ & W & R); apply (Hc t' R); by eapply way_snoc].
  - apply subs_run; [intros; by eapply structure_depth|].
    intros o t' d Ho Et Es. exfalso. destruct (New o t' Ho Et Es) as (B & [T' HT'] & ND').
    assert (L : (length (t' :: t :: path) <= length (seq 0 (length (a_tabs a))))%nat).
    { apply submseteq_length, NoDup_submseteq; [done|]. intros x Hx. apply elem_of_list_In, in_seq. cbn.
      split; [lia|]. apply elem_of_cons in Hx as [->|Hx]; [by apply lookup_lt_Some in HT'|].
      apply elem_of_cons in Hx as [->|Hx]; [by apply lookup_lt_Some in HT|].
      destruct (Hp x Hx) as ([Tx HTx] & _). by apply lookup_lt_Some in HTx. }
    rewrite seq_length in L. cbn [length] in *. lia.
  - apply subs_run; [intros; by eapply structure_depth|].
    intros o t' d Ho Et Es. destruct (New o t' Ho Et Es) as (B & HT' & ND').
    apply (IH (t :: path)); [|done|done| |cbn [length] in *; lia].
    + destruct Rt as [->|W]; [right; by apply wd_one|right; by eapply way_snoc].
    + intros x Hx. apply elem_of_cons in Hx as [->|Hx].
      * split; [by eexists|]. split; [by apply wd_one|done].
      * destruct (Hp x Hx) as (A1 & A2 & A3). split; [done|]. split; [by eapply way_snoc|done].
Qed.

(** ** Descriptions written with the macros *)
Definition consistent (o : opt) : Prop :=
  d_have_default (decl_of o) = true -> is_set o = true /\ value o = d_default (decl_of o).
Lemma mods_consistent m : forall o, consistent o -> consistent (with_mods o m).
Proof.
  unfold with_mods. induction m as [|x m IH]; intros o Ho; [done|]. cbn [fold_left]. apply IH.
  destruct x; try exact Ho. by intros _.
Qed.
Lemma built_consistent o : built o -> consistent o.
Proof.
  intros B. destruct B; try (apply mods_consistent; done); done.
Qed.
Lemma mods_same vt f m : propers vt f m -> forall o,
  d_vtype (decl_of (with_mods o m)) = d_vtype (decl_of o) /\ d_handler (decl_of (with_mods o m)) = d_handler (decl_of o).
Proof.
  unfold with_mods. induction 1 as [|x m Hx _ IH]; intros o; [done|]. cbn [fold_left].
  destruct (IH (apply_modifier o x)) as [-> ->]. by destruct x.
Qed.
Lemma built_string o : built o -> d_vtype (decl_of o) = 2%N -> d_handler (decl_of o) = Some HString.
Proof.
  assert (K : forall vt f o0 m, propers vt f m -> d_vtype (decl_of o0) = vt ->
    (vt = 2%N -> d_handler (decl_of o0) = Some HString) ->
    d_vtype (decl_of (with_mods o0 m)) = 2%N -> d_handler (decl_of (with_mods o0 m)) = Some HString).
  { intros vt f o0 m Hm E1 E2. destruct (mods_same vt f m Hm o0) as [-> ->]. rewrite E1. done. }
  intros B. destruct B as [s l m Hm|s l m Hm|s l m Hm|s l m Hm|s l m Hm|s l m Hm|s l m Hm|s l m Hm|s l m Hm|s l m Hm|s l m Hm|s l m Hm| | |
    n m Hm| |n sub m Hm|n m Hm|n m Hm|n m Hm|n m Hm|n m Hm|n m Hm|n m Hm].
  all: try (eapply (K _ _ (with_mods (blank _ _ _ _ _ _ _ _) [HANDLER _])); [exact Hm|reflexivity|vm_compute; done]).
  all: try (eapply (K _ _ (with_mods (blank _ _ _ _ _ _ _ _) [HANDLER _; FREE_HANDLER _])); [exact Hm|reflexivity|vm_compute; done]).
  all: try (eapply (K _ _ (blank _ _ _ _ _ _ _ _)); [exact Hm|reflexivity|vm_compute; done]).
  all: vm_compute; done.
Qed.
Lemma built_declared o : built o -> declared o.
Proof.
  intros B Hd. destruct (built_fits o B) as (F & P & _). destruct (built_consistent o B Hd) as [Se Ev].
  split; [|split; [|split; [done|]]].
  - intros e He. unfold validators in He. destruct (d_validators (decl_of o)) as [l|] eqn:El; [|by apply elem_of_nil in He].
    by eapply (ft_validators _ F).
  - destruct P as [_ P]. unfold typed. unfold shape_of in P.
    destruct (d_handler (decl_of o)) as [f|] eqn:Ef; [|done]. destruct f; try done; unfold typed in P; by rewrite Ef in P.
  - intros Vt. pose proof (built_string o B Vt) as Ef. destruct P as [_ P]. unfold shape_of in P. rewrite Ef in P.
    unfold typed in P. rewrite Ef in P. rewrite <- Ev. by apply P.
Qed.
Lemma subs_mono (rec rec' : nat -> nat -> res (Z * nat)) l : (forall t d x, rec t d = Ok x -> rec' t d = Ok x) ->
  forall st depth x, validate_subs rec l st depth = Ok x -> validate_subs rec' l st depth = Ok x.
Proof.
  intros Hrec. induction l as [|o l IH]; intros st depth x; cbn [validate_subs]; [done|].
  destruct (d_type (decl_of o)); try apply IH. destruct (d_sub (decl_of o)) as [t|]; [|apply IH].
  intros E. apply rbind_Ok in E as ([r d2] & Er & E). rewrite (Hrec _ _ _ Er). cbn [rbind]. by apply IH.
Qed.
Lemma structure_mono a fuel : forall fuel' t depth x, (fuel <= fuel')%nat ->
  validate_structure fuel a t depth = Ok x -> validate_structure fuel' a t depth = Ok x.
Proof.
  induction fuel as [|fuel IH]; intros [|fuel'] t depth x L; [done|done|lia|].
  rewrite !structure_unfold. intros E. apply rbind_Ok in E as (T & -> & E). cbn [rbind] in *.
  apply rbind_Ok in E as (tf & -> & E). cbn [rbind] in *.
  eapply subs_mono; [|exact E]. intros t' d y. apply IH. lia.
Qed.
Lemma init_decides tabs root :
  built_tables tabs -> hierarchy tabs root -> (forall T o, T ∈ tabs -> o ∈ T -> loud fresh_heap o) ->
  exists f0, forall fuel, (f0 <= fuel)%nat ->
    (structure_ok (make_argus tabs root None) /\
       argus_init fuel tabs root 0 = Ok (Some (make_argus tabs root None), O)) \/
    (~ structure_ok (make_argus tabs root None) /\ argus_init fuel tabs root 0 = Ok (None, O)).
Proof.
  intros B (Hr & Hs & Hc) Lo. set (a := make_argus tabs root None).
  assert (Hsome : forall t, is_Some (map (map decl_of) tabs !! t) -> is_Some (a_tabs a !! t)).
  { intros t [x E]. rewrite list_lookup_fmap in E. cbn. destruct (tabs !! t); [by eexists|done]. }
  destruct (structure_runs a) with (m := length tabs) (path := @nil nat) (t := root) (depth := 0%nat)
    as [[st d'] E]; try done.
  - intros t T o HT Ho. apply elem_of_list_lookup_2 in HT. split; [|by eapply Lo].
    unfold built_tables in B. rewrite Forall_forall in B. specialize (B T HT). rewrite Forall_forall in B.
    by apply built_declared, B.
  - intros t t' X. by apply Hsome, Hs with t.
  - by left.
  - by apply Hsome.
  - apply NoDup_singleton.
  - intros x Hx. by apply elem_of_nil in Hx.
  - cbn. lia.
  - exists (S (length tabs)). intros fuel L. pose proof (structure_depth _ _ _ _ _ _ E) as ->.
    pose proof (structure_mono _ _ _ _ _ _ L E) as E'.
    assert (I : argus_init fuel tabs root 0 = Ok (if st =? SUCCESS then Some a else None, O)).
    { unfold argus_init. fold a. by rewrite E'. }
    rewrite I. change SUCCESS with 0. destruct (Z.eqb_spec st 0) as [->|N]; [left|right].
    + split; [|done]. apply structure_accepts. by exists fuel.
    + split; [|done]. intros X. apply structure_accepts in X as [f2 F2].
      assert (L1 : (fuel <= fuel + f2)%nat) by lia. assert (L2 : (f2 <= fuel + f2)%nat) by lia.
      assert (V1 := structure_mono _ _ _ _ _ _ L1 E').
      assert (V2 := structure_mono _ _ _ _ _ _ L2 F2).
      change (a_root a) with root in V2. rewrite V1 in V2. by injection V2.
Qed.
End libc.
