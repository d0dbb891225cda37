(** * Tables built with the macros: proofs *)
From Coq Require Import Lia.
From Verif Require Import Macros LibProofs FrameProofs SpecGrammar SpecAfter SpecStructure SpecMemory SpecContents SpecSafe SpecCollections
  SpecMacros GrammarProofs.

(** What a macro sets up and proper modifiers keep. *)
Record kept (vt : N) (f : option handler) (fr : option free_handler_t) (o : opt) : Prop := Kept {
  kp_vtype : d_vtype (decl_of o) = vt;
  kp_handler : d_handler (decl_of o) = f;
  kp_free : d_free (decl_of o) = fr;
  kp_validators : forall l e, d_validators (decl_of o) = Some l -> e ∈ l -> suits (decl_of o) e;
  kp_alloc : is_allocated o = false;
  kp_list : shape_of (decl_of o) <> Plain -> value o = VNull /\ value_count o = 0%nat /\ N.testbit (d_flags (decl_of o)) 6 = false;
  kp_typed : typed o;
}.
Lemma suits_same d d' e : d_vtype d = d_vtype d' -> d_handler d = d_handler d' -> suits d e -> suits d' e.
Proof. intros E1 E2. unfold suits. rewrite E2. done. Qed.
Lemma shape_same d d' : d_handler d = d_handler d' -> shape_of d = shape_of d'.
Proof. intros E2. unfold shape_of. by rewrite E2. Qed.
Lemma typed_default o v f : d_handler (decl_of o) = f -> value o = default_raw v ->
  match f with
  | Some HInt => exists z, v = DInt z | Some HFloat => exists b, v = DFloat b | Some HString => exists s, v = DString s
  | _ => True end -> typed o.
Proof.
  intros Ef Ev Hv. unfold typed. rewrite Ef, Ev. destruct f as [[]|]; try done.
  - destruct Hv as [s ->]. by exists s.
  - destruct Hv as [z ->]. by eexists.
  - destruct Hv as [z ->]. by eexists.
Qed.
Lemma proper_keeps vt f fr m o : proper vt f m -> kept vt f fr o -> kept vt f fr (apply_modifier o m).
Proof.
  intros Hm [E1 E2 E3 E4 E5 E6 E7].
  set (o0 := with_mods (blank TOption None NUL None vt None 0 None) (match f with Some f => [HANDLER f] | None => [] end)).
  assert (V0 : d_vtype (decl_of o0) = vt) by (by destruct f).
  assert (H0 : d_handler (decl_of o0) = f) by (by destruct f).
  assert (Hs : forall d, d_handler d = f -> shape_of d = shape_of (decl_of o0)) by (intros d Hd; apply shape_same; congruence).
  destruct m; cbn in Hm |- *; try done.
  - destruct Hm as [Hp Hv]. fold o0 in Hp. constructor; cbn; try done.
    + intros Hn. exfalso. apply Hn. rewrite <- Hp. by apply Hs.
    + eapply (typed_default _ d f); [done|done|done].
  - constructor; cbn; try done. intros Hn. change (shape_of (decl_of o) <> Plain) in Hn.
    destruct (E6 Hn) as (? & ? & _). split_and!; [done|done|].
    apply Hm. fold o0. rewrite <- (Hs (decl_of o)) by done. done.
  - constructor; cbn; try done. intros l' e [= <-] He. eapply suits_same; [| |apply (Hm e He)]; fold o0; [by rewrite V0|by rewrite H0].
Qed.
Lemma propers_keep vt f fr m : propers vt f m -> forall o, kept vt f fr o -> kept vt f fr (with_mods o m).
Proof.
  unfold with_mods. induction 1 as [|x m Hx _ IH]; intros o Ho; [done|]. cbn [fold_left]. apply IH. by apply proper_keeps.
Qed.
Lemma kept_fits vt f fr o : kept vt f fr o ->
  match shape_of (decl_of o) with
  | Plain => True
  | Listed k => array_kind vt = Some k /\
      match k with EText => fr = Some FArrayString \/ fr = Some FVariadicString | _ => fr = Some FDefault \/ fr = None end
  | Mapped k => map_kind vt = Some k /\
      match k with EText => fr = Some FMapString | _ => fr = Some FMapInt \/ fr = Some FMapFloat \/ fr = Some FMapBool end
  end ->
  (vt = VT_FLAG -> f <> Some HInt /\ f <> Some HFloat /\ f <> Some HString) ->
  (shape_of (decl_of o) = Plain -> has vt (N.lor VT_ARRAY VT_VARIADIC) = false /\ has vt VT_MAP = false) ->
  fits (decl_of o) /\ pristine o /\ single_typed (decl_of o).
Proof.
  intros [E1 E2 E3 E4 E5 E6 E7] Hk Hflag Hsingle. split_and!.
  - constructor.
    + rewrite E1, E3. destruct (shape_of (decl_of o)) eqn:Es; [done|..]; destruct Hk as [Hk1 Hk2]; (split; [done|]);
        (split; [by apply E6|done]).
    + rewrite E1, E2. done.
    + done.
  - split; [done|]. destruct (shape_of (decl_of o)) eqn:Es; [done|..]; destruct (E6 ltac:(done)) as (? & ? & ?); done.
  - unfold single_typed. rewrite E1. done.
Qed.
Lemma built_fits o : built o -> fits (decl_of o) /\ pristine o /\ single_typed (decl_of o).
Proof.
  assert (Hb : forall vt f fr o0 m, propers vt f m -> kept vt f fr o0 ->
    match shape_of (decl_of o0) with
    | Plain => True
    | Listed k => array_kind vt = Some k /\
        match k with EText => fr = Some FArrayString \/ fr = Some FVariadicString | _ => fr = Some FDefault \/ fr = None end
    | Mapped k => map_kind vt = Some k /\
        match k with EText => fr = Some FMapString | _ => fr = Some FMapInt \/ fr = Some FMapFloat \/ fr = Some FMapBool end
    end ->
    (vt = VT_FLAG -> f <> Some HInt /\ f <> Some HFloat /\ f <> Some HString) ->
    (shape_of (decl_of o0) = Plain -> has vt (N.lor VT_ARRAY VT_VARIADIC) = false /\ has vt VT_MAP = false) ->
    fits (decl_of (with_mods o0 m)) /\ pristine (with_mods o0 m) /\ single_typed (decl_of (with_mods o0 m))).
  { intros vt f fr o0 m Hm Hk H1 H2 H3. pose proof (propers_keep vt f fr m Hm o0 Hk) as Hk'.
    assert (shape_of (decl_of (with_mods o0 m)) = shape_of (decl_of o0)) as Es.
    { apply shape_same. by rewrite (kp_handler _ _ _ _ Hk), (kp_handler _ _ _ _ Hk'). }
    apply (kept_fits vt f fr); rewrite ?Es; done. }
  assert (K : forall vt f fr ty n s l fl sub, N.testbit fl 6 = false -> 
    kept vt (Some f) (Some fr) (with_mods (blank ty n s l vt (Some fr) fl sub) [HANDLER f])).
  { intros. constructor; cbn; try done. unfold typed. cbn. destruct f; try done; by eexists. }
  assert (K1 : forall vt f fr fr0 ty n s l fl sub, N.testbit fl 6 = false -> 
    kept vt (Some f) (Some fr) (with_mods (blank ty n s l vt (Some fr0) fl sub) [HANDLER f; FREE_HANDLER fr])).
  { intros. constructor; cbn; try done. unfold typed. cbn. destruct f; try done; by eexists. }
  assert (K2 : forall ty n s l sub, kept VT_NONE None None (blank ty n s l VT_NONE None 0 sub)).
  { intros. by constructor. }
  intros Ho; destruct Ho as [s l m Hm|s l m Hm|s l m Hm|s l m Hm|s l m Hm|s l m Hm|s l m Hm|s l m Hm|s l m Hm|s l m Hm|s l m Hm|s l m Hm| | |
    n m Hm| |n sub m Hm|n m Hm|n m Hm|n m Hm|n m Hm|n m Hm|n m Hm|n m Hm].
  all: try (eapply (Hb _ _ _ (with_mods (blank _ _ _ _ _ _ _ _) [HANDLER _])); [exact Hm|by apply K|..];
    vm_compute; repeat split; auto; intros; try discriminate; fail).
  all: try (eapply (Hb _ _ _ (with_mods (blank _ _ _ _ _ _ _ _) [HANDLER _; FREE_HANDLER _])); [exact Hm|by apply K1|..];
    vm_compute; repeat split; auto; intros; try discriminate; fail).
  all: try (eapply (Hb _ _ _ (blank _ _ _ _ _ _ _ _)); [exact Hm|by apply K2|..];
    vm_compute; repeat split; auto; intros; try discriminate; fail).
  - split_and!; [constructor; cbn; try done; intros _; by split_and!|by vm_compute|]. by vm_compute.
  - split_and!; [constructor; cbn; try done; intros _; by split_and!|by vm_compute|]. by vm_compute.
  - split_and!; [constructor; cbn; try done|by vm_compute|]. by vm_compute.
Qed.
Lemma entry_In a t i o : entry a t i o -> exists T, a_tabs a !! t = Some T /\ o ∈ T.
Proof.
  intros (T & HT & Hi). exists T. split; [done|]. by eapply elem_of_list_lookup_2.
Qed.
(** A context over such tables is ready to parse. *)
Lemma built_ready tabs root pre : built_tables tabs -> ready (make_argus tabs root pre).
Proof.
  intros Hb. assert (Hall : forall t i o, entry (make_argus tabs root pre) t i o -> built o).
  { intros t i o (T & HT & Ho)%entry_In. cbn in HT. unfold built_tables in Hb. rewrite Forall_forall in Hb.
    specialize (Hb T ltac:(by eapply elem_of_list_lookup_2)). rewrite Forall_forall in Hb. by apply Hb. }
  constructor.
  - intros t i o Ho. by apply built_fits, (Hall t i).
  - intros t i o Ho. by apply built_fits, (Hall t i).
  - intros l b. cbn. by rewrite lookup_nil.
  - done.
Qed.
Lemma built_single tabs root pre t i o : built_tables tabs -> entry (make_argus tabs root pre) t i o -> single_typed (decl_of o).
Proof.
  intros Hb (T & HT & Ho)%entry_In. cbn in HT. unfold built_tables in Hb. rewrite Forall_forall in Hb.
  specialize (Hb T ltac:(by eapply elem_of_list_lookup_2)). rewrite Forall_forall in Hb. by apply built_fits, Hb.
Qed.
