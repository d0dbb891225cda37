(** * Proofs about the calls of PCRE2 *)
From Coq Require Import Lia.
From Verif Require Import PcreCalls SpecPcre.

Section pcre.
Context `{Pcre}.

(** Every path, spelt out. *)
Lemma new_run x s :
  (exists f, p_fail s = true :: f /\ pnew x s = Ok (None, Pst (p_objects s) f (p_log s))) \/
  (exists f, (forall f', p_fail s <> true :: f') /\
     pnew x s = Ok (Some (length (p_objects s)), Pst (p_objects s ++ [Some x]) f (p_log s)) /\ (p_fail s = [] -> f = [])).
Proof.
  unfold pnew. destruct (p_fail s) as [|[] f]; [right|left|right]; eexists; (split; [|try split]); try done.
Qed.
Lemma compile_run p s :
  (exists f c, pcre2_compile p s = Ok ((None, c), Pst (p_objects s) f (p_log s)) /\
     (p_fail s = [] -> pcre_error p = Some c) /\ (forall e, pcre_error p = Some e -> c = e)) \/
  (exists f c, pcre_error p = None /\
     pcre2_compile p s = Ok ((Some (length (p_objects s)), c), Pst (p_objects s ++ [Some (PCode p)]) f (p_log s)) /\
     (p_fail s = [] -> f = [])).
Proof.
  unfold pcre2_compile. destruct (pcre_error p) as [e|] eqn:E.
  - left. exists (p_fail s), e. split; [by destruct s|]. split; [done|]. intros e' [= <-]. done.
  - unfold pbind. destruct (new_run (PCode p) s) as [(f & Hf & ->)|(f & Hf & -> & Hn)].
    + left. eexists _, _. split; [done|]. split; [intros Hz; by rewrite Hz in Hf|done].
    + right. eexists _, _. split; [done|]. split; done.
Qed.
(** The match: the match data may be lacking. *)
Lemma match_run p v s l : p_objects s = l ++ [Some (PCode p)] ->
  exists md rc f more, pcre2_match_data_create (Some (length l)) s = Ok (md, Pst (p_objects s ++ more) f (p_log s)) /\
    pcre2_match_call (Some (length l)) v md (Pst (p_objects s ++ more) f (p_log s)) = Ok (rc, Pst (p_objects s ++ more) f (p_log s)) /\
    (md = None /\ more = [] \/ md = Some (length (p_objects s)) /\ more = [Some PData]) /\
    (rc = -51 /\ (v = None \/ p_fail s <> []) \/ exists t, v = Some t /\ rc = pcre_match p t).
Proof.
  intros Hs. assert (Hre : p_objects s !! length l = Some (Some (PCode p))) by (rewrite Hs; by apply list_lookup_middle).
  unfold pcre2_match_data_create, pbind, pderef. rewrite Hre.
  destruct (new_run PData s) as [(f & Hf & ->)|(f & Hf & -> & Hn)].
  - exists None, PCRE2_ERROR_NULL, f, []. rewrite app_nil_r. split; [done|]. split.
    + unfold pcre2_match_call. by destruct v.
    + split; [by left|]. left. split; [done|]. right. rewrite Hf. done.
  - destruct v as [t|].
    + exists (Some (length (p_objects s))), (pcre_match p t), f, [Some PData]. split; [done|]. split.
      * unfold pcre2_match_call, pbind, pderef. cbn [p_objects].
        rewrite lookup_app_l by (apply lookup_lt_Some in Hre; done). rewrite Hre.
        cbn [p_objects]. by rewrite list_lookup_middle.
      * split; [by right|]. right. by exists t.
    + exists (Some (length (p_objects s))), PCRE2_ERROR_NULL, f, [Some PData]. split; [done|]. split; [done|].
      split; [by right|]. left. split; [done|by left].
Qed.
(** Releasing what was obtained. *)
Lemma release_run {A} (l : list (option pobject)) p md more f lg (k : PM A) :
  (md = None /\ more = [] \/ md = Some (length (l ++ [Some (PCode p)])) /\ more = [Some PData]) ->
  exists more', Forall (fun x => x = None) more' /\
    pbind (prelease md) (fun _ => pbind (prelease (Some (length l))) (fun _ => k))
      (Pst ((l ++ [Some (PCode p)]) ++ more) f lg) = k (Pst (l ++ more') f lg).
Proof.
  intros [[-> ->]|[-> ->]].
  - exists [None]. split; [by repeat constructor|]. unfold pbind, prelease. cbn [p_objects].
    rewrite app_nil_r. rewrite list_lookup_middle by done. cbn [p_fail p_log].
    rewrite insert_app_r_alt by lia. by rewrite Nat.sub_diag.
  - exists [None; None]. split; [by repeat constructor|]. unfold pbind, prelease. cbn [p_objects p_fail p_log].
    rewrite list_lookup_middle by done. cbn [p_objects p_fail p_log].
    rewrite insert_app_r_alt by lia. rewrite Nat.sub_diag. cbn [insert list_insert].
    rewrite <- app_assoc. cbn [app]. rewrite list_lookup_middle by done. rewrite insert_app_r_alt by lia. by rewrite Nat.sub_diag.
Qed.
Lemma calls_run pattern hint v s :
  exists st more f ev, regex_validator_calls pattern hint v s = Ok (st, Pst (p_objects s ++ more) f (p_log s ++ ev)) /\
    Forall (fun x => x = None) more /\
    (st = 0 /\ ev = [] /\ (exists p t, pattern = Some p /\ v = Some t /\ pcre_error p = None /\ 0 <= pcre_match p t) \/
     st <> 0 /\ (exists m, ev = [EDiag st m]) /\
       (p_fail s = [] -> forall p t, pattern = Some p -> v = Some t -> pcre_error p = None -> pcre_match p t < 0)).
Proof.
  unfold regex_validator_calls. destruct pattern as [p|].
  2: { exists E_INVALID_VALUE, [], (p_fail s). eexists. rewrite app_nil_r. split; [done|]. split; [constructor|].
       right. split; [done|]. split; [by eexists|]. done. }
  unfold pbind at 1. destruct (compile_run p s) as [(f & c & -> & Hc & _)|(f & c & He & -> & Hfn)].
  - exists E_INVALID_FORMAT, [], f. eexists. rewrite app_nil_r. split; [done|]. split; [constructor|].
    right. split; [done|]. split; [by eexists|]. intros Hz p' t [= <-] _ He. rewrite (Hc Hz) in He. done.
  - unfold pbind at 1.
    destruct (match_run p v (Pst (p_objects s ++ [Some (PCode p)]) f (p_log s)) (p_objects s) eq_refl)
      as (md & rc & f' & more & -> & Hm & Hmd & Hrc). cbn [p_objects p_log p_fail] in *.
    unfold pbind at 1. rewrite Hm.
    match goal with |- context [pbind (prelease md) (fun _ => pbind _ (fun _ => ?k))] =>
      destruct (release_run (p_objects s) p md more f' (p_log s) k Hmd) as (more' & Hall & ->) end.
    destruct (rc <? 0) eqn:Hneg; [apply Z.ltb_lt in Hneg|apply Z.ltb_ge in Hneg].
    + assert (Hlast : p_fail s = [] -> forall p0 t, Some p = Some p0 -> v = Some t -> pcre_error p0 = None -> pcre_match p0 t < 0).
      { intros Hz p0 t [= <-] -> _. destruct Hrc as [[-> [?|Hf]]|(t' & [= <-] & ->)]; [done| |done]. by rewrite (Hfn Hz) in Hf. }
      destruct (rc =? PCRE2_ERROR_NOMATCH).
      * exists E_INVALID_VALUE, more', f'. eexists. split; [done|]. split; [done|]. right. split; [done|]. split; [by eexists|done].
      * exists E_INVALID_FORMAT, more', f'. eexists. split; [done|]. split; [done|]. right. split; [done|]. split; [by eexists|done].
    + exists SUCCESS, more', f', []. rewrite app_nil_r. split; [done|]. split; [done|]. left. split; [done|]. split; [done|].
      destruct Hrc as [[-> _]|(t & -> & ->)]; [done|]. by exists p, t.
Qed.

Lemma calls_model (L : Libc) p hint v s st ev : answers L -> p_fail s = [] ->
  regex_validator (Some p) hint v = Ok (st, ev) ->
  exists s', regex_validator_calls (Some p) hint v s = Ok (st, s') /\ p_log s' = p_log s ++ map (spelt_event p v) ev.
Proof.
  intros [Hen Hans] Hz E. unfold regex_validator in E. rewrite Hen in E. cbn [negb] in E.
  unfold regex_validator_calls. unfold pbind at 1.
  destruct (compile_run p s) as [(f & c & -> & Hc & _)|(f & c & He & -> & Hfn)].
  - specialize (Hc Hz). destruct v as [t|].
    + pose proof (Hans p t) as Ha. rewrite Hc in Ha. rewrite Ha in E. injection E as <- <-. eexists. split; [done|].
      cbn. by rewrite Hc.
    + pose proof (Hans p []) as Ha. rewrite Hc in Ha. rewrite Ha in E. injection E as <- <-. eexists. split; [done|].
      cbn. by rewrite Hc.
  - unfold pbind at 1.
    destruct (match_run p v (Pst (p_objects s ++ [Some (PCode p)]) f (p_log s)) (p_objects s) eq_refl)
      as (md & rc & f' & more & -> & Hm & Hmd & Hrc). cbn [p_objects p_log p_fail] in *.
    unfold pbind at 1. rewrite Hm.
    match goal with |- context [pbind (prelease md) (fun _ => pbind _ (fun _ => ?k))] =>
      destruct (release_run (p_objects s) p md more f' (p_log s) k Hmd) as (more' & Hall & ->) end.
    destruct v as [t|].
    + assert (rc = pcre_match p t) as ->.
      { destruct Hrc as [[-> [?|Hf]]|(t' & [= <-] & ->)]; [done| |done]. by rewrite (Hfn Hz) in Hf. }
      pose proof (Hans p t) as Ha. rewrite He in Ha. destruct Ha as (H1 & H2 & H3).
      destruct (pcre_match p t <? 0) eqn:Hneg; [apply Z.ltb_lt in Hneg|apply Z.ltb_ge in Hneg].
      * destruct (pcre_match p t =? PCRE2_ERROR_NOMATCH) eqn:Hnm.
        -- apply Z.eqb_eq in Hnm. rewrite (H2 Hnm) in E. injection E as <- <-. eexists. split; [done|].
           cbn. by destruct hint as [[|? ?]|].
        -- apply Z.eqb_neq in Hnm. rewrite H3 in E by (unfold PCRE2_ERROR_NOMATCH in Hnm; lia). injection E as <- <-.
           eexists. split; [done|]. cbn. by rewrite He.
      * rewrite H1 in E by lia. injection E as <- <-. eexists. split; [done|]. cbn. by rewrite app_nil_r.
    + assert (rc = -51) as -> by (destruct Hrc as [[-> _]|(t' & ? & _)]; done).
      pose proof (Hans p []) as Ha. rewrite He in Ha. destruct Ha as (H1 & H2 & H3).
      assert (Hnb : regex_match p [] <> RxBadPattern).
      { destruct (Z.lt_trichotomy (pcre_match p []) (-1)) as [Hlt|[Heq|Hgt]].
        - by rewrite (H3 Hlt).
        - by rewrite (H2 Heq).
        - by rewrite H1 by lia. }
      destruct (regex_match p []); try done; injection E as <- <-; eexists; (split; [done|]); done.
Qed.
End pcre.
