(** * Specification: a description with fewer rules *)
From Verif Require Export Api SpecGrammar SpecAfter.

(** Entry [e] is declared like [d], with the same names, kind, type, default value, variable, callbacks and
    subcommands, but it may ask for less: its validators, its requirements and its conflicts are among those of [d], in any
    order, and it is required (bit 0) or exclusive (bit 14) only if [d] is.  Its help text, its hint and the flags
    hidden, advanced, deprecated and experimental (bits 1-4) may be any. *)
Record eased (d e : decl) : Prop := Eased {
  ea_type : d_type e = d_type d;
  ea_name : d_name e = d_name d;
  ea_sname : d_sname e = d_sname d;
  ea_lname : d_lname e = d_lname d;
  ea_vtype : d_vtype e = d_vtype d;
  ea_default : d_default e = d_default d;
  ea_have_default : d_have_default e = d_have_default d;
  ea_env_name : d_env_name e = d_env_name d;
  ea_handler : d_handler e = d_handler d;
  ea_free : d_free e = d_free d;
  ea_action : d_action e = d_action d;
  ea_sub : d_sub e = d_sub d;
  ea_flags : forall b, (5 <= b <= 13)%N -> N.testbit (d_flags e) b = N.testbit (d_flags d) b;
  ea_required : N.testbit (d_flags e) 0 = true -> N.testbit (d_flags d) 0 = true;
  ea_exclusive : N.testbit (d_flags e) 14 = true -> N.testbit (d_flags d) 14 = true;
  ea_validators : forall x, x ∈ default [] (d_validators e) -> x ∈ default [] (d_validators d);
  ea_requires : forall n, n ∈ default [] (d_require e) -> n ∈ default [] (d_require d);
  ea_conflicts : forall n, n ∈ default [] (d_conflict e) -> n ∈ default [] (d_conflict d);
}.

(** The same entry with another declaration. *)
Definition relabel (e : decl) (o : opt) : opt :=
  Opt e (value o) (is_allocated o) (value_count o) (value_capacity o) (is_set o).
Definition eased_opt (o p : opt) : Prop := exists e, eased (decl_of o) e /\ p = relabel e o.
(** The same context with eased declarations. *)
Record eases (a b : argus) : Prop := Eases {
  es_tabs : Forall2 (Forall2 eased_opt) (a_tabs a) (a_tabs b);
  es_root : a_root b = a_root a;
  es_stack : a_stack b = a_stack a;
  es_err : a_err b = a_err a;
  es_heap : a_heap b = a_heap a;
  es_log : a_log b = a_log a;
  es_prefix : a_prefix b = a_prefix a;
}.

(** What the structure check needs besides: help texts are still there, no flag is new, positionals stay required, and
    no list is given where there was none. *)
Record tidy (d e : decl) : Prop := Tidy {
  ti_help : is_Some (d_help d) -> is_Some (d_help e);
  ti_flags : forall b, N.testbit (d_flags e) b = true -> N.testbit (d_flags d) b = true;
  ti_required : d_type d = TPositional -> N.testbit (d_flags d) 0 = true -> N.testbit (d_flags e) 0 = true;
  ti_require : d_require d = None -> d_require e = None;
  ti_conflict : d_conflict d = None -> d_conflict e = None;
  ti_validators : d_validators d = None -> d_validators e = None;
}.
Definition tidies (a b : argus) : Prop := Forall2 (Forall2 tidy) (decls a) (decls b).
