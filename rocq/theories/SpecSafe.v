(** * Specification: well-formed declarations, harmless inputs, contents after a parse

    The conditions under which parsing is claimed to be free of undefined behaviour, and what
    array and map options hold after a sequence of texts. *)
From Verif Require Import Api SpecGrammar SpecAfter SpecMemory SpecContents.

(** ** Declarations *)

(** How the value of an option is stored, by its handler. *)
Inductive shape := Plain | Listed (k : ekind) | Mapped (k : ekind).
Definition shape_of (d : decl) : shape :=
  match d_handler d with
  | None => Plain
  | Some f =>
      match array_handler f, map_handler f with
      | Some (_, k), _ => Listed k
      | None, Some k => Mapped k
      | None, None => Plain
      end
  end.
(** A validator that suits the handler. *)
Definition suits (d : decl) (e : ventry) : Prop :=
  match v_order e, v_fun e with
  | ORDER_PRE, (VRegex _ _ | VCustomPre _) => True
  | ORDER_POST, (VRange _ _ | VChoicesInt _) => d_handler d = Some HInt
  | ORDER_POST, (VLength _ _ | VChoicesStr _) => d_handler d = Some HString
  | ORDER_POST, VChoicesFloat _ => d_handler d = Some HFloat
  | ORDER_POST, (VCount _ _ | VCustomPost _) => True
  | _, _ => False
  end.
(** [fits d]: handler, value type, free function and validators of [d] belong together, as the
    macros of options.h combine them, and no list option lets the environment override it. *)
Record fits (d : decl) : Prop := Fits {
  ft_shape :
    match shape_of d with
    | Plain => True
    | Listed k => array_kind (d_vtype d) = Some k /\ N.testbit (d_flags d) 6 = false /\
        match k with
        | EText => d_free d = Some FArrayString \/ d_free d = Some FVariadicString
        | _ => d_free d = Some FDefault \/ d_free d = None
        end
    | Mapped k => map_kind (d_vtype d) = Some k /\ N.testbit (d_flags d) 6 = false /\
        match k with
        | EText => d_free d = Some FMapString
        | _ => d_free d = Some FMapInt \/ d_free d = Some FMapFloat \/ d_free d = Some FMapBool
        end
    end;
  ft_flag : d_vtype d = VT_FLAG -> d_handler d <> Some HInt /\ d_handler d <> Some HFloat /\ d_handler d <> Some HString;
  ft_validators : forall l e, d_validators d = Some l -> e ∈ l -> suits d e;
}.
(** The value of an option with a plain handler has the type of the handler. *)
Definition typed (o : opt) : Prop :=
  match d_handler (decl_of o) with
  | Some HInt => exists x, as_int (value o) = Ok x
  | Some HFloat => exists x, as_float (value o) = Ok x
  | Some HString => is_set o = true -> exists s, value o = PLit s
  | _ => True
  end.
(** An option as the program declares it: nothing allocated, list options empty. *)
Definition pristine (o : opt) : Prop :=
  is_allocated o = false /\
  match shape_of (decl_of o) with
  | Plain => typed o
  | _ => value o = VNull /\ value_count o = 0%nat
  end.
(** A context whose options fit and are pristine, with no memory allocated and none failing to be
    allocated. *)
Record ready (a : argus) : Prop := Ready {
  rd_fits : forall t i o, entry a t i o -> fits (decl_of o);
  rd_pristine : forall t i o, entry a t i o -> pristine o;
  rd_heap : forall l b, blocks (a_heap a) !! l <> Some (Some b);
  rd_oom : oom (a_heap a) = [];
}.

(** ** Inputs *)
Section inputs.
Context `{Libc}.

Definition harmless_text (d : decl) (v : cstr) : Prop :=
  forall f, d_handler d = Some f ->
    (array_handler f <> None -> harmless d f v) /\ (map_handler f <> None -> map_harmless d f v).
(** The texts handed to options, from the command line or from the environment, are harmless. *)
Definition harmless_items (a : argus) (its : list item) : Prop :=
  forall t i v T d, Call t i (Some v) ∈ its -> decls a !! t = Some T -> T !! i = Some d -> harmless_text d v.
Definition harmless_input (a : argus) (argv : list cstr) : Prop :=
  forall its, reads (decls a) (a_root a) 0 false argv its \/ assigned a argv its -> harmless_items a its.

(** ** Contents *)

(** The texts handed to one option, in order. *)
Definition texts (t i : nat) (its : list item) : list cstr :=
  omap (fun x => match x with
                 | Call t' i' (Some v) => if bool_decide (t' = t /\ i' = i) then Some v else None
                 | _ => None
                 end) its.
(** The contents of an array option after a sequence of texts. *)
Inductive array_filled (d : decl) : list cstr -> list elem -> Prop :=
  | af_none : array_filled d [] []
  | af_text f b k vs v c es c' :
      array_filled d vs c -> d_handler d = Some f -> array_handler f = Some (b, k) ->
      yields f v es -> flagged k (d_flags d) (c ++ es) c' -> array_filled d (vs ++ [v]) c'.
(** The contents of a map option after a sequence of texts, of which [n] pairs had a key that was
    there already. *)
Inductive map_filled (d : decl) : list cstr -> list (cstr * elem) -> nat -> Prop :=
  | mf_none : map_filled d [] [] 0
  | mf_text f k vs v c m c1 n c' :
      map_filled d vs c m -> d_handler d = Some f -> map_handler f = Some k ->
      map_yields f v c c1 n -> map_flagged k (d_flags d) c1 c' -> map_filled d (vs ++ [v]) c' (m + n).
End inputs.
