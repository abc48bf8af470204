(** * Vocabulary for C48: types whose values, once read, can be written and read
      again.

    Everything is said about type definitions and about the functions supplied
    by the user; nothing mentions the reader or the writer. *)
From Verif Require Import Str Num Xml XmlText Reader Schema SpecTree SpecText SpecNum SpecTyped SpecStruct SpecSer SpecValue
  SpecRound SpecOut.
Open Scope list_scope.

(** No tab in any string of the value (tabs in attributes become spaces). *)
Definition tab_free (v : value) : Prop :=
  forall t, InValue t v -> all_chars (fun c => negb (Ascii.eqb c "009")) t = true.

(** What was parsed as a float or a user's type is shown as a text that is
    parsed as the same value. *)
Definition shows_back (x : ext) : Prop :=
  (forall d t z, x_fparse x d t = Ok z -> float_survives x attr_text d z) /\
  (forall tn t z, x_uparse x tn t = Ok z ->
     attr_text (x_ushow x tn z) /\ x_uparse x tn (x_ushow x tn z) = Ok z).

Section Durable.
  Variable x : ext.
  Variable E : env.

  (** Payloads of variants lose attributes and namespaces. *)
  Definition payload_type (b : base) : Prop :=
    forall id td, b = BUser id -> nth_error E id = Some td ->
    match t_body td with
    | DStruct fs => ya_namespaces (t_attrs td) = [] /\ forall f, In f fs -> ya_attribute (f_attrs f) = false
    | DEnum _ _ => ya_namespaces (t_attrs td) = [] /\ ya_tag (t_attrs td) = None
    | DPrim _ => True
    end.

  (** Types of attributes: simple types, unit enums and newtypes. *)
  Definition attr_type (b : base) : Prop :=
    forall id td, b = BUser id -> nth_error E id = Some td ->
    identifier (t_name td) /\
    match t_body td with
    | DStruct _ => False
    | DEnum vs _ => ya_tag (t_attrs td) = None /\
        forall v, In v vs -> v_body v = VbUnit /\ bare_variant (t_attrs td) v /\ attr_text (variant_name v) /\
                             variant_name v <> t_name td
    | DPrim _ => True
    end.

  (** Fields are always written and no lists stand in attributes; a default
      is given for a plain element or attribute only, and is recognised by
      [==]. *)
  Definition durable_field (f : field) : Prop :=
    ya_skip (f_attrs f) = false /\ ya_skip_if (f_attrs f) = None /\ ya_cdata (f_attrs f) = false /\
    (forall b, f_ty f <> TOptVec b) /\
    (forall g, ya_default (f_attrs f) = Some g -> ya_text (f_attrs f) = false /\ (exists b, f_ty f = TBase b) /\
       forall v, Equal x v (x_default x g) <-> v = x_default x g) /\
    (ya_attribute (f_attrs f) = true -> (forall b, f_ty f <> TVec b) /\ attr_type (base_of (f_ty f)) /\ ya_text (f_attrs f) = false) /\
    (ya_text (f_attrs f) = true -> f_ty f = TBase (BSimple SString) \/ f_ty f = TOpt (BSimple SString)).

  Definition durable_variant (ra : yattr) (v : variant) : Prop :=
    match v_body v, ya_tag ra with
    | VbUnit, None => bare_variant ra v /\ clean (variant_name v)
    | VbUnit, Some _ => legal_attr (variant_name v) = true
    | VbNew fl t, None => fl = false /\ ya_flatten (v_attrs v) = false /\ (forall b, t <> TOptVec b) /\ payload_type (base_of t)
    | VbNew _ _, Some _ => False
    | VbNamed _, _ => True
    end.

  (** Bit flags are excluded (C33); the default of an enum survives itself. *)
  Definition durable : Prop :=
    forall id td, nth_error E id = Some td ->
    match t_body td with
    | DStruct fs => forall f, In f fs -> durable_field f
    | DEnum vs d => (forall v, In v vs -> durable_variant (t_attrs td) v) /\
        Survives x E false id d /\ (payload_type (BUser id) -> Survives x E true id d)
    | DPrim k => forall t m, k <> PHex t m
    end.
End Durable.
