(** * What a declaration says to the reader, and what it says to the writer

    Vocabulary of C60.  Two declarations of the same types say the same to the
    reader when they differ only in Rust identifiers that some [rename] hides
    and in attributes about writing; they say the same to the writer when they
    differ only in hidden identifiers and in the [Default] value.

    yaserde_derive/src/common/{attribute,field}.rs,
    yaserde_derive/src/de/*.rs, yaserde_derive/src/ser/*.rs. *)
From Verif Require Import Str Num Xml XmlText Reader Schema De Ser.

(** The name of a field, of a variant and of a type in a document. *)
Definition fname (f : field) : string :=
  match ya_rename (f_attrs f) with Some n => n | None => f_label f end.
Definition vname (v : variant) : string :=
  match ya_rename (v_attrs v) with Some n => n | None => v_label v end.
Definition tname (t : typedef) : string :=
  match ya_rename (t_attrs t) with Some n => n | None => t_name t end.

(** ** The reader *)

(** Nothing about [skip_serializing], [skip_serializing_if] or [cdata]. *)
Definition r_field (f g : field) : Prop :=
  fname g = fname f /\ f_ty g = f_ty f /\
  ya_prefix (f_attrs g) = ya_prefix (f_attrs f) /\
  ya_attribute (f_attrs g) = ya_attribute (f_attrs f) /\
  ya_flatten (f_attrs g) = ya_flatten (f_attrs f) /\
  ya_text (f_attrs g) = ya_text (f_attrs f) /\
  ya_default (f_attrs g) = ya_default (f_attrs f).

(** Nothing about the prefix of a variant, [flatten], or the fields of a
    struct-like variant. *)
Definition r_vbody (b c : vbody) : Prop :=
  match b, c with
  | VbUnit, VbUnit | VbNamed _, VbNamed _ => True
  | VbNew _ t, VbNew _ u => u = t
  | _, _ => False
  end.
Definition r_variant (v w : variant) : Prop :=
  vname w = vname v /\ r_vbody (v_body v) (v_body w).

Definition r_body (b c : tbody) : Prop :=
  match b, c with
  | DStruct fs, DStruct gs => Forall2 r_field fs gs
  | DEnum vs d, DEnum ws e => Forall2 r_variant vs ws /\ e = d
  | DPrim k, DPrim l => l = k
  | _, _ => False
  end.

(** Nothing about [default_namespace]. *)
Definition r_type (t u : typedef) : Prop :=
  tname u = tname t /\
  ya_prefix (t_attrs u) = ya_prefix (t_attrs t) /\
  ya_namespaces (t_attrs u) = ya_namespaces (t_attrs t) /\
  ya_flatten (t_attrs u) = ya_flatten (t_attrs t) /\
  ya_tag (t_attrs u) = ya_tag (t_attrs t) /\
  r_body (t_body t) (t_body u).

(** The type of some attribute field: its Rust identifier is used
    (expand_struct.rs:66-93). *)
Definition in_attribute (E : env) (id : nat) : Prop :=
  exists k td fs f,
    nth_error E k = Some td /\ t_body td = DStruct fs /\ In f fs /\
    ya_attribute (f_attrs f) = true /\
    match f_ty f with TBase b | TOpt b | TVec b | TOptVec b => b end = BUser id.

Definition is_prim (t : typedef) : Prop := exists k, t_body t = DPrim k.

(** [E'] says the same as [E] to the reader. *)
Definition read_alike (E E' : env) : Prop :=
  Forall2 r_type E E' /\
  forall id td td', nth_error E id = Some td -> nth_error E' id = Some td' ->
    in_attribute E id \/ is_prim td -> t_name td' = t_name td.

(** The one message with Rust identifiers in it (expand_struct.rs:358-374). *)
Definition missing (m : string) : Prop :=
  exists label type, m = (label +++ " is a required field of " +++ type)%string.

(** The same outcome; of two complaints about a missing field, the
    identifiers may differ. *)
Definition same_reading (o o' : outcome value) : Prop :=
  o' = o \/
  exists m m', o = OErr m /\ o' = OErr m' /\ missing m /\ missing m'.

(** ** The writer *)

Definition w_field (f g : field) : Prop :=
  fname g = fname f /\ f_ty g = f_ty f /\
  ya_prefix (f_attrs g) = ya_prefix (f_attrs f) /\
  ya_attribute (f_attrs g) = ya_attribute (f_attrs f) /\
  ya_flatten (f_attrs g) = ya_flatten (f_attrs f) /\
  ya_text (f_attrs g) = ya_text (f_attrs f) /\
  ya_cdata (f_attrs g) = ya_cdata (f_attrs f) /\
  ya_skip (f_attrs g) = ya_skip (f_attrs f) /\
  ya_skip_if (f_attrs g) = ya_skip_if (f_attrs f) /\
  ya_default (f_attrs g) = ya_default (f_attrs f).

(** The fields of a struct-like variant: name, prefix and type. *)
Definition w_vfield (f g : field) : Prop :=
  fname g = fname f /\ f_ty g = f_ty f /\
  ya_prefix (f_attrs g) = ya_prefix (f_attrs f).
Definition w_vbody (b c : vbody) : Prop :=
  match b, c with
  | VbUnit, VbUnit => True
  | VbNamed fs, VbNamed gs => Forall2 w_vfield fs gs
  | VbNew p t, VbNew q u => q = p /\ u = t
  | _, _ => False
  end.
Definition w_variant (v w : variant) : Prop :=
  vname w = vname v /\
  ya_prefix (v_attrs w) = ya_prefix (v_attrs v) /\
  ya_flatten (v_attrs w) = ya_flatten (v_attrs v) /\
  w_vbody (v_body v) (v_body w).

(** Nothing about the [Default] value of an enum. *)
Definition w_body (b c : tbody) : Prop :=
  match b, c with
  | DStruct fs, DStruct gs => Forall2 w_field fs gs
  | DEnum vs _, DEnum ws _ => Forall2 w_variant vs ws
  | DPrim k, DPrim l => l = k
  | _, _ => False
  end.
Definition w_type (t u : typedef) : Prop :=
  tname u = tname t /\
  ya_prefix (t_attrs u) = ya_prefix (t_attrs t) /\
  ya_default_namespace (t_attrs u) = ya_default_namespace (t_attrs t) /\
  ya_namespaces (t_attrs u) = ya_namespaces (t_attrs t) /\
  ya_flatten (t_attrs u) = ya_flatten (t_attrs t) /\
  ya_tag (t_attrs u) = ya_tag (t_attrs t) /\
  w_body (t_body t) (t_body u) /\
  (is_prim t -> t_name u = t_name t).

(** [E'] says the same as [E] to the writer. *)
Definition write_alike (E E' : env) : Prop := Forall2 w_type E E'.
