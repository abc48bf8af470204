(** * Vocabulary for [to_string_content] and the document declaration (C49, C50). *)
From Verif Require Import Str Num Xml XmlText Reader Schema Ser SpecTree SpecText SpecSer.
Open Scope list_scope.

Definition no_gt (s : string) : bool := all_chars (fun c => negb (Ascii.eqb c ">")) s.

(** The element [q] written as [t] has the content [c]: [c] is what is left of
    [t] without its start and end tag.  The start tag ends at the first '>'. *)
Definition between (q c t : string) : Prop :=
  exists a, no_gt a = true /\
    (t = "<" +++ q +++ a +++ ">" +++ c +++ "</" +++ q +++ ">" \/
     (c = "" /\ t = "<" +++ q +++ a +++ " />")).

(** Name of the element a value is written as when nothing else is asked for. *)
Definition root_name (td : typedef) : string :=
  match t_body td with DPrim _ => t_name td | _ => ser_root td end.

(** Names of attributes are free of '>'. *)
Definition plain_attributes (E : env) : Prop :=
  forall td, In td E ->
    (forall t, ya_tag (t_attrs td) = Some t -> no_gt t = true) /\
    (forall fs f, t_body td = DStruct fs -> In f fs -> ya_attribute (f_attrs f) = true ->
       no_gt (field_qname (t_attrs td) f) = true).

(** The start tag of the type declares no namespaces: neither the type nor the
    types flattened into it have any. *)
Inductive Undeclared (E : env) : nat -> Prop :=
| un_prim : forall id td k, nth_error E id = Some td -> t_body td = DPrim k -> Undeclared E id
| un_enum : forall id td vs d, nth_error E id = Some td -> t_body td = DEnum vs d ->
    ya_namespaces (t_attrs td) = [] -> Undeclared E id
| un_struct : forall id td fs, nth_error E id = Some td -> t_body td = DStruct fs ->
    ya_namespaces (t_attrs td) = [] ->
    (forall f id', In f fs -> ya_attribute (f_attrs f) = false -> ya_flatten (f_attrs f) = true ->
       f_ty f = TBase (BUser id') -> Undeclared E id') ->
    Undeclared E id.

(** Not a variant with a flattened payload. *)
Definition own_content (td : typedef) (v : value) : Prop :=
  forall vs d i l vr fl id, t_body td = DEnum vs d -> v = VVar i l -> nth_error vs i = Some vr ->
    v_body vr = VbNew fl (TBase (BUser id)) -> (ya_flatten (v_attrs vr) || fl)%bool = false.
