(** * Vocabulary for C51: what in a document can make reading it fail. *)
From Verif Require Import Str Num Xml XmlText Reader Schema SpecTree SpecStruct.
Open Scope list_scope.

Definition is_list (t : fty) : bool := match t with TVec _ => true | _ => false end.

(** [t] is what an attribute with this value gives to a field of type [ft]:
    all of it, or one of the words for a list. *)
Definition part_of (ft : fty) (value t : string) : Prop :=
  if is_list ft then In t (split_ws value) else t = value.

(** The namespace [u] is the one bound to the prefix [p]. *)
Definition bound_to (nss : nsmap) (p : option string) (u : string) : Prop :=
  exists q, p = Some q /\ ns_get nss q = Some u.

(** The start tag has an attribute for the attribute field [f] with this value. *)
Definition gives (attrs : list attr) (f : field) (t : string) : Prop :=
  exists a, In a attrs /\ n_local (at_name a) = field_name f /\ part_of (f_ty f) (at_value a) t.

(** Events copied for flattened fields. *)
Definition copied (s : stream) (l : list wevent) : Prop :=
  forall w, In w l -> exists e, In e (s_evs s) /\ as_writer_event e = Some w.

(** [m] is what type [id] reports on the source [s]. *)
Inductive Cause (x : ext) (E : env) : nat -> stream -> string -> Prop :=
(** The parser stopped. *)
| ca_malformed : forall id s m, s_fin s = FErr m -> Cause x E id s m
(** An element in a namespace the type (or the field) is not in. *)
| ca_namespace : forall id s td n a nm u p, nth_error E id = Some td -> In (EStart n a nm) (s_evs s) -> n_ns n = Some u ->
    (p = ya_prefix (t_attrs td) \/ exists fs f, t_body td = DStruct fs /\ In f fs /\ p = ya_prefix (f_attrs f)) ->
    ~ bound_to (ya_namespaces (t_attrs td)) p u ->
    Cause x E id s ("bad namespace for " +++ n_local n +++ ", found " +++ u)
(** A field that is neither optional nor a list nor has a default. *)
| ca_required : forall id s td fs f, struct_type E id td fs -> In f fs -> missing_value x f = None ->
    Cause x E id s (f_label f +++ " is a required field of " +++ t_name td)
(** A value of an attribute that is none of the attribute's type. *)
| ca_attribute : forall id s td fs f n a nm t sm m, struct_type E id td fs -> In f fs -> ya_attribute (f_attrs f) = true ->
    base_of (f_ty f) = BSimple sm -> In (EStart n a nm) (s_evs s) -> gives a f t -> visit_simple x sm t = Er m ->
    Cause x E id s m
(** The same when the attribute's type is defined by the user: the value is
    wrapped into an element and read. *)
| ca_wrapped : forall id s td fs f n a nm t id' td' m, struct_type E id td fs -> In f fs -> ya_attribute (f_attrs f) = true ->
    base_of (f_ty f) = BUser id' -> nth_error E id' = Some td' -> In (EStart n a nm) (s_evs s) -> gives a f t ->
    Cause x E id' (parse_text ("<" +++ t_name td' +++ ">" +++ t +++ "</" +++ t_name td' +++ ">")) m ->
    Cause x E id s m
(** The type of an element field. *)
| ca_field : forall id s td fs f id' m, struct_type E id td fs -> In f fs -> elem_field f -> base_of (f_ty f) = BUser id' ->
    Cause x E id' s m -> Cause x E id s m
(** The type of a flattened field that is not optional: it reads a copy of some events. *)
| ca_flattened : forall id s td fs f id' l m, struct_type E id td fs -> In f fs -> flat_field f = true ->
    f_ty f = TBase (BUser id') -> copied s l -> Cause x E id' (parse_text (emit_text (EConf true None) l)) m ->
    Cause x E id s m
(** Enums: no tag attribute, a payload, unlike variants in a sequence, no end. *)
| ca_tag : forall id s td vs d t n a nm, nth_error E id = Some td -> t_body td = DEnum vs d -> ya_tag (t_attrs td) = Some t ->
    In (EStart n a nm) (s_evs s) -> (forall b, In b a -> n_local (at_name b) <> t) ->
    Cause x E id s ("Expected enum tagged with " +++ t)
| ca_payload : forall id s td vs d l va fl t id' m, nth_error E id = Some td -> t_body td = DEnum vs d ->
    In (Variant l va (VbNew fl t)) vs -> base_of t = BUser id' -> Cause x E id' s m -> Cause x E id s m
| ca_mixed : forall id s td vs d l va fl b, nth_error E id = Some td -> t_body td = DEnum vs d ->
    In (Variant l va (VbNew fl (TVec b))) vs -> Cause x E id s "Got sequence of different types"
| ca_end : forall id s td vs d, nth_error E id = Some td -> t_body td = DEnum vs d -> ya_flatten (t_attrs td) = false ->
    s_fin s = FEnd -> Cause x E id s "End of document, missing some content ?"
(** Newtypes: a text that is none of the type, or no element. *)
| ca_newtype : forall id s td k t m, nth_error E id = Some td -> t_body td = DPrim k -> t = "" \/ In (EChars t) (s_evs s) ->
    parse_prim x (t_name td) k t = Er m -> Cause x E id s m
| ca_element : forall id s td k, nth_error E id = Some td -> t_body td = DPrim k -> Cause x E id s "Start element not found".

(** [m] is how type [id] panics on the source [s]: a payload of simple type
    with a text that does not parse, in the type itself or in one it uses. *)
Inductive Panics (x : ext) (E : env) : nat -> stream -> string -> Prop :=
| pa_payload : forall id s td vs d l va fl t sm u m, nth_error E id = Some td -> t_body td = DEnum vs d ->
    In (Variant l va (VbNew fl t)) vs -> base_of t = BSimple sm -> u = "" \/ In (EChars u) (s_evs s) ->
    parse_simple x sm u = Er m -> Panics x E id s ("called `Result::unwrap()` on an `Err` value: " +++ m)
| pa_wrapped : forall id s td fs f n a nm t id' td' m, struct_type E id td fs -> In f fs -> ya_attribute (f_attrs f) = true ->
    base_of (f_ty f) = BUser id' -> nth_error E id' = Some td' -> In (EStart n a nm) (s_evs s) -> gives a f t ->
    Panics x E id' (parse_text ("<" +++ t_name td' +++ ">" +++ t +++ "</" +++ t_name td' +++ ">")) m ->
    Panics x E id s m
| pa_field : forall id s td fs f id' m, struct_type E id td fs -> In f fs -> elem_field f -> base_of (f_ty f) = BUser id' ->
    Panics x E id' s m -> Panics x E id s m
| pa_flattened : forall id s td fs f id' l m, struct_type E id td fs -> In f fs -> flat_field f = true ->
    base_of (f_ty f) = BUser id' -> copied s l -> Panics x E id' (parse_text (emit_text (EConf true None) l)) m ->
    Panics x E id s m
| pa_nested : forall id s td vs d l va fl t id' m, nth_error E id = Some td -> t_body td = DEnum vs d ->
    In (Variant l va (VbNew fl t)) vs -> base_of t = BUser id' -> Panics x E id' s m -> Panics x E id s m.

(** Structs all of whose fields may be missing, whose attributes are strings
    (or optional, or lists of them) and whose flattened fields are optional. *)
Definition lenient_field (x : ext) (f : field) : Prop :=
  missing_value x f <> None /\
  (ya_attribute (f_attrs f) = true -> base_of (f_ty f) = BSimple SString) /\
  (flat_field f = true -> forall b, f_ty f <> TBase b).
Definition lenient (x : ext) (E : env) : Prop :=
  forall id td, nth_error E id = Some td -> exists fs, t_body td = DStruct fs /\ forall f, In f fs -> lenient_field x f.
