(** * Vocabulary for the properties of written documents (C35, C37).

    Types whose serializers write well-formed documents, and the texts in
    them. *)
From Verif Require Import Str Num Xml XmlText Reader Schema SpecTree SpecText SpecTyped SpecStruct SpecSer SpecValue SpecRound.
Open Scope list_scope.

(** A name with a prefix bound by the type. *)
Definition wellnamed (ra : yattr) (p : option string) (l : string) : Prop :=
  identifier l /\
  match p with Some q => identifier q /\ ns_get (ya_namespaces ra) q <> None | None => True end.

(** The payload of an enum is written without the attributes and namespaces of
    its own type. *)
Definition bare_payload (E : env) (b : base) : Prop :=
  forall id td, b = BUser id -> nth_error E id = Some td -> ya_namespaces (t_attrs td) = [].

Definition wellformed_type (E : env) (td : typedef) : Prop :=
  let ra := t_attrs td in
  match t_body td with
  | DPrim _ => identifier (t_name td)
  | DStruct fs =>
      wellnamed ra (ya_prefix ra) (root_name td) /\ ya_flatten ra = false /\
      (forall f, In f fs -> wellnamed ra (ya_prefix (f_attrs f)) (field_name f) /\ ya_flatten (f_attrs f) = false /\
         (ya_attribute (f_attrs f) = true -> field_name f <> "xmlns")) /\
      (forall i j f g, nth_error fs i = Some f -> nth_error fs j = Some g ->
         ya_attribute (f_attrs f) = true -> ya_attribute (f_attrs g) = true -> field_name f = field_name g -> i = j)
  | DEnum vs _ =>
      wellnamed ra (ya_prefix ra) (root_name td) /\ ya_flatten ra = false /\
      (forall tg, ya_tag ra = Some tg -> identifier tg /\ tg <> "xmlns") /\
      (forall v, In v vs ->
         match v_body v with
         | VbUnit => True
         | VbNew fl t => wellnamed ra (ya_prefix (v_attrs v)) (variant_name v) /\
             fl = false /\ ya_flatten (v_attrs v) = false /\ bare_payload E (base_of t)
         | VbNamed fs => forall f, In f fs -> wellnamed ra (ya_prefix (f_attrs f)) (field_name f)
         end)
  end.

(** No [flatten], proper names and namespaces. *)
Definition wellformed (E : env) : Prop :=
  (forall pu, In pu (bindings E) -> good_decl pu) /\
  forall id td, nth_error E id = Some td -> wellformed_type E td.

(** ** Types with flattened parts (C56)

    The types whose content stands in the element of a value of type [id], with
    their attributes and namespaces in its start tag: the type itself, and the
    structs and enums of its flattened fields. *)
Inductive part_of (E : env) : nat -> typedef -> Prop :=
| part_self : forall id td, nth_error E id = Some td -> (forall k, t_body td <> DPrim k) -> part_of E id td
| part_flat : forall id td fs f id' td', nth_error E id = Some td -> t_body td = DStruct fs -> In f fs ->
    flat_field f = true -> f_ty f = TBase (BUser id') -> part_of E id' td' -> part_of E id td'.

(** Local names of the attributes in the start tag of a value of type [id]. *)
Inductive tag_name (E : env) : nat -> string -> Prop :=
| tn_attr : forall id td fs f, nth_error E id = Some td -> t_body td = DStruct fs -> In f fs ->
    ya_attribute (f_attrs f) = true -> tag_name E id (field_name f)
| tn_tag : forall id td vs d tg, nth_error E id = Some td -> t_body td = DEnum vs d ->
    ya_tag (t_attrs td) = Some tg -> tag_name E id tg
| tn_flat : forall id td fs f id' n, nth_error E id = Some td -> t_body td = DStruct fs -> In f fs ->
    flat_field f = true -> f_ty f = TBase (BUser id') -> tag_name E id' n -> tag_name E id n.

(** Those that one field may put there. *)
Definition gives (E : env) (f : field) (n : string) : Prop :=
  (ya_attribute (f_attrs f) = true /\ n = field_name f) \/
  (flat_field f = true /\ exists id, f_ty f = TBase (BUser id) /\ tag_name E id n).

(** Values written without their start tag need no namespaces: flattened
    optional and repeated fields, payloads of enums, types with [flatten]. *)
Definition bare (E : env) (b : base) : Prop :=
  forall id td, b = BUser id -> part_of E id td -> ya_namespaces (t_attrs td) = [].

Definition writable_type (E : env) (id : nat) (td : typedef) : Prop :=
  let ra := t_attrs td in
  match t_body td with
  | DPrim _ => identifier (t_name td)
  | DStruct fs =>
      wellnamed ra (ya_prefix ra) (root_name td) /\ (ya_flatten ra = true -> bare E (BUser id)) /\
      (forall f, In f fs -> wellnamed ra (ya_prefix (f_attrs f)) (field_name f) /\
         (ya_attribute (f_attrs f) = true -> field_name f <> "xmlns") /\
         (flat_field f = true -> match f_ty f with TBase _ => True | t => bare E (base_of t) end)) /\
      (forall i j f g n, nth_error fs i = Some f -> nth_error fs j = Some g -> gives E f n -> gives E g n -> i = j)
  | DEnum vs _ =>
      wellnamed ra (ya_prefix ra) (root_name td) /\ (ya_flatten ra = true -> bare E (BUser id)) /\
      (forall tg, ya_tag ra = Some tg -> identifier tg /\ tg <> "xmlns") /\
      (forall v, In v vs ->
         match v_body v with
         | VbUnit => True
         | VbNew fl t => wellnamed ra (ya_prefix (v_attrs v)) (variant_name v) /\ bare E (base_of t)
         | VbNamed fs => forall f, In f fs -> wellnamed ra (ya_prefix (f_attrs f)) (field_name f)
         end)
  end.

(** The types of [E] write well-formed elements. *)
Definition writable_types (E : env) : Prop :=
  (forall pu, In pu (bindings E) -> good_decl pu) /\
  forall id td, nth_error E id = Some td -> writable_type E id td.

(** A value of this type is one element. *)
Definition own_element (E : env) (id : nat) : Prop :=
  forall td, nth_error E id = Some td -> ya_flatten (t_attrs td) = true -> exists k, t_body td = DPrim k.

(** No control characters in texts and attribute values; no "]]>" in CDATA
    sections. *)
Definition legal_event (e : wevent) : Prop :=
  match e with
  | WChars s => legal s = true
  | WCData s => legal s = true /\ contains "]]>" s = false
  | WStart n a m => forall t, In t a -> legal (at_value t) = true
  | _ => True
  end.

(** ** Names that cannot be taken for other markup (C37)

    The emitter writes names as they are; a name with a '<' in it, or one that
    turns "<name" into "<!...", can open a CDATA section. *)
Definition no_open (s : string) : Prop := all_chars (fun c => negb (Ascii.eqb c "<")) s = true.
Definition quiet (s : string) : Prop :=
  no_open s /\ match s with EmptyString => False | String c _ => c <> "!"%char end.
Definition quiet_opt (o : option string) : Prop := forall s, o = Some s -> quiet s.
Definition quiet_item (label : string) (a : yattr) : Prop :=
  quiet label /\ quiet_opt (ya_rename a) /\ quiet_opt (ya_prefix a).
Definition quiet_names (E : env) : Prop :=
  forall id td, nth_error E id = Some td ->
  quiet_item (t_name td) (t_attrs td) /\ quiet_opt (ya_tag (t_attrs td)) /\
  (forall pu, In pu (ya_namespaces (t_attrs td)) -> no_open (fst pu)) /\
  match t_body td with
  | DStruct fs => forall f, In f fs -> quiet_item (f_label f) (f_attrs f)
  | DEnum vs _ => forall v, In v vs -> quiet_item (v_label v) (v_attrs v) /\
      match v_body v with VbNamed fs => forall f, In f fs -> quiet_item (f_label f) (f_attrs f) | _ => True end
  | DPrim _ => True
  end.

(** ** String contents (C35) *)

(** All strings in a value. *)
Inductive InValue (s : string) : value -> Prop :=
| iv_str : InValue s (VStr s)
| iv_opt : forall v, InValue s v -> InValue s (VOpt (Some v))
| iv_vec : forall l v, In v l -> InValue s v -> InValue s (VVec l)
| iv_rec : forall l v, In v l -> InValue s v -> InValue s (VRec l)
| iv_var : forall i l v, In v l -> InValue s v -> InValue s (VVar i l).

(** Equal up to the contents of strings. *)
Inductive alike : value -> value -> Prop :=
| al_str : forall s t, alike (VStr s) (VStr t)
| al_same : forall v, alike v v
| al_opt : forall v w, alike v w -> alike (VOpt (Some v)) (VOpt (Some w))
| al_vec : forall l m, Forall2 alike l m -> alike (VVec l) (VVec m)
| al_rec : forall l m, Forall2 alike l m -> alike (VRec l) (VRec m)
| al_var : forall i l m, Forall2 alike l m -> alike (VVar i l) (VVar i m).

(** Types that write every String as character data, never leave out a field
    because of its value, and have attributes of simple or enum type or
    newtypes. *)
Definition attribute_type (E : env) (b : base) : Prop :=
  forall id td, b = BUser id -> nth_error E id = Some td ->
  match t_body td with
  | DStruct _ => False
  | DEnum vs _ => forall v, In v vs -> v_body v = VbUnit
  | DPrim _ => True
  end.
Definition plain_strings (E : env) : Prop :=
  forall id td, nth_error E id = Some td ->
  match t_body td with
  | DStruct fs => forall f, In f fs ->
      ya_cdata (f_attrs f) = false /\ ya_default (f_attrs f) = None /\ ya_skip_if (f_attrs f) = None /\
      (ya_attribute (f_attrs f) = true -> attribute_type E (base_of (f_ty f)))
  | DEnum vs _ => forall v, In v vs -> legal (variant_name v) = true /\
      (forall p, ya_prefix (v_attrs v) = Some p -> identifier p)
  | DPrim _ => True
  end.

(** User code prints no control characters. *)
Definition shows_legal (x : ext) : Prop :=
  (forall d z, legal (x_fshow x d z) = true) /\ (forall n z, legal (x_ushow x n z) = true).

(** A tree without its texts and attribute values. *)
Fixpoint bones (t : node) : list node :=
  match t with
  | Txt _ => []
  | Elem n a m ks => [Elem n (map (fun b => Attr (at_name b) "") a) m (flat_map bones ks)]
  end.
