(** * Vocabulary for the round-trip properties (C26-C29, C31-C37).

    Which type definitions and which values are expected to survive
    serialization followed by deserialization.  Everything is said about type
    definitions and values; nothing here mentions the reader or the writer. *)
From Verif Require Import Str Num Xml XmlText Reader Schema Ser SpecTree SpecText SpecNum SpecTyped SpecStruct SpecSer SpecValue.
Open Scope list_scope.

(** ** Namespaces *)

(** The bindings a type puts on its elements: those of [namespaces], the one
    chosen by [default_namespace] bound to the empty prefix. *)
Definition own_bindings (ra : yattr) : nsmap :=
  map (fun pu => (if opt_eqb (ya_default_namespace ra) (Some (fst pu)) then "" else fst pu, snd pu))
      (ya_namespaces ra).
Definition bindings (E : env) : nsmap := flat_map (fun td => own_bindings (t_attrs td)) E.

(** All types agree on what a prefix means; prefixes and URIs can be written. *)
Definition consistent (E : env) : Prop :=
  (forall p u u', In (p, u) (bindings E) -> In (p, u') (bindings E) -> u = u') /\
  (forall p u, In (p, u) (bindings E) -> good_decl (p, u) /\ u <> "").

Definition no_default_namespace (E : env) : Prop := forall u, ~ In ("", u) (bindings E).

(** A prefix is a name bound by the type's [namespaces]; without a prefix, no
    default namespace may be in use. *)
Definition prefix_fine (E : env) (ra : yattr) (p : option string) : Prop :=
  match p with
  | Some q => identifier q /\ ns_get (ya_namespaces ra) q <> None
  | None => no_default_namespace E
  end.

(** ** Element names *)

(** Only unit and one-payload variants can be read. *)
Definition readable (v : variant) : Prop := forall fs, v_body v <> VbNamed fs.

(** An element with label [l] can be handed to the reader of type [id]:
    a struct's element must not look like one of its own fields, an enum's
    element not like one of its variants, and an enum checks the namespace. *)
Definition accepts (E : env) (id : nat) (l : string * string) : Prop :=
  forall td, nth_error E id = Some td ->
  match t_body td with
  | DStruct fs => l = root_label td \/ forall f, In f fs -> elem_field f -> flabel (t_attrs td) f <> l
  | DEnum vs _ =>
      (fst l = "" \/ exists p, ya_prefix (t_attrs td) = Some p /\ ns_get (ya_namespaces (t_attrs td)) p = Some (fst l)) /\
      (ya_tag (t_attrs td) = None -> forall v, In v vs -> readable v -> variant_name v <> snd l)
  | DPrim _ => True
  end.
Definition accepts_base (E : env) (b : base) (l : string * string) : Prop :=
  match b with BSimple _ => True | BUser id => accepts E id l end.

(** ** Supported type definitions *)

Definition attribute_field_fine (ra : yattr) (f : field) : Prop :=
  identifier (field_name f) /\ field_name f <> "xmlns" /\
  (forall p, ya_prefix (f_attrs f) = Some p -> identifier p /\ ns_get (ya_namespaces ra) p <> None) /\
  (forall b, f_ty f <> TOptVec b).
Definition element_field_fine (E : env) (ra : yattr) (f : field) : Prop :=
  identifier (field_name f) /\ prefix_fine E ra (ya_prefix (f_attrs f)) /\ ya_flatten (f_attrs f) = false /\
  (forall b, f_ty f <> TOptVec b) /\
  accepts_base E (base_of (f_ty f)) (flabel ra f).

(** A struct: no flattened fields, element fields with different names,
    attribute fields with different names, at most one text field. *)
Definition struct_fine (E : env) (ra : yattr) (fs : list field) : Prop :=
  ya_flatten ra = false /\
  (forall f, In f fs -> if ya_attribute (f_attrs f) then attribute_field_fine ra f else element_field_fine E ra f) /\
  (forall i j f g, nth_error fs i = Some f -> nth_error fs j = Some g ->
     (ya_attribute (f_attrs f) = false /\ ya_attribute (f_attrs g) = false /\ flabel ra f = flabel ra g) \/
     (ya_attribute (f_attrs f) = true /\ ya_attribute (f_attrs g) = true /\ field_name f = field_name g) \/
     (ya_text (f_attrs f) = true /\ ya_text (f_attrs g) = true) -> i = j).

(** Namespace and name of a payload element. *)
Definition vlabel (ra : yattr) (v : variant) : string * string :=
  (uri_of (ya_namespaces ra) (ya_prefix (v_attrs v)), variant_name v).
Definition enum_fine (E : env) (ra : yattr) (vs : list variant) : Prop :=
  ya_flatten ra = false /\
  (forall tg, ya_tag ra = Some tg -> identifier tg /\ tg <> "xmlns") /\
  (forall v fl t, In v vs -> v_body v = VbNew fl t ->
     identifier (variant_name v) /\ prefix_fine E ra (ya_prefix (v_attrs v)) /\
     accepts_base E (base_of t) (vlabel ra v)).

Definition supported (E : env) : Prop :=
  consistent E /\
  forall id td, nth_error E id = Some td ->
  match t_body td with
  | DStruct fs => struct_fine E (t_attrs td) fs
  | DEnum vs _ => enum_fine E (t_attrs td) vs
  | DPrim _ => True
  end.

(** The type can be the root of a document. *)
Definition root_name (td : typedef) : string :=
  match t_body td with DPrim _ => t_name td | _ => match ya_rename (t_attrs td) with Some r => r | None => t_name td end end.
Definition rootable (E : env) (id : nat) : Prop :=
  forall td, nth_error E id = Some td ->
  identifier (root_name td) /\
  match t_body td with
  | DPrim _ => no_default_namespace E
  | _ => prefix_fine E (t_attrs td) (ya_prefix (t_attrs td)) /\ accepts E id (root_label td)
  end.

(** ** Values that survive *)

(** Text that is read back unchanged from the content of an element: not
    blank, no white space at either end, no control characters. *)
Definition clean (s : string) : Prop := legal s = true /\ str_nonws s = true /\ trim s = s.

Definition float_survives (x : ext) (ok : string -> Prop) (d : bool) (z : Z) : Prop :=
  ok (x_fshow x d z) /\ x_fparse x d (x_fshow x d z) = Ok z.

(** [ok]: condition on texts. *)
Definition leaf_survives (x : ext) (ok : string -> Prop) (s : simple) (v : value) : Prop :=
  match s, v with
  | SString, VStr t => ok t
  | SBool, VBool _ => True
  | SInt t, VInt z => fits t z
  | SFloat d, VFloat z => float_survives x ok d z
  | _, _ => False
  end.

(** Newtypes.  Bit flags are written in hexadecimal and read in decimal. *)
Definition prim_survives (x : ext) (ok : string -> Prop) (tn : string) (k : primkind) (v : value) : Prop :=
  match k, v with
  | PInner s, _ => leaf_survives x ok s v \/ (s = SString /\ v = VStr "")
  | PHex t m, VInt z => (0 <= z <= 9)%Z /\ Z.land z m = z
  | PUser, VUser z => ok (x_ushow x tn z) /\ x_uparse x tn (x_ushow x tn z) = Ok z
  | _, _ => False
  end.

(** The variant is the first readable one of its name. *)
Definition first_variant (vs : list variant) (i : nat) (vr : variant) : Prop :=
  nth_error vs i = Some vr /\ readable vr /\
  forall j w, j < i -> nth_error vs j = Some w -> readable w -> variant_name w <> variant_name vr.

(** Unit variants are written as the bare name. *)
Definition bare_variant (ra : yattr) (vr : variant) : Prop :=
  ya_prefix (v_attrs vr) = None \/ ya_prefix (v_attrs vr) = ya_default_namespace ra.

(** Texts of attributes of user type are read as the content of an element. *)
Definition attr_text (s : string) : Prop := clean s /\ legal_attr s = true.

Section Survives.
  Variable x : ext.
  Variable E : env.

  (** Attribute values: simple types, unit enums and newtypes. *)
  Inductive AttrSurvives : base -> value -> Prop :=
  | as_simple : forall s v, leaf_survives x (fun t => legal_attr t = true) s v -> AttrSurvives (BSimple s) v
  | as_unit : forall id td vs d i vr, nth_error E id = Some td -> t_body td = DEnum vs d ->
      identifier (t_name td) -> ya_tag (t_attrs td) = None ->
      first_variant vs i vr -> v_body vr = VbUnit -> bare_variant (t_attrs td) vr ->
      attr_text (variant_name vr) -> (forall w, In w vs -> readable w -> variant_name w <> t_name td) ->
      AttrSurvives (BUser id) (VVar i [])
  | as_prim : forall id td k v, nth_error E id = Some td -> t_body td = DPrim k ->
      identifier (t_name td) -> prim_survives x attr_text (t_name td) k v -> AttrSurvives (BUser id) v.

  (** [Survives inside id v]; [inside]: only the content of the value is
      written (payloads of enum variants), its attributes and namespaces are
      lost. *)
  Inductive Survives : bool -> nat -> value -> Prop :=
  | sv_struct : forall b id td fs vs, struct_type E id td fs ->
      (b = true -> ya_namespaces (t_attrs td) = []) ->
      FieldsSurvive b (VRec vs) fs vs -> Survives b id (VRec vs)
  | sv_unit : forall b id td vs d i vr, nth_error E id = Some td -> t_body td = DEnum vs d ->
      ya_tag (t_attrs td) = None -> first_variant vs i vr -> v_body vr = VbUnit ->
      bare_variant (t_attrs td) vr -> clean (variant_name vr) -> Survives b id (VVar i [])
  | sv_tagged : forall id td vs d tg i vr, nth_error E id = Some td -> t_body td = DEnum vs d ->
      ya_tag (t_attrs td) = Some tg -> first_variant vs i vr -> v_body vr = VbUnit ->
      legal_attr (variant_name vr) = true -> Survives false id (VVar i [])
  | sv_payload : forall b id td vs d i vr fl t v, nth_error E id = Some td -> t_body td = DEnum vs d ->
      ya_tag (t_attrs td) = None -> first_variant vs i vr -> v_body vr = VbNew fl t ->
      fl = false -> ya_flatten (v_attrs vr) = false ->
      (b = true -> ya_namespaces (t_attrs td) = []) ->
      PayloadSurvives d i t v -> Survives b id (VVar i [v])
  | sv_prim : forall b id td k v, nth_error E id = Some td -> t_body td = DPrim k ->
      prim_survives x clean (t_name td) k v -> Survives b id v

  (** Fields of a struct. *)
  with FieldsSurvive : bool -> value -> list field -> list value -> Prop :=
  | fsv_nil : forall b self, FieldsSurvive b self [] []
  | fsv_cons : forall b self f fs v vs, FieldSurvives b self f v -> FieldsSurvive b self fs vs ->
      FieldsSurvive b self (f :: fs) (v :: vs)
  with FieldSurvives : bool -> value -> field -> value -> Prop :=
  (** Not written, and this value is what a missing field gets. *)
  | fv_none : forall b self f t, f_ty f = TOpt t -> FieldSurvives b self f (VOpt None)
  | fv_no_items : forall b self f t, f_ty f = TVec t -> FieldSurvives b self f (VVec [])
  | fv_lost_attribute : forall self f v, ya_attribute (f_attrs f) = true ->
      missing_value x f = Some v -> FieldSurvives true self f v
  | fv_unneeded_attribute : forall b self f v, ya_attribute (f_attrs f) = true ->
      unneeded x self f v -> missing_value x f = Some v -> FieldSurvives b self f v
  | fv_suppressed : forall b self f v, ya_attribute (f_attrs f) = false -> ya_text (f_attrs f) = false ->
      suppressed x self f v -> missing_value x f = Some v -> FieldSurvives b self f v
  (** Written. *)
  | fv_attribute : forall self f v t w, ya_attribute (f_attrs f) = true -> ~ unneeded x self f v ->
      (f_ty f = TBase t /\ v = w \/ f_ty f = TOpt t /\ v = VOpt (Some w)) ->
      AttrSurvives t w -> FieldSurvives false self f v
  | fv_text : forall b self f v t, ya_attribute (f_attrs f) = false -> ya_text (f_attrs f) = true ->
      (f_ty f = TBase (BSimple SString) /\ v = VStr t \/ f_ty f = TOpt (BSimple SString) /\ v = VOpt (Some (VStr t))) ->
      clean t -> FieldSurvives b self f v
  | fv_cdata : forall b self f t, ya_attribute (f_attrs f) = false -> ya_text (f_attrs f) = false ->
      ~ suppressed x self f (VStr t) -> ya_cdata (f_attrs f) = true -> f_ty f = TBase (BSimple SString) ->
      clean t -> contains "]]>" t = false -> FieldSurvives b self f (VStr t)
  | fv_items : forall b self f v items, ya_attribute (f_attrs f) = false -> ya_text (f_attrs f) = false ->
      ~ suppressed x self f v -> ya_cdata (f_attrs f) = false ->
      items_of (f_ty f) v = Some items ->
      (forall w, In w items -> ItemSurvives (base_of (f_ty f)) w) -> FieldSurvives b self f v
  with ItemSurvives : base -> value -> Prop :=
  | is_simple : forall s v, leaf_survives x clean s v -> ItemSurvives (BSimple s) v
  | is_user : forall id v, Survives false id v -> ItemSurvives (BUser id) v

  (** Payloads; [d] is the default of the enum. *)
  with PayloadSurvives : value -> nat -> fty -> value -> Prop :=
  | pv_base : forall d i b v, InsideSurvives b v -> PayloadSurvives d i (TBase b) v
  | pv_some : forall d i b v, InsideSurvives b v -> PayloadSurvives d i (TOpt b) (VOpt (Some v))
  | pv_none : forall d i b, d = VVar i [VOpt None] -> PayloadSurvives d i (TOpt b) (VOpt None)
  | pv_vec : forall d i b l, l <> [] -> (forall v, In v l -> InsideSurvives b v) -> PayloadSurvives d i (TVec b) (VVec l)
  | pv_vec_empty : forall d i b, d = VVar i [VVec []] -> PayloadSurvives d i (TVec b) (VVec [])
  with InsideSurvives : base -> value -> Prop :=
  | in_simple : forall s v, leaf_survives x (fun t => clean t \/ t = "") s v -> InsideSurvives (BSimple s) v
  | in_user : forall id v, Survives true id v -> InsideSurvives (BUser id) v.
End Survives.

(** ** For single fields *)

(** All fields but number [i] survive. *)
Definition others_survive (x : ext) (E : env) (fs : list field) (vs : list value) (i : nat) : Prop :=
  List.length vs = List.length fs /\
  forall j f v, j <> i -> nth_error fs j = Some f -> nth_error vs j = Some v -> FieldSurvives x E false (VRec vs) f v.

(** The text of a value of a unit enum or newtype. *)
Inductive type_text (x : ext) (E : env) : nat -> value -> string -> Prop :=
| tt_unit : forall e te vars d k vr, nth_error E e = Some te -> t_body te = DEnum vars d -> ya_tag (t_attrs te) = None ->
    nth_error vars k = Some vr -> v_body vr = VbUnit -> bare_variant (t_attrs te) vr ->
    type_text x E e (VVar k []) (variant_name vr)
| tt_prim : forall e te k v u, nth_error E e = Some te -> t_body te = DPrim k -> show_prim x (t_name te) k v = Some u ->
    type_text x E e v u.

(** No characters that are escaped in character data. *)
Fixpoint no_markup (s : string) : bool :=
  match s with
  | EmptyString => true
  | String c r => (negb (Ascii.eqb c "<") && negb (Ascii.eqb c ">") && negb (Ascii.eqb c "&") && no_markup r)%bool
  end.

(** A name resolved by the bindings of its element. *)
Definition resolve (m : nsmap) (n : name) : string * string :=
  (match ns_get m (match n_prefix n with Some p => p | None => "" end) with Some u => u | None => "" end, n_local n).

(** The bindings a type puts on its elements are a function ([namespaces] is a
    map; the empty prefix may be bound only once). *)
Definition unambiguous (ra : yattr) : Prop :=
  forall p u u', In (p, u) (own_bindings ra) -> In (p, u') (own_bindings ra) -> u = u'.

(** An indentation made of white space (XML's four characters). *)
Definition white_indent (c : config) : Prop := forall s, c_indent_string c = Some s -> all_chars is_ws s = true.
