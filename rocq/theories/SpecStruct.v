(** * Vocabulary for the properties of struct deserializers (C10-C16, C19,
      C38-C40).

    A struct type and the parts of a document that concern one field.  The
    values of nested elements are described by [Reads] (SpecValue.v), that is
    by running their own deserializer. *)
From Verif Require Import Str Num Xml XmlText Reader Schema De SpecTree SpecText SpecValue.
Open Scope list_scope.

(** Type [id] is a struct with these fields. *)
Definition struct_type (E : env) (id : nat) (td : typedef) (fs : list field) : Prop :=
  nth_error E id = Some td /\ t_body td = DStruct fs.

(** Local name of a field in documents. *)
Definition field_name (f : field) : string :=
  match ya_rename (f_attrs f) with Some r => r | None => f_label f end.

(** An element field: neither an attribute nor flattened. *)
Definition elem_field (f : field) : Prop :=
  ya_attribute (f_attrs f) = false /\ ya_flatten (f_attrs f) = false.

(** No earlier element field has the same label. *)
Definition first_labelled (ra : yattr) (fs : list field) (i : nat) (f : field) : Prop :=
  nth_error fs i = Some f /\ elem_field f /\
  forall j g, j < i -> nth_error fs j = Some g -> elem_field g -> flabel ra g <> flabel ra f.

(** Nothing in the start tag or among the children is meant for field [f]. *)
Definition unsupplied (ra : yattr) (f : field) (attrs : list attr) (kids : list node) : Prop :=
  (ya_attribute (f_attrs f) = true ->
     forall a, In a attrs -> n_local (at_name a) <> field_name f) /\
  (ya_attribute (f_attrs f) = false ->
     ya_flatten (f_attrs f) = false /\
     forall n a m ks, In (Elem n a m ks) kids -> elabel n <> flabel ra f) /\
  (ya_text (f_attrs f) = true -> forall s, ~ In (Txt s) kids).

(** What an unsupplied field becomes; [None]: it is required. *)
Definition missing_value (x : ext) (f : field) : option value :=
  match f_ty f with
  | TOpt _ | TOptVec _ => Some (VOpt None)
  | TVec _ => Some (VVec [])
  | TBase _ => match ya_default (f_attrs f) with
               | Some g => Some (x_default x g)
               | None => None
               end
  end.

(** The values the children give to element field [f], in document order. *)
Inductive Items (x : ext) (E : env) (d : nat) (ra : yattr) (f : field) : list node -> list value -> Prop :=
| items_nil : Items x E d ra f [] []
| items_text : forall s ks l, Items x E d ra f ks l -> Items x E d ra f (Txt s :: ks) l
| items_other : forall n a m c ks l, elabel n <> flabel ra f ->
    Items x E d ra f ks l -> Items x E d ra f (Elem n a m c :: ks) l
| items_simple : forall n a m t s v ks l, elabel n = flabel ra f ->
    base_of (f_ty f) = BSimple s -> visit_simple x s t = Ok v ->
    Items x E d ra f ks l -> Items x E d ra f (Elem n a m [Txt t] :: ks) (v :: l)
| items_invalid : forall n a m c s ks l, elabel n = flabel ra f ->
    base_of (f_ty f) = BSimple s ->
    (c = [] \/ exists t e, c = [Txt t] /\ visit_simple x s t = Er e) ->
    Items x E d ra f ks l -> Items x E d ra f (Elem n a m c :: ks) l
| items_user : forall n a m c id v ks l, elabel n = flabel ra f ->
    base_of (f_ty f) = BUser id -> Reads x E id d (Elem n a m c) (OOk v) ->
    Items x E d ra f ks l -> Items x E d ra f (Elem n a m c :: ks) (v :: l).

(** What a field becomes that was given the values [l] (scalar: the last). *)
Definition collected (x : ext) (f : field) (l : list value) : option value :=
  match f_ty f, rev l with
  | TVec _, _ => Some (VVec l)
  | _, [] => missing_value x f
  | TOpt _, v :: _ | TOptVec _, v :: _ => Some (VOpt (Some v))
  | TBase _, v :: _ => Some v
  end.

(** Moving children past each other: children of different fields; when there
    are flattened fields, two children that both belong to no field keep
    their order. *)
Definition may_swap (ra : yattr) (fs : list field) (a b : node) : Prop :=
  match a, b with
  | Elem n _ _ _, Elem n' _ _ _ => elabel n <> elabel n'
  | Elem n _ _ _, Txt _ | Txt _, Elem n _ _ _ =>
      forall f, In f fs -> ya_text (f_attrs f) = true -> flabel ra f <> elabel n
  | Txt _, Txt _ => False
  end /\
  (flattens fs = true -> is_left ra fs a = false \/ is_left ra fs b = false).

Inductive reordered (ra : yattr) (fs : list field) : list node -> list node -> Prop :=
| ro_refl : forall l, reordered ra fs l l
| ro_swap : forall pre a b post, may_swap ra fs a b ->
    reordered ra fs (pre ++ a :: b :: post) (pre ++ b :: a :: post)
| ro_trans : forall l l' l'', reordered ra fs l l' -> reordered ra fs l' l'' -> reordered ra fs l l''.

(** The texts the start tag gives to attribute field [f]: attribute names
    match without regard to namespaces; a Vec takes the white-space separated
    items. *)
Definition attr_texts (f : field) (attrs : list attr) : list string :=
  flat_map (fun a => if String.eqb (n_local (at_name a)) (field_name f)
                     then match f_ty f with TVec _ => split_ws (at_value a) | _ => [at_value a] end
                     else []) attrs.

(** The text chunks directly inside an element. *)
Definition texts (kids : list node) : list value :=
  flat_map (fun k => match k with Txt s => [VStr s] | Elem _ _ _ _ => [] end) kids.

(** The same texts, and the same children up to the order of children with
    different names. *)
Definition labelled (l : string * string) (k : node) : bool :=
  match k with Elem n _ _ _ => label_eqb (elabel n) l | Txt _ => false end.
Definition is_text (k : node) : bool := match k with Txt _ => true | Elem _ _ _ _ => false end.
Definition same_but_order (kids kids' : list node) : Prop :=
  filter is_text kids = filter is_text kids' /\
  forall l, filter (labelled l) kids = filter (labelled l) kids'.

(** Text [t] can be parsed as an attribute of base type [b], or cannot and [e]
    is the parser's message.  An attribute of a user type is read by parsing
    "<Type>value</Type>". *)
Definition item_valid (x : ext) (E : env) (b : base) (t : string) : Prop :=
  match b with
  | BSimple s => exists v, visit_simple x s t = Ok v
  | BUser id => exists td fuel v, nth_error E id = Some td /\
      from_str x E fuel id ("<" +++ t_name td +++ ">" +++ t +++ "</" +++ t_name td +++ ">") = OOk v
  end.
Definition item_invalid (x : ext) (E : env) (b : base) (t e : string) : Prop :=
  match b with
  | BSimple s => visit_simple x s t = Er e
  | BUser id => exists td fuel, nth_error E id = Some td /\
      from_str x E fuel id ("<" +++ t_name td +++ ">" +++ t +++ "</" +++ t_name td +++ ">") = OErr e
  end.
(** The same for attribute [c] and attribute field [g]; a Vec takes the
    white-space separated items. *)
Definition attr_valid (x : ext) (E : env) (g : field) (c : attr) : Prop :=
  match f_ty g with
  | TVec b => forall t, In t (split_ws (at_value c)) -> item_valid x E b t
  | t => item_valid x E (base_of t) (at_value c)
  end.
Definition attr_invalid (x : ext) (E : env) (g : field) (c : attr) (e : string) : Prop :=
  match f_ty g with
  | TVec b => exists w1 t w2, split_ws (at_value c) = w1 ++ t :: w2 /\
                (forall t', In t' w1 -> item_valid x E b t') /\ item_invalid x E b t e
  | t => item_invalid x E (base_of t) (at_value c) e
  end.

(** White-space separated words.  White space: the Unicode characters with
    property White_Space. *)
Definition blank_points : list N :=
  [9; 10; 11; 12; 13; 32; 133; 160; 5760; 8192; 8193; 8194; 8195; 8196; 8197; 8198; 8199; 8200;
   8201; 8202; 8232; 8233; 8239; 8287; 12288]%N.
Definition begins_blank (s : string) : Prop :=
  exists n r, In n blank_points /\ s = utf8 n +++ r.
Inductive blanks : string -> Prop :=
| blanks_none : blanks ""
| blanks_more : forall n s, In n blank_points -> blanks s -> blanks (utf8 n +++ s).
Definition word (s : string) : Prop :=
  s <> "" /\ forall a b, s = a +++ b -> ~ begins_blank b.
Inductive separated : string -> list string -> Prop :=
| sep_end : forall w, blanks w -> separated w []
| sep_word : forall w t s l, blanks w -> word t ->
    (s = "" \/ begins_blank s) -> separated s l ->
    separated (w +++ t +++ s) (t :: l).

(** [s] is the text of a document consisting of the element [t]. *)
Definition document (s : string) (t : node) : Prop :=
  parse_text s = Stream (EStartDoc :: flat t) FEnd.
