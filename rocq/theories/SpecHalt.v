(** * Vocabulary for C17: documents that are read to an end, by the names of
      their elements. *)
From Verif Require Import Str Num Xml XmlText Reader Schema De SpecTree SpecStruct.
Open Scope list_scope.

(** Nothing but text before the next end tag. *)
Fixpoint only_text (l : list event) : Prop :=
  match l with
  | [] => True
  | EEnd _ :: _ => True
  | EChars _ :: r => only_text r
  | _ => False
  end.

(** Some of the events, in their order. *)
Inductive some_of : list event -> list event -> Prop :=
| so_nil : some_of [] []
| so_take e l r : some_of l r -> some_of (e :: l) (e :: r)
| so_leave e l r : some_of l r -> some_of l (e :: r).

Section Halt.
  Variables (E : env) (evs : list event).

  (** A start tag of the document has the text [t] for an attribute of the
      user type [i]. *)
  Definition attr_text (i : nat) (t : string) : Prop :=
    exists id td fs f n attrs m a, struct_type E id td fs /\ In f fs /\ ya_attribute (f_attrs f) = true /\ base_of (f_ty f) = BUser i /\
      In (EStart n attrs m) evs /\ In a attrs /\ n_local (at_name a) = field_name f /\
      match f_ty f with TVec _ => In t (split_ws (at_value a)) | _ => t = at_value a end.

  Definition newtype (i : nat) : Prop := forall td, nth_error E i = Some td -> exists k, t_body td = DPrim k.

  (** The elements of this name have no elements in them. *)
  Definition leaf_name (n : name) : Prop := forall pre a m r, evs = pre ++ EStart n a m :: r -> only_text r.

  (** Types that are read from a text: newtypes and enums with variants without
      a payload. *)
  Definition from_text (i : nat) : Prop :=
    exists td, nth_error E i = Some td /\
    match t_body td with
    | DStruct _ => False
    | DEnum vs _ => exists s k, variant_for vs s = Some (k, VbUnit)
    | DPrim _ => True
    end.

  (** The elements of the fields that are read from a text have no elements in
      them. *)
  Definition settled (ra : yattr) (fs : list field) : Prop :=
    forall f n, In f fs -> elem_field f -> elabel n = flabel ra f ->
    match base_of (f_ty f) with BSimple _ => True | BUser j => from_text j end -> leaf_name n.

  (** An element that is named like an element of the struct is named like the
      struct itself. *)
  Definition unlike (td : typedef) (fs : list field) (n : name) : Prop :=
    forall f, In f fs -> elem_field f -> elabel n = flabel (t_attrs td) f -> elabel n = root_label td.

  (** [C i n]: type [i] may be read from elements of the name [n].

      A struct is not read from an element that is named like one of its
      elements of simple type, unless it is named like the struct.  The types of
      its elements may be read from elements of their names; if the elements
      that hold a text may hold elements too, or the struct is read from an
      element that is named like one of its elements, then they may be read from
      elements of any name.

      An enum with payloads has no tag, is not read from an element that is
      named like a variant with a payload, and there is no text that is the name
      of a variant with a payload of a struct or enum type.

      A struct with flattened fields is not read from an element that is named
      like one of its elements, unless it is named like the struct. *)
  Definition well_named (C : nat -> name -> Prop) : Prop :=
    forall id n td, C id n -> nth_error E id = Some td ->
    match t_body td with
    | DStruct fs => forall f, In f fs -> (flat_field f = true -> unlike td fs n) /\
        (elem_field f ->
         match base_of (f_ty f) with
         | BSimple _ => elabel n = flabel (t_attrs td) f -> elabel n = root_label td
         | BUser i => (forall n', elabel n' = flabel (t_attrs td) f -> C i n') /\
             ((settled (t_attrs td) fs /\ unlike td fs n) \/ forall n', C i n')
         end)
    | DEnum vs _ => forall s i fl t, variant_for vs s = Some (i, VbNew fl t) ->
        ya_tag (t_attrs td) = None /\ n_local n <> s /\
        (forall i1, base_of t = BUser i1 -> (forall n', n_local n' = s -> C i1 n') /\ (In (EChars s) evs -> newtype i1))
    | DPrim _ => True
    end.

  (** [t] is the text of what may be left for a flattened field of type [i]:
      the start tag of the struct and some of the events after it, written by
      an [EventWriter]. *)
  Definition rest_text (C : nat -> name -> Prop) (i : nat) (t : string) : Prop :=
    exists id td fs f n attrs m pre r l ws, struct_type E id td fs /\ In f fs /\ flat_field f = true /\ base_of (f_ty f) = BUser i /\
      C id n /\ evs = pre ++ EStart n attrs m :: r /\ some_of l r /\
      map as_writer_event (EStart n attrs m :: l) = map Some ws /\ t = emit_text default_econf ws.
End Halt.

(** The document that the text of an attribute of this type is put into. *)
Definition attr_document (E : env) (i : nat) (t : string) : string :=
  match nth_error E i with
  | Some td => "<" +++ t_name td +++ ">" +++ t +++ "</" +++ t_name td +++ ">"
  | None => t
  end.
