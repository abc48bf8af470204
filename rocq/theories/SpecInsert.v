(** * Vocabulary of C13: inserting unknown elements and attributes. *)
From Verif Require Import Str Num Xml Reader Schema SpecTree SpecStruct.
Open Scope list_scope.

(** No text among the nodes. *)
Definition textless (l : list node) : Prop := forall s, ~ In (Txt s) l.

(** [Indifferent E s id]: neither type [id] nor a type flattened into it has a
    field or variant read from elements called [s]. *)
Inductive Indifferent (E : env) (s : string) : nat -> Prop :=
| indiff_struct : forall id td fs,
    struct_type E id td fs ->
    (forall f, In f fs -> elem_field f -> field_name f <> s) ->
    (forall f id', In f fs -> flat_field f = true -> base_of (f_ty f) = BUser id' -> Indifferent E s id') ->
    Indifferent E s id
| indiff_enum : forall id td vs dflt,
    nth_error E id = Some td -> t_body td = DEnum vs dflt ->
    (forall v, In v vs -> variant_name v <> s) ->
    Indifferent E s id.

(** [Careless E s id]: neither type [id] nor a type flattened into it looks
    for attributes called [s]. *)
Inductive Careless (E : env) (s : string) : nat -> Prop :=
| careless_struct : forall id td fs,
    struct_type E id td fs ->
    (forall f, In f fs -> ya_attribute (f_attrs f) = true -> field_name f <> s) ->
    (forall f id', In f fs -> flat_field f = true -> base_of (f_ty f) = BUser id' -> Careless E s id') ->
    Careless E s id
| careless_enum : forall id td vs dflt,
    nth_error E id = Some td -> t_body td = DEnum vs dflt -> ya_tag (t_attrs td) <> Some s ->
    Careless E s id
| careless_prim : forall id td k, nth_error E id = Some td -> t_body td = DPrim k -> Careless E s id.

(** [Inserted E id t t']: [t'] is the element [t], read as type [id], with one
    more element or attribute that belongs to nothing, at any depth.

    With flattened fields the new element must not separate two texts of the
    element it is put into. *)
Inductive Inserted (E : env) : nat -> node -> node -> Prop :=
| ins_elem : forall id td fs n a m k1 kn ka km kk k2,
    struct_type E id td fs ->
    (forall f, In f fs -> elem_field f -> flabel (t_attrs td) f <> elabel kn) ->
    (forall f id', In f fs -> flat_field f = true -> base_of (f_ty f) = BUser id' -> Indifferent E (n_local kn) id') ->
    (flattens fs = true -> textless k1 \/ textless k2) ->
    Inserted E id (Elem n a m (k1 ++ k2)) (Elem n a m (k1 ++ Elem kn ka km kk :: k2))
| ins_attr : forall id n a1 b a2 m kids,
    Careless E (n_local (at_name b)) id ->
    Inserted E id (Elem n (a1 ++ a2) m kids) (Elem n (a1 ++ b :: a2) m kids)
| ins_field : forall id td fs n a m k1 kn ka km kk ka' kk' k2 i f id',
    struct_type E id td fs -> first_labelled (t_attrs td) fs i f ->
    flabel (t_attrs td) f = elabel kn -> base_of (f_ty f) = BUser id' ->
    Inserted E id' (Elem kn ka km kk) (Elem kn ka' km kk') ->
    Inserted E id (Elem n a m (k1 ++ Elem kn ka km kk :: k2)) (Elem n a m (k1 ++ Elem kn ka' km kk' :: k2))
| ins_simple : forall id td fs n a m k1 kn ka km kk ka' k2 i f s,
    struct_type E id td fs -> first_labelled (t_attrs td) fs i f ->
    flabel (t_attrs td) f = elabel kn -> base_of (f_ty f) = BSimple s ->
    Inserted E id (Elem n a m (k1 ++ Elem kn ka km kk :: k2)) (Elem n a m (k1 ++ Elem kn ka' km kk :: k2))
| ins_payload : forall id td vs dflt n a m k1 kn ka km kk ka' kk' k2 i fl t id',
    nth_error E id = Some td -> t_body td = DEnum vs dflt ->
    variant_for vs (n_local kn) = Some (i, VbNew fl t) -> base_of t = BUser id' ->
    Inserted E id' (Elem kn ka km kk) (Elem kn ka' km kk') ->
    Inserted E id (Elem n a m (k1 ++ Elem kn ka km kk :: k2)) (Elem n a m (k1 ++ Elem kn ka' km kk' :: k2)).
