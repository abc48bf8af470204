(** * Vocabulary for the round trips of types with flattened fields (C27, C28).

    Like SpecRound.v, with struct fields that are flattened: their content is
    written into the element of the struct, and read from what the struct's
    own fields leave.  Said about type definitions, values and the trees
    written for them (SpecEnc.v); nothing here mentions the reader. *)
From Verif Require Import Str Num Xml XmlText Reader Schema Ser SpecTree SpecText SpecNum SpecTyped SpecStruct SpecSer SpecValue
  SpecEnc SpecRound.
Open Scope list_scope.

(** ** Types that share an element *)

(** Content of type [id'] is written into the elements of type [id]. *)
Inductive Spliced (E : env) : nat -> nat -> Prop :=
| sp_field : forall id td fs f id', struct_type E id td fs -> In f fs -> flat_field f = true ->
    base_of (f_ty f) = BUser id' -> Spliced E id id'
| sp_deeper : forall id id' id'', Spliced E id id' -> Spliced E id' id'' -> Spliced E id id''.
Definition shares (E : env) (id id' : nat) : Prop := id' = id \/ Spliced E id id'.

(** An element with label [l] can be handed to the reader of the type, see
    [accepts]. *)
Definition takes_own (td : typedef) (l : string * string) : Prop :=
  match t_body td with
  | DStruct fs => l = root_label td \/ forall f, In f fs -> elem_field f -> flabel (t_attrs td) f <> l
  | DEnum vs _ =>
      (fst l = "" \/ exists p, ya_prefix (t_attrs td) = Some p /\ ns_get (ya_namespaces (t_attrs td)) p = Some (fst l)) /\
      (ya_tag (t_attrs td) = None -> forall v, In v vs -> readable v -> variant_name v <> snd l)
  | DPrim _ => True
  end.
(** The types that share the element read a document of their own, so they
    check the namespace. *)
Definition takes (E : env) (id : nat) (l : string * string) : Prop :=
  (forall td, nth_error E id = Some td -> takes_own td l) /\
  forall id' td, Spliced E id id' -> nth_error E id' = Some td ->
    takes_own td l /\
    (fst l = "" \/ exists p, ya_prefix (t_attrs td) = Some p /\ ns_get (ya_namespaces (t_attrs td)) p = Some (fst l)).
Definition takes_base (E : env) (b : base) (l : string * string) : Prop :=
  match b with BSimple _ => True | BUser id => takes E id l end.

(** ** Type definitions *)

Definition elem_fine (E : env) (ra : yattr) (f : field) : Prop :=
  identifier (field_name f) /\ prefix_fine E ra (ya_prefix (f_attrs f)) /\
  (forall b, f_ty f <> TOptVec b) /\
  takes_base E (base_of (f_ty f)) (flabel ra f).
Definition flat_fine (E : env) (f : field) : Prop :=
  ya_text (f_attrs f) = false /\ ya_cdata (f_attrs f) = false /\
  exists id, (f_ty f = TBase (BUser id) \/ f_ty f = TOpt (BUser id)) /\
    forall td, nth_error E id = Some td -> forall k, t_body td <> DPrim k.

Definition struct_ok (E : env) (ra : yattr) (fs : list field) : Prop :=
  ya_flatten ra = false /\
  (forall f, In f fs -> if ya_attribute (f_attrs f) then attribute_field_fine ra f
                        else if ya_flatten (f_attrs f) then flat_fine E f else elem_fine E ra f) /\
  (forall i j f g, nth_error fs i = Some f -> nth_error fs j = Some g ->
     (elem_field f /\ elem_field g /\ flabel ra f = flabel ra g) \/
     (ya_attribute (f_attrs f) = true /\ ya_attribute (f_attrs g) = true /\ field_name f = field_name g) \/
     (ya_text (f_attrs f) = true /\ ya_text (f_attrs g) = true) -> i = j).
Definition enum_ok (E : env) (ra : yattr) (vs : list variant) : Prop :=
  ya_flatten ra = false /\
  (forall tg, ya_tag ra = Some tg -> identifier tg /\ tg <> "xmlns") /\
  (forall v fl t, In v vs -> v_body v = VbNew fl t ->
     identifier (variant_name v) /\ prefix_fine E ra (ya_prefix (v_attrs v)) /\
     takes_base E (base_of t) (vlabel ra v)).
Definition all_ok (E : env) : Prop :=
  consistent E /\
  forall id td, nth_error E id = Some td ->
  match t_body td with
  | DStruct fs => struct_ok E (t_attrs td) fs
  | DEnum vs _ => enum_ok E (t_attrs td) vs
  | DPrim _ => True
  end.
Definition root_ok (E : env) (id : nat) : Prop :=
  forall td, nth_error E id = Some td ->
  identifier (root_name td) /\ takes E id (root_label td) /\
  match t_body td with
  | DPrim _ => no_default_namespace E
  | _ => prefix_fine E (t_attrs td) (ya_prefix (t_attrs td))
  end.

(** ** What the types sharing an element leave to each other *)

(** Nothing that names a variant, at any depth. *)
Inductive walien (vs : list variant) : wnode -> Prop :=
| wa_txt : forall s, s = "" \/ variant_for vs s = None -> walien vs (WTxt s)
| wa_cd : forall s, s = "" \/ variant_for vs s = None -> walien vs (WCd s)
| wa_elem : forall n a m ks, variant_for vs (n_local n) = None ->
    (forall k, In k ks -> walien vs k) -> walien vs (WElem n a m ks).

(** Type [id] and the types spliced into it have no use for the written tree. *)
Definition Ignores (E : env) (id : nat) (k : wnode) : Prop :=
  forall id' td, shares E id id' -> nth_error E id' = Some td ->
  match t_body td with
  | DStruct fs =>
      match k with
      | WElem n _ _ _ => forall f, In f fs -> elem_field f -> flabel (t_attrs td) f <> resolve (bindings E) n
      | WTxt s | WCd s => s = "" \/ forall f, In f fs -> ya_text (f_attrs f) = false
      end
  | DEnum vs _ => walien vs k
  | DPrim _ => False
  end.
(** They use attributes of this name. *)
Definition claims_attr (E : env) (id : nat) (l : string) : Prop :=
  exists id' td, shares E id id' /\ nth_error E id' = Some td /\
  match t_body td with
  | DStruct fs => exists f, In f fs /\ ya_attribute (f_attrs f) = true /\ field_name f = l
  | DEnum _ _ => ya_tag (t_attrs td) = Some l
  | DPrim _ => False
  end.

(** Values whose reader takes only its own content and all of it: structs and
    payload variants (a unit variant is the only text of its element). *)
Definition spread (E : env) (id : nat) (v : value) : Prop :=
  forall td, nth_error E id = Some td ->
  match t_body td with
  | DStruct _ => True
  | DEnum _ _ => ya_tag (t_attrs td) = None /\ exists i w, v = VVar i [w]
  | DPrim _ => False
  end.

(** Written texts that are not empty. *)
Definition some_text (k : wnode) : bool :=
  match k with WTxt s | WCd s => negb (String.eqb s "") | WElem _ _ _ _ => false end.
Definition ntexts (ks : list wnode) : nat := List.length (filter some_text ks).

Definition written_nodes (x : ext) (E : env) (ra : yattr) (self : value) (f : field) (v : value) : list wnode :=
  match enc_field x (encode x E) ra self f v with Some l => l | None => [] end.
(** [b]: attributes are lost. *)
Definition written_attrs (x : ext) (E : env) (b : bool) (ra : yattr) (self : value) (f : field) (v : value) : list attr :=
  if b then []
  else if ya_attribute (f_attrs f) then
    match enc_attr x (encode x E) ra self f v with Some l => l | None => [] end
  else
    match ya_flatten (f_attrs f), f_ty f with
    | true, TBase (BUser id) => match encode_attrs x E id v with Some (a, _) => a | None => [] end
    | _, _ => []
    end.

(** The fields of a struct with flattened fields do not get into each other's
    way: at most one text is written; flattened field [f] writes nothing that
    another field [g] would take, and nothing is written for other fields that
    [f] would take. *)
Record Unmixed (x : ext) (E : env) (b : bool) (ra : yattr) (self : value) (fs : list field) (vs : list value) : Prop := {
  um_text : ntexts (flat_map (fun p => written_nodes x E ra self (fst p) (snd p)) (combine fs vs)) <= 1;
  um_spread : forall i f v id l w, nth_error fs i = Some f -> nth_error vs i = Some v -> elem_field f ->
    base_of (f_ty f) = BUser id -> items_of (f_ty f) v = Some l -> In w l -> ~ suppressed x self f v -> spread E id w;
  um_pair : forall i j f g v w id, i <> j ->
    nth_error fs i = Some f -> nth_error vs i = Some v -> nth_error fs j = Some g -> nth_error vs j = Some w ->
    flat_field f = true -> base_of (f_ty f) = BUser id ->
    (elem_field g -> forall n a m ks, In (WElem n a m ks) (written_nodes x E ra self f v) ->
       resolve (bindings E) n <> flabel ra g) /\
    (ya_text (f_attrs g) = true -> ntexts (written_nodes x E ra self f v) = 0) /\
    (ya_attribute (f_attrs g) = true -> forall a, In a (written_attrs x E b ra self f v) ->
       n_local (at_name a) <> field_name g) /\
    (flat_field g = true \/ ya_text (f_attrs g) = true ->
       forall k, In k (written_nodes x E ra self g w) -> Ignores E id k) /\
    (forall a, In a (written_attrs x E b ra self g w) -> ~ claims_attr E id (n_local (at_name a)))
}.

(** ** Values *)
Section Lasts.
  Variable x : ext.
  Variable E : env.

  (** See [Survives] of SpecRound.v. *)
  Inductive Lasts : bool -> nat -> value -> Prop :=
  | ls_struct : forall b id td fs vs, struct_type E id td fs ->
      (b = true -> ya_namespaces (t_attrs td) = []) ->
      (flattens fs = true -> Unmixed x E b (t_attrs td) (VRec vs) fs vs) ->
      FieldsLast b (VRec vs) fs vs -> Lasts b id (VRec vs)
  | ls_unit : forall b id td vs d i vr, nth_error E id = Some td -> t_body td = DEnum vs d ->
      ya_tag (t_attrs td) = None -> first_variant vs i vr -> v_body vr = VbUnit ->
      bare_variant (t_attrs td) vr -> clean (variant_name vr) -> Lasts b id (VVar i [])
  | ls_tagged : forall id td vs d tg i vr, nth_error E id = Some td -> t_body td = DEnum vs d ->
      ya_tag (t_attrs td) = Some tg -> first_variant vs i vr -> v_body vr = VbUnit ->
      legal_attr (variant_name vr) = true -> Lasts false id (VVar i [])
  | ls_payload : forall b id td vs d i vr fl t v, nth_error E id = Some td -> t_body td = DEnum vs d ->
      ya_tag (t_attrs td) = None -> first_variant vs i vr -> v_body vr = VbNew fl t ->
      fl = false -> ya_flatten (v_attrs vr) = false ->
      (b = true -> ya_namespaces (t_attrs td) = []) ->
      PayloadLasts d i t v -> Lasts b id (VVar i [v])
  | ls_prim : forall b id td k v, nth_error E id = Some td -> t_body td = DPrim k ->
      prim_survives x clean (t_name td) k v -> Lasts b id v

  with FieldsLast : bool -> value -> list field -> list value -> Prop :=
  | fl_nil : forall b self, FieldsLast b self [] []
  | fl_cons : forall b self f fs v vs, FieldLasts b self f v -> FieldsLast b self fs vs ->
      FieldsLast b self (f :: fs) (v :: vs)
  with FieldLasts : bool -> value -> field -> value -> Prop :=
  | fd_none : forall b self f t, flat_field f = false -> f_ty f = TOpt t -> FieldLasts b self f (VOpt None)
  | fd_no_items : forall b self f t, f_ty f = TVec t -> FieldLasts b self f (VVec [])
  | fd_lost_attribute : forall self f v, ya_attribute (f_attrs f) = true ->
      missing_value x f = Some v -> FieldLasts true self f v
  | fd_unneeded_attribute : forall b self f v, ya_attribute (f_attrs f) = true ->
      unneeded x self f v -> missing_value x f = Some v -> FieldLasts b self f v
  | fd_suppressed : forall b self f v, ya_attribute (f_attrs f) = false -> ya_text (f_attrs f) = false ->
      ya_flatten (f_attrs f) = false ->
      suppressed x self f v -> missing_value x f = Some v -> FieldLasts b self f v
  | fd_attribute : forall self f v t w, ya_attribute (f_attrs f) = true -> ~ unneeded x self f v ->
      (f_ty f = TBase t /\ v = w \/ f_ty f = TOpt t /\ v = VOpt (Some w)) ->
      AttrSurvives x E t w -> FieldLasts false self f v
  | fd_text : forall b self f v t, ya_attribute (f_attrs f) = false -> ya_text (f_attrs f) = true ->
      (f_ty f = TBase (BSimple SString) /\ v = VStr t \/ f_ty f = TOpt (BSimple SString) /\ v = VOpt (Some (VStr t))) ->
      clean t -> FieldLasts b self f v
  | fd_cdata : forall b self f t, ya_attribute (f_attrs f) = false -> ya_text (f_attrs f) = false ->
      ~ suppressed x self f (VStr t) -> ya_cdata (f_attrs f) = true -> f_ty f = TBase (BSimple SString) ->
      clean t -> contains "]]>" t = false -> FieldLasts b self f (VStr t)
  | fd_items : forall b self f v items, ya_attribute (f_attrs f) = false -> ya_text (f_attrs f) = false ->
      ya_flatten (f_attrs f) = false ->
      ~ suppressed x self f v -> ya_cdata (f_attrs f) = false ->
      items_of (f_ty f) v = Some items ->
      (forall w, In w items -> ItemLasts (base_of (f_ty f)) w) -> FieldLasts b self f v
  (** Flattened: the content is written into the same element; the attributes
      only for a field that is not optional. *)
  | fd_flat : forall b self f id v, flat_field f = true -> f_ty f = TBase (BUser id) ->
      ~ suppressed x self f v -> spread E id v -> Lasts b id v -> FieldLasts b self f v
  | fd_flat_some : forall b self f id v, flat_field f = true -> f_ty f = TOpt (BUser id) ->
      ~ suppressed x self f (VOpt (Some v)) -> spread E id v -> Lasts true id v ->
      FieldLasts b self f (VOpt (Some v))
  (** Absent: a required field must be missing. *)
  | fd_flat_none : forall b self f id td fs g t, flat_field f = true -> f_ty f = TOpt (BUser id) ->
      struct_type E id td fs -> flattens fs = false ->
      In g fs -> f_ty g = TBase t -> ya_default (f_attrs g) = None ->
      FieldLasts b self f (VOpt None)
  with ItemLasts : base -> value -> Prop :=
  | il_simple : forall s v, leaf_survives x clean s v -> ItemLasts (BSimple s) v
  | il_user : forall id v, Lasts false id v -> ItemLasts (BUser id) v

  with PayloadLasts : value -> nat -> fty -> value -> Prop :=
  | pl_base : forall d i b v, InsideLasts b v -> PayloadLasts d i (TBase b) v
  | pl_some : forall d i b v, InsideLasts b v -> PayloadLasts d i (TOpt b) (VOpt (Some v))
  | pl_none : forall d i b, d = VVar i [VOpt None] -> PayloadLasts d i (TOpt b) (VOpt None)
  | pl_vec : forall d i b l, l <> [] -> (forall v, In v l -> InsideLasts b v) -> PayloadLasts d i (TVec b) (VVec l)
  | pl_vec_empty : forall d i b, d = VVar i [VVec []] -> PayloadLasts d i (TVec b) (VVec [])
  with InsideLasts : base -> value -> Prop :=
  | nl_simple : forall s v, leaf_survives x (fun t => clean t \/ t = "") s v -> InsideLasts (BSimple s) v
  | nl_user : forall id v, Lasts true id v -> InsideLasts (BUser id) v.
End Lasts.
