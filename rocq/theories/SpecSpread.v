(** * Vocabulary for C59: documents read by structs that have, in place of
      their flattened fields, the fields of those fields' types. *)
From Verif Require Import Str Num Xml XmlText Reader Schema SpecTree SpecText SpecStruct SpecMove SpecRound.
Open Scope list_scope.

(** ** Types *)
(** The labels of the element fields. *)
Definition element_labels (ra : yattr) (fs : list field) : list (string * string) :=
  map (flabel ra) (filter (fun f => (negb (ya_attribute (f_attrs f)) && negb (ya_flatten (f_attrs f)))%bool) fs).

Definition is_struct (E : env) (id : nat) : Prop := exists td fs, struct_type E id td fs.

(** [fs'] are the fields [fs] of a struct with the attributes [ra], in a struct
    with the attributes [ra'], where each flattened field is replaced by the
    fields of the struct that is its type, and these again, to any depth.  The
    other fields stand for the same elements in both structs; attributes are
    not of struct type. *)
Inductive SpreadFields (E : env) (ra' : yattr) : yattr -> list field -> list field -> Prop :=
| spf_nil : forall ra, SpreadFields E ra' ra [] []
| spf_kept : forall ra f fs fs',
    flat_field f = false -> flabel ra f = flabel ra' f ->
    (forall id, ya_attribute (f_attrs f) = true -> base_of (f_ty f) = BUser id -> ~ is_struct E id) ->
    SpreadFields E ra' ra fs fs' -> SpreadFields E ra' ra (f :: fs) (f :: fs')
| spf_flat : forall ra f id td gs gs' fs fs',
    flat_field f = true -> f_ty f = TBase (BUser id) -> struct_type E id td gs ->
    SpreadFields E ra' (t_attrs td) gs gs' -> SpreadFields E ra' ra fs fs' ->
    SpreadFields E ra' ra (f :: fs) (gs' ++ fs').

(** The same namespace for the root element. *)
Definition same_namespace (ra ra' : yattr) : Prop :=
  ya_prefix ra' = ya_prefix ra /\
  forall p, ya_prefix ra = Some p -> ns_get (ya_namespaces ra') p = ns_get (ya_namespaces ra) p.

Definition spread_type (E : env) (td td' : typedef) : Prop :=
  t_name td' = t_name td /\
  match t_body td, t_body td' with
  | DStruct fs, DStruct fs' =>
      same_namespace (t_attrs td) (t_attrs td') /\ SpreadFields E (t_attrs td') (t_attrs td) fs fs' /\
      NoDup (element_labels (t_attrs td') fs')
  | DEnum vs _, DEnum vs' _ => t_attrs td' = t_attrs td /\ vs' = vs
  | DPrim k, DPrim k' => k' = k
  | _, _ => False
  end.
Definition spread_types (E E' : env) : Prop :=
  forall id td, nth_error E id = Some td -> exists td', nth_error E' id = Some td' /\ spread_type E td td'.

(** ** Values *)
(** The same value, with the fields of flattened structs in their place. *)
Section Spread.
  Variable E : env.

  Inductive spread : nat -> value -> value -> Prop :=
  | sp_struct : forall id td fs l l', struct_type E id td fs -> spread_row fs l l' -> spread id (VRec l) (VRec l')
  | sp_variant : forall id td vs df i va b t v w,
      nth_error E id = Some td -> t_body td = DEnum vs df -> nth_error vs i = Some va -> v_body va = VbNew b t ->
      spread_item t v w -> spread id (VVar i [v]) (VVar i [w])
  | sp_unit : forall id td vs df i va,
      nth_error E id = Some td -> t_body td = DEnum vs df -> nth_error vs i = Some va -> v_body va = VbUnit ->
      spread id (VVar i []) (VVar i [])
  | sp_named : forall id td vs df i va fs l l',
      nth_error E id = Some td -> t_body td = DEnum vs df -> nth_error vs i = Some va -> v_body va = VbNamed fs ->
      spread_named fs l l' -> spread id (VVar i l) (VVar i l')
  | sp_prim : forall id td k v, nth_error E id = Some td -> t_body td = DPrim k -> spread id v v
  with spread_base : base -> value -> value -> Prop :=
  | spb_simple : forall s v, spread_base (BSimple s) v v
  | spb_user : forall id v w, spread id v w -> spread_base (BUser id) v w
  with spread_list : base -> list value -> list value -> Prop :=
  | spl_nil : forall b, spread_list b [] []
  | spl_cons : forall b v w l l', spread_base b v w -> spread_list b l l' -> spread_list b (v :: l) (w :: l')
  with spread_item : fty -> value -> value -> Prop :=
  | spi_base : forall b v w, spread_base b v w -> spread_item (TBase b) v w
  | spi_none : forall b, spread_item (TOpt b) (VOpt None) (VOpt None)
  | spi_some : forall b v w, spread_base b v w -> spread_item (TOpt b) (VOpt (Some v)) (VOpt (Some w))
  | spi_vec : forall b l l', spread_list b l l' -> spread_item (TVec b) (VVec l) (VVec l')
  | spi_optvec_none : forall b, spread_item (TOptVec b) (VOpt None) (VOpt None)
  | spi_optvec : forall b v w, spread_base b v w -> spread_item (TOptVec b) (VOpt (Some v)) (VOpt (Some w))
  with spread_named : list field -> list value -> list value -> Prop :=
  | spn_nil : spread_named [] [] []
  | spn_cons : forall f fs v w l l', spread_item (f_ty f) v w -> spread_named fs l l' -> spread_named (f :: fs) (v :: l) (w :: l')
  with spread_row : list field -> list value -> list value -> Prop :=
  | spr_nil : spread_row [] [] []
  | spr_kept : forall f fs v w l l', flat_field f = false -> spread_item (f_ty f) v w ->
      spread_row fs l l' -> spread_row (f :: fs) (v :: l) (w :: l')
  | spr_flat : forall f id td gs fs vg vg' l l', flat_field f = true -> f_ty f = TBase (BUser id) ->
      struct_type E id td gs -> spread_row gs vg vg' -> spread_row fs l l' ->
      spread_row (f :: fs) (VRec vg :: l) (vg' ++ l').
End Spread.

(** The functions of [default = ".."] and the [Default]s of enums give the
    same values, in their new form. *)
Definition spread_defaults (x x' : ext) (E E' : env) : Prop :=
  (forall id td fs f b d, struct_type E id td fs -> In f fs -> f_ty f = TBase b -> ya_default (f_attrs f) = Some d ->
     spread_base E b (x_default x d) (x_default x' d)) /\
  (forall id td td' vs d d', nth_error E id = Some td -> nth_error E' id = Some td' ->
     t_body td = DEnum vs d -> t_body td' = DEnum vs d' -> spread E id d d').

(** ** Documents *)
(** The type of a flattened field is read from a document of its own, whose
    root element is checked: the structs that are types of flattened fields
    accept the namespaces of the elements that are read by structs with
    flattened fields. *)
Definition flattened_type (E : env) (td : typedef) : Prop :=
  exists id td0 fs f id1, struct_type E id td0 fs /\ In f fs /\ flat_field f = true /\
    base_of (f_ty f) = BUser id1 /\ nth_error E id1 = Some td.
(** Some field or variant takes an element of this name for a value of the
    type [id]. *)
Inductive read_as (E : env) (n : name) (id : nat) : Prop :=
| ra_field : forall id0 td fs f, struct_type E id0 td fs -> In f fs -> flabel (t_attrs td) f = elabel n ->
    base_of (f_ty f) = BUser id -> read_as E n id
| ra_variant : forall id0 td vs df i b t, nth_error E id0 = Some td -> t_body td = DEnum vs df ->
    variant_for vs (n_local n) = Some (i, VbNew b t) -> base_of t = BUser id -> read_as E n id.
Inductive Welcome (E : env) : nat -> node -> Prop :=
| wel_txt : forall id s, Welcome E id (Txt s)
| wel_elem : forall id n a m ks,
    (forall td fs f, struct_type E id td fs -> In f fs -> flat_field f = true ->
       forall td1, flattened_type E td1 -> bad_namespace (t_attrs td1) n = None) ->
    (forall cn ca cm ck id1, In (Elem cn ca cm ck) ks -> read_as E cn id1 -> Welcome E id1 (Elem cn ca cm ck)) ->
    Welcome E id (Elem n a m ks).
