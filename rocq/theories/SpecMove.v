(** * Definitions whose fields change places, or that get more fields:
      vocabulary (C57). *)
From Verif Require Import Str Num Xml XmlText Schema SpecTree SpecStruct SpecSource.
From Coq Require Import Permutation.
Open Scope list_scope.

(** Where the fields of the new definition of a struct come from: [Some k] is
    field [k] of the old definition, [None] a field it did not have. *)
Definition plan := list (option nat).
Definition old_fields (p : plan) : list nat := flat_map (fun o => match o with Some k => [k] | None => [] end) p.

(** All fields are still there; a new one may be missing in documents. *)
Definition rearranged_fields (x : ext) (p : plan) (fs fs' : list field) : Prop :=
  Permutation (old_fields p) (seq 0 (List.length fs)) /\
  Forall2 (fun o f => match o with
                      | Some k => nth_error fs k = Some f
                      | None => missing_value x f <> None /\ flat_field f = false
                      end) p fs'.

(** [P id] is the plan for the struct number [id].  Enums and newtypes keep
    their definitions, but for the default of an enum, which is a value. *)
Definition rearranged_type (x : ext) (p : plan) (td td' : typedef) : Prop :=
  t_name td' = t_name td /\ t_attrs td' = t_attrs td /\
  match t_body td, t_body td' with
  | DStruct fs, DStruct fs' => rearranged_fields x p fs fs'
  | DEnum vs _, DEnum vs' _ => vs' = vs
  | DPrim k, DPrim k' => k' = k
  | _, _ => False
  end.
Definition rearranged (x : ext) (P : nat -> plan) (E E' : env) : Prop :=
  forall id, match nth_error E id, nth_error E' id with
             | Some td, Some td' => rearranged_type x (P id) td td'
             | None, None => True
             | _, _ => False
             end.

(** Element fields that overtake each other have different labels. *)
Definition keeps_order (ra : yattr) (fs : list field) (p : plan) : Prop :=
  forall i j k m f g, i < j -> nth_error p i = Some (Some k) -> nth_error p j = Some (Some m) -> m < k ->
    nth_error fs k = Some f -> nth_error fs m = Some g -> elem_field f -> elem_field g -> flabel ra f <> flabel ra g.
Definition keeps_orders (P : nat -> plan) (E : env) : Prop :=
  forall id td fs, struct_type E id td fs -> keeps_order (t_attrs td) fs (P id).

(** The same values, put in their new places; new fields have the values of
    missing ones. *)
Section Moved.
  Variables (x : ext) (P : nat -> plan) (E E' : env).

  Inductive moved : nat -> value -> value -> Prop :=
  | m_struct : forall id td td' fs fs' l l',
      struct_type E id td fs -> struct_type E' id td' fs' -> List.length l = List.length fs ->
      moved_fields (P id) fs' l l' -> moved id (VRec l) (VRec l')
  | m_variant : forall id td vs df i va b t v w,
      nth_error E id = Some td -> t_body td = DEnum vs df -> nth_error vs i = Some va -> v_body va = VbNew b t ->
      moved_item t v w -> moved id (VVar i [v]) (VVar i [w])
  | m_unit : forall id td vs df i va,
      nth_error E id = Some td -> t_body td = DEnum vs df -> nth_error vs i = Some va -> v_body va = VbUnit ->
      moved id (VVar i []) (VVar i [])
  | m_named : forall id td vs df i va fs l l',
      nth_error E id = Some td -> t_body td = DEnum vs df -> nth_error vs i = Some va -> v_body va = VbNamed fs ->
      List.length l = List.length fs -> moved_fields (map Some (seq 0 (List.length fs))) fs l l' ->
      moved id (VVar i l) (VVar i l')
  | m_prim : forall id td k v, nth_error E id = Some td -> t_body td = DPrim k -> moved id v v
  with moved_base : base -> value -> value -> Prop :=
  | mb_simple : forall s v, moved_base (BSimple s) v v
  | mb_user : forall id v w, moved id v w -> moved_base (BUser id) v w
  with moved_list : base -> list value -> list value -> Prop :=
  | ml_nil : forall b, moved_list b [] []
  | ml_cons : forall b v w l l', moved_base b v w -> moved_list b l l' -> moved_list b (v :: l) (w :: l')
  with moved_item : fty -> value -> value -> Prop :=
  | mi_base : forall b v w, moved_base b v w -> moved_item (TBase b) v w
  | mi_none : forall b, moved_item (TOpt b) (VOpt None) (VOpt None)
  | mi_some : forall b v w, moved_base b v w -> moved_item (TOpt b) (VOpt (Some v)) (VOpt (Some w))
  | mi_vec : forall b l l', moved_list b l l' -> moved_item (TVec b) (VVec l) (VVec l')
  | mi_optvec_none : forall b, moved_item (TOptVec b) (VOpt None) (VOpt None)
  | mi_optvec : forall b v w, moved_base b v w -> moved_item (TOptVec b) (VOpt (Some v)) (VOpt (Some w))
  with moved_fields : plan -> list field -> list value -> list value -> Prop :=
  | mf_nil : forall l, moved_fields [] [] l []
  | mf_old : forall p k f fs' l l' v w, nth_error l k = Some v -> moved_item (f_ty f) v w ->
      moved_fields p fs' l l' -> moved_fields (Some k :: p) (f :: fs') l (w :: l')
  | mf_new : forall p f fs' l l' w, missing_value x f = Some w ->
      moved_fields p fs' l l' -> moved_fields (None :: p) (f :: fs') l (w :: l').
End Moved.

(** The functions of [default = ".."] and the [Default]s of enums give the
    same values as before, in their new form. *)
Definition with_defaults (x : ext) (d : string -> value) : ext :=
  Ext (x_fshow x) (x_fparse x) (x_feq x) d (x_skip_if x) (x_ushow x) (x_uparse x).
Definition defaults_moved (x x' : ext) (P : nat -> plan) (E E' : env) : Prop :=
  (forall id td fs f b d, struct_type E id td fs -> In f fs -> f_ty f = TBase b -> ya_default (f_attrs f) = Some d ->
     moved_base x' P E E' b (x_default x d) (x_default x' d)) /\
  (forall id td td' vs d d', nth_error E id = Some td -> nth_error E' id = Some td' ->
     t_body td = DEnum vs d -> t_body td' = DEnum vs d' -> moved x' P E E' id d d').

(** The event has nothing for any of the new fields. *)
Definition nothing_new (P : nat -> plan) (E' : env) (e : event) : Prop :=
  forall id td fs j f, struct_type E' id td fs -> nth_error (P id) j = Some None -> nth_error fs j = Some f ->
    ~ supplies (t_attrs td) f e.

(** No type is read from a text other than the document: no flattened fields,
    and attributes are of simple types, newtypes, or enums of unit variants. *)
Definition closed_attribute (E : env) (f : field) : Prop :=
  match base_of (f_ty f) with
  | BSimple _ => True
  | BUser id => forall td, nth_error E id = Some td ->
      match t_body td with
      | DStruct _ => False
      | DEnum vs _ => forall v, In v vs -> v_body v = VbUnit
      | DPrim _ => True
      end
  end.
Definition one_text (E : env) : Prop :=
  forall id td fs f, struct_type E id td fs -> In f fs ->
    flat_field f = false /\ (ya_attribute (f_attrs f) = true -> closed_attribute E f).
