(** * Vocabulary for C58: structs written in place of flattened fields. *)
From Verif Require Import Str Num Xml XmlText Reader Schema SpecTree SpecRound SpecOut.
Open Scope list_scope.

(** A flattened field with no other attribute that counts for writing. *)
Definition plain_flat (f : field) : Prop :=
  flat_field f = true /\ ya_skip (f_attrs f) = false /\ ya_skip_if (f_attrs f) = None /\
  ya_default (f_attrs f) = None /\ ya_text (f_attrs f) = false /\ ya_cdata (f_attrs f) = false.

(** Whether the field is written does not depend on the value, or the value is
    the same. *)
Definition kept_alike (f : field) (v v' : value) : Prop :=
  (ya_skip_if (f_attrs f) = None /\ ya_default (f_attrs f) = None) \/ v = v'.

(** The struct types are named alike; the second binds the prefixes of the
    first and those of [ns]. *)
Definition same_root (td td' : typedef) (ns : nsmap) : Prop :=
  t_name td' = t_name td /\ ya_rename (t_attrs td') = ya_rename (t_attrs td) /\
  ya_prefix (t_attrs td') = ya_prefix (t_attrs td) /\ ya_flatten (t_attrs td') = ya_flatten (t_attrs td) /\
  ya_default_namespace (t_attrs td') = ya_default_namespace (t_attrs td) /\
  (forall pu, In pu (ya_namespaces (t_attrs td')) <-> In pu (ya_namespaces (t_attrs td) ++ ns)).

(** [v] of a type of [E] and [v'] of the type of [E'] with the same number,
    where the structs of [E'] have, in place of some flattened fields of struct
    type, the fields of those structs; and these again, to any depth.  With
    [same], the structs whose fields are moved have the default namespace of
    the struct that they are moved to. *)
Section Inline.
Variable same : bool.
Variables E E' : env.

Inductive Inlined : nat -> value -> value -> Prop :=
| inl_rec : forall id td td' fs fs' vs vs' ns,
    nth_error E id = Some td -> nth_error E' id = Some td' ->
    t_body td = DStruct fs -> t_body td' = DStruct fs' -> same_root td td' ns ->
    InlFields (ya_default_namespace (t_attrs td)) fs vs fs' vs' ns -> Inlined id (VRec vs) (VRec vs')
| inl_var : forall id td vars d i vr l l',
    nth_error E id = Some td -> nth_error E' id = Some td ->
    t_body td = DEnum vars d -> nth_error vars i = Some vr -> InlBody (v_body vr) l l' ->
    Inlined id (VVar i l) (VVar i l')
| inl_prim : forall id td k v,
    nth_error E id = Some td -> nth_error E' id = Some td -> t_body td = DPrim k -> Inlined id v v
with InlB : base -> value -> value -> Prop :=
| inlb_simple : forall s v, InlB (BSimple s) v v
| inlb_user : forall id v v', Inlined id v v' -> InlB (BUser id) v v'
with InlL : base -> list value -> list value -> Prop :=
| inll_nil : forall b, InlL b [] []
| inll_cons : forall b v v' l l', InlB b v v' -> InlL b l l' -> InlL b (v :: l) (v' :: l')
with InlTy : fty -> value -> value -> Prop :=
| inlt_base : forall b v v', InlB b v v' -> InlTy (TBase b) v v'
| inlt_none : forall b, InlTy (TOpt b) (VOpt None) (VOpt None)
| inlt_some : forall b v v', InlB b v v' -> InlTy (TOpt b) (VOpt (Some v)) (VOpt (Some v'))
| inlt_vec : forall b l l', InlL b l l' -> InlTy (TVec b) (VVec l) (VVec l')
| inlt_novec : forall b, InlTy (TOptVec b) (VOpt None) (VOpt None)
| inlt_optvec : forall b l l', InlL b l l' -> InlTy (TOptVec b) (VOpt (Some (VVec l))) (VOpt (Some (VVec l')))
with InlBody : vbody -> list value -> list value -> Prop :=
| inlv_unit : InlBody VbUnit [] []
| inlv_new : forall fl t v v', InlTy t v v' -> InlBody (VbNew fl t) [v] [v']
| inlv_named : forall fs vs vs', InlNamed fs vs vs' -> InlBody (VbNamed fs) vs vs'
with InlNamed : list field -> list value -> list value -> Prop :=
| inln_nil : InlNamed [] [] []
| inln_cons : forall f fs v v' vs vs', InlTy (f_ty f) v v' -> InlNamed fs vs vs' -> InlNamed (f :: fs) (v :: vs) (v' :: vs')
with InlFields : option string -> list field -> list value -> list field -> list value -> nsmap -> Prop :=
| inlf_nil : forall dn, InlFields dn [] [] [] [] []
| inlf_keep : forall dn f v v' fs vs fs' vs' ns,
    kept_alike f v v' -> (ya_attribute (f_attrs f) = true -> attribute_type E (base_of (f_ty f))) ->
    InlTy (f_ty f) v v' -> InlFields dn fs vs fs' vs' ns ->
    InlFields dn (f :: fs) (v :: vs) (f :: fs') (v' :: vs') ns
| inlf_flat : forall dn f id td gs vg gs' vg' nsg fs vs fs' vs' ns,
    plain_flat f -> f_ty f = TBase (BUser id) -> nth_error E id = Some td -> t_body td = DStruct gs ->
    (same = true -> ya_default_namespace (t_attrs td) = dn) ->
    InlFields (ya_default_namespace (t_attrs td)) gs vg gs' vg' nsg -> InlFields dn fs vs fs' vs' ns ->
    InlFields dn (f :: fs) (VRec vg :: vs) (gs' ++ fs') (vg' ++ vs') (ya_namespaces (t_attrs td) ++ nsg ++ ns).
End Inline.

(** The types of both environments agree on what a prefix means. *)
Definition agreed_bindings (E E' : env) : Prop :=
  forall p u u', In (p, u) (bindings E ++ bindings E') -> In (p, u') (bindings E ++ bindings E') -> u = u'.

(** [skip_serializing_if] looks at the value of the field only. *)
Definition skip_by_value (x : ext) : Prop :=
  forall g self self' v, x_skip_if x g self v = x_skip_if x g self' v.
