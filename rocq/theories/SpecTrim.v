(** * Definitions that get more fields, seen from the program that does not
      have them: vocabulary (C65). *)
From Verif Require Import Str Num Xml XmlText Reader Schema SpecTree SpecStruct SpecMove SpecSpread SpecDeclared.
Open Scope list_scope.

(** [P id] says for each field of the old struct number [id] where it is in
    the new one.  The other fields of the new struct are new.  They are of any
    kind and need not be optional. *)
Definition places := nat -> list nat.

(** The element fields of the new struct have different labels.  If the old
    struct has flattened fields, which take what no other field takes, the new
    one has no more element fields. *)
Definition grown_fields (p : list nat) (ra : yattr) (fs fs' : list field) : Prop :=
  NoDup p /\ Forall2 (fun j f => nth_error fs' j = Some f) p fs /\
  NoDup (element_labels ra fs') /\
  (flattens fs = true -> forall f, In f fs' -> elem_field f -> In f fs).
Definition grown_type (p : list nat) (td td' : typedef) : Prop :=
  t_name td' = t_name td /\ t_attrs td' = t_attrs td /\
  match t_body td, t_body td' with
  | DStruct fs, DStruct fs' => grown_fields p (t_attrs td) fs fs'
  | DEnum vs _, DEnum vs' _ => vs' = vs
  | DPrim k, DPrim k' => k' = k
  | _, _ => False
  end.

(** [E] is complete: it has the types it mentions.  [E'] may have more types. *)
Definition complete (E : env) : Prop :=
  forall id td i, nth_error E id = Some td -> mentions td i -> exists ti, nth_error E i = Some ti.
Definition grown (P : places) (E E' : env) : Prop :=
  forall id td, nth_error E id = Some td -> exists td', nth_error E' id = Some td' /\ grown_type (P id) td td'.

(** The value without the new fields. *)
Section Trimmed.
  Variables (P : places) (E : env).

  Inductive trimmed : nat -> value -> value -> Prop :=
  | tr_struct : forall id td fs l l', struct_type E id td fs -> trimmed_fields (P id) fs l l' -> trimmed id (VRec l) (VRec l')
  | tr_variant : forall id td vs df i va b t v w,
      nth_error E id = Some td -> t_body td = DEnum vs df -> nth_error vs i = Some va -> v_body va = VbNew b t ->
      trimmed_item t v w -> trimmed id (VVar i [v]) (VVar i [w])
  | tr_unit : forall id td vs df i va,
      nth_error E id = Some td -> t_body td = DEnum vs df -> nth_error vs i = Some va -> v_body va = VbUnit ->
      trimmed id (VVar i []) (VVar i [])
  | tr_named : forall id td vs df i va fs l l',
      nth_error E id = Some td -> t_body td = DEnum vs df -> nth_error vs i = Some va -> v_body va = VbNamed fs ->
      trimmed_fields (seq 0 (List.length fs)) fs l l' -> trimmed id (VVar i l) (VVar i l')
  | tr_prim : forall id td k v, nth_error E id = Some td -> t_body td = DPrim k -> trimmed id v v
  with trimmed_base : base -> value -> value -> Prop :=
  | trb_simple : forall s v, trimmed_base (BSimple s) v v
  | trb_user : forall id v w, trimmed id v w -> trimmed_base (BUser id) v w
  with trimmed_list : base -> list value -> list value -> Prop :=
  | trl_nil : forall b, trimmed_list b [] []
  | trl_cons : forall b v w l l', trimmed_base b v w -> trimmed_list b l l' -> trimmed_list b (v :: l) (w :: l')
  with trimmed_item : fty -> value -> value -> Prop :=
  | tri_base : forall b v w, trimmed_base b v w -> trimmed_item (TBase b) v w
  | tri_none : forall b, trimmed_item (TOpt b) (VOpt None) (VOpt None)
  | tri_some : forall b v w, trimmed_base b v w -> trimmed_item (TOpt b) (VOpt (Some v)) (VOpt (Some w))
  | tri_vec : forall b l l', trimmed_list b l l' -> trimmed_item (TVec b) (VVec l) (VVec l')
  | tri_optvec_none : forall b, trimmed_item (TOptVec b) (VOpt None) (VOpt None)
  | tri_optvec : forall b v w, trimmed_base b v w -> trimmed_item (TOptVec b) (VOpt (Some v)) (VOpt (Some w))
  (** field [j] of the new value is the one of the old *)
  with trimmed_fields : list nat -> list field -> list value -> list value -> Prop :=
  | trf_nil : forall l', trimmed_fields [] [] [] l'
  | trf_cons : forall j p f fs v w l l', nth_error l' j = Some w -> trimmed_item (f_ty f) v w ->
      trimmed_fields p fs l l' -> trimmed_fields (j :: p) (f :: fs) (v :: l) l'.
End Trimmed.

(** The functions of [default = ".."] and the [Default]s of enums give the
    same values as before, but for the new fields. *)
Definition defaults_trimmed (x x' : ext) (P : places) (E E' : env) : Prop :=
  (forall id td fs f b d, struct_type E id td fs -> In f fs -> f_ty f = TBase b -> ya_default (f_attrs f) = Some d ->
     trimmed_base P E b (x_default x d) (x_default x' d)) /\
  (forall id td td' vs d d', nth_error E id = Some td -> nth_error E' id = Some td' ->
     t_body td = DEnum vs d -> t_body td' = DEnum vs d' -> trimmed P E id d d').
