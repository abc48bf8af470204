(** * Definitions that change: vocabulary (C54). *)
From Verif Require Import Str Xml Schema.

(** A field with the same place in documents that asks for no more: its type
    is the same, or it has become an [Option]; its default is the same, or it
    has got one.  What only concerns writing and the Rust name of a renamed
    field are free. *)
Definition looser_field (f f' : field) : Prop :=
  field_local f' = field_local f /\
  ya_prefix (f_attrs f') = ya_prefix (f_attrs f) /\
  ya_attribute (f_attrs f') = ya_attribute (f_attrs f) /\
  ya_flatten (f_attrs f') = ya_flatten (f_attrs f) /\
  ya_text (f_attrs f') = ya_text (f_attrs f) /\
  ((f_ty f' = f_ty f /\ (ya_default (f_attrs f) = None \/ ya_default (f_attrs f') = ya_default (f_attrs f))) \/
   (exists b, f_ty f = TBase b /\ f_ty f' = TOpt b /\ ya_default (f_attrs f) = None)).

(** The payload of a variant likewise. *)
Definition looser_variant (v v' : variant) : Prop :=
  v_label v' = v_label v /\ v_attrs v' = v_attrs v /\
  match v_body v, v_body v' with
  | VbUnit, VbUnit => True
  | VbNew _ t, VbNew _ t' => t' = t \/ exists b, t = TBase b /\ t' = TOpt b
  | VbNamed _, VbNamed _ => True
  | _, _ => False
  end.

Definition looser_type (td td' : typedef) : Prop :=
  t_name td' = t_name td /\ t_attrs td' = t_attrs td /\
  match t_body td, t_body td' with
  | DStruct fs, DStruct fs' => Forall2 looser_field fs fs'
  | DEnum vs d, DEnum vs' d' => Forall2 looser_variant vs vs' /\ d' = d
  | DPrim k, DPrim k' => k' = k
  | _, _ => False
  end.

Definition looser (E E' : env) : Prop := Forall2 looser_type E E'.

(** No field is both flattened and optional. *)
Definition no_flattened_option (E : env) : Prop :=
  forall td fs f b, In td E -> t_body td = DStruct fs -> In f fs ->
    ya_attribute (f_attrs f) = false -> ya_flatten (f_attrs f) = true -> f_ty f <> TOpt b.

(** The values of the two definitions that stand for the same: equal but for
    the [Some] around what has become optional. *)
Section Kept.
  Variables (x : ext) (E E' : env).

  Inductive kept : nat -> value -> value -> Prop :=
  | k_struct : forall id td td' fs fs' l l',
      nth_error E id = Some td -> nth_error E' id = Some td' ->
      t_body td = DStruct fs -> t_body td' = DStruct fs' ->
      kept_fields fs fs' l l' -> kept id (VRec l) (VRec l')
  | k_unit : forall id td vs df i v,
      nth_error E id = Some td -> t_body td = DEnum vs df -> nth_error vs i = Some v -> v_body v = VbUnit ->
      kept id (VVar i []) (VVar i [])
  | k_payload : forall id td td' vs vs' df df' i u u' b b' t t' v w,
      nth_error E id = Some td -> nth_error E' id = Some td' ->
      t_body td = DEnum vs df -> t_body td' = DEnum vs' df' ->
      nth_error vs i = Some u -> nth_error vs' i = Some u' ->
      v_body u = VbNew b t -> v_body u' = VbNew b' t' ->
      kept_item t t' v w -> kept id (VVar i [v]) (VVar i [w])
  | k_default : forall id td vs df,
      nth_error E id = Some td -> t_body td = DEnum vs df -> kept id df df
  | k_prim : forall id td k v,
      nth_error E id = Some td -> t_body td = DPrim k -> kept id v v
  with kept_base : base -> value -> value -> Prop :=
  | kb_simple : forall s v, kept_base (BSimple s) v v
  | kb_user : forall id v w, kept id v w -> kept_base (BUser id) v w
  with kept_list : base -> list value -> list value -> Prop :=
  | kl_nil : forall b, kept_list b [] []
  | kl_cons : forall b v w l l', kept_base b v w -> kept_list b l l' -> kept_list b (v :: l) (w :: l')
  with kept_item : fty -> fty -> value -> value -> Prop :=
  | ki_same : forall b v w, kept_base b v w -> kept_item (TBase b) (TBase b) v w
  | ki_none : forall b, kept_item (TOpt b) (TOpt b) (VOpt None) (VOpt None)
  | ki_some : forall b v w, kept_base b v w -> kept_item (TOpt b) (TOpt b) (VOpt (Some v)) (VOpt (Some w))
  | ki_vec : forall b l l', kept_list b l l' -> kept_item (TVec b) (TVec b) (VVec l) (VVec l')
  | ki_optvec_none : forall b, kept_item (TOptVec b) (TOptVec b) (VOpt None) (VOpt None)
  | ki_optvec : forall b v w, kept_base b v w -> kept_item (TOptVec b) (TOptVec b) (VOpt (Some v)) (VOpt (Some w))
  | ki_optional : forall b v w, kept_base b v w -> kept_item (TBase b) (TOpt b) v (VOpt (Some w))
  with kept_fields : list field -> list field -> list value -> list value -> Prop :=
  | kf_nil : kept_fields [] [] [] []
  | kf_cons : forall f f' fs fs' v w l l',
      kept_item (f_ty f) (f_ty f') v w -> kept_fields fs fs' l l' ->
      kept_fields (f :: fs) (f' :: fs') (v :: l) (w :: l')
  | kf_default : forall f f' fs fs' d l l',
      ya_default (f_attrs f) = Some d -> ya_default (f_attrs f') = Some d -> kept_fields fs fs' l l' ->
      kept_fields (f :: fs) (f' :: fs') (x_default x d :: l) (x_default x d :: l').
End Kept.
