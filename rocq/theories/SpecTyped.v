(** * Well-typed values (C20). *)
From Verif Require Import Str Num Xml XmlText Reader Schema SpecNum.
Open Scope list_scope.

Inductive has_simple : simple -> value -> Prop :=
| hs_string : forall s, has_simple SString (VStr s)
| hs_bool : forall b, has_simple SBool (VBool b)
| hs_int : forall t z, fits t z -> has_simple (SInt t) (VInt z)
| hs_float : forall d z, has_simple (SFloat d) (VFloat z).

Section Typed.
  Variable E : env.

  (** [Typed id v]: [v] is a value of the type number [id] of [E]. *)
  Inductive Typed : nat -> value -> Prop :=
  | ty_struct : forall id td fs vs, nth_error E id = Some td -> t_body td = DStruct fs ->
      FieldsTyped fs vs -> Typed id (VRec vs)
  | ty_unit : forall id td vs d i a l, nth_error E id = Some td -> t_body td = DEnum vs d ->
      nth_error vs i = Some (Variant l a VbUnit) -> Typed id (VVar i [])
  | ty_new : forall id td vs d i l a fl t v, nth_error E id = Some td -> t_body td = DEnum vs d ->
      nth_error vs i = Some (Variant l a (VbNew fl t)) -> FTyped t v -> Typed id (VVar i [v])
  | ty_named : forall id td vs d i l a fs ws, nth_error E id = Some td -> t_body td = DEnum vs d ->
      nth_error vs i = Some (Variant l a (VbNamed fs)) -> FieldsTyped fs ws -> Typed id (VVar i ws)
  | ty_inner : forall id td s v, nth_error E id = Some td -> t_body td = DPrim (PInner s) ->
      has_simple s v -> Typed id v
  | ty_hex : forall id td t mask z, nth_error E id = Some td -> t_body td = DPrim (PHex t mask) ->
      fits t z -> Z.land z mask = z -> Typed id (VInt z)
  | ty_user : forall id td z, nth_error E id = Some td -> t_body td = DPrim PUser ->
      Typed id (VUser z)
  with BTyped : base -> value -> Prop :=
  | bt_simple : forall s v, has_simple s v -> BTyped (BSimple s) v
  | bt_user : forall id v, Typed id v -> BTyped (BUser id) v
  with FTyped : fty -> value -> Prop :=
  | ft_base : forall b v, BTyped b v -> FTyped (TBase b) v
  | ft_none : forall b, FTyped (TOpt b) (VOpt None)
  | ft_some : forall b v, BTyped b v -> FTyped (TOpt b) (VOpt (Some v))
  | ft_vec : forall b l, (forall v, In v l -> BTyped b v) -> FTyped (TVec b) (VVec l)
  | ft_ovnone : forall b, FTyped (TOptVec b) (VOpt None)
  | ft_ovsome : forall b l, (forall v, In v l -> BTyped b v) -> FTyped (TOptVec b) (VOpt (Some (VVec l)))
  with FieldsTyped : list field -> list value -> Prop :=
  | fs_nil : FieldsTyped [] []
  | fs_cons : forall f fs v vs, FTyped (f_ty f) v -> FieldsTyped fs vs -> FieldsTyped (f :: fs) (v :: vs).

  (** What the user supplies has the right type: [default = "f"] functions and
      [Default] of enums.  [Option<Vec<_>>] fields are rejected by the macro
      (expand_struct.rs:284,415; expand_enum.rs). *)
  Definition user_code_typed (x : ext) : Prop :=
    forall id td, nth_error E id = Some td ->
    match t_body td with
    | DStruct fs => forall f, In f fs ->
        (forall b, f_ty f <> TOptVec b) /\
        (forall g b, ya_default (f_attrs f) = Some g -> f_ty f = TBase b -> BTyped b (x_default x g))
    | DEnum vs d => Typed id d /\
        (forall l a fl b, In (Variant l a (VbNew fl (TOptVec b))) vs -> False)
    | DPrim _ => True
    end.
End Typed.
