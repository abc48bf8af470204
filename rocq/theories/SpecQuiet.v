(** * New fields that are left empty: vocabulary (C66). *)
From Verif Require Import Str Num Xml XmlText Schema Ser SpecTree SpecText SpecStruct SpecEnc SpecSer SpecMove.
Open Scope list_scope.

(** The old fields are in their old order. *)
Definition in_order (P : nat -> plan) (E : env) : Prop :=
  forall id td fs, struct_type E id td fs -> old_fields (P id) = seq 0 (List.length fs).

(** A field of which nothing is written when it has the value of a missing
    one: an [Option], a [Vec], or one that is left out when it is equal to its
    default.  A text field is written even if it is [None], and an attribute is
    not left out before its value has been written. *)
Definition leaves_no_trace (x : ext) (E' : env) (f : field) : Prop :=
  match f_ty f with
  | TOpt _ | TVec _ => ya_attribute (f_attrs f) = true \/ (ya_text (f_attrs f) = false /\ ya_cdata (f_attrs f) = false)
  | TOptVec (BSimple _) => ya_attribute (f_attrs f) = false /\ ya_text (f_attrs f) = false /\ ya_cdata (f_attrs f) = false
  | TOptVec (BUser _) => False
  | TBase b =>
      if ya_attribute (f_attrs f)
      then match b with
           | BSimple s => forall d, ya_default (f_attrs f) = Some d -> show_simple x s (x_default x d) <> None
           | BUser id => forall d, ya_default (f_attrs f) = Some d -> encode x E' id (x_default x d) Inside <> None
           end
      else ya_text (f_attrs f) = false
  end /\
  forall d, ya_default (f_attrs f) = Some d -> Equal x (x_default x d) (x_default x d).
Definition quiet (x : ext) (P : nat -> plan) (E' : env) : Prop :=
  forall id td fs j f, struct_type E' id td fs -> nth_error (P id) j = Some None -> nth_error fs j = Some f -> leaves_no_trace x E' f.

(** The functions of [default = ".."] give the same values as before in their
    new form, and those of [skip_serializing_if] the same answers. *)
Definition functions_moved (x x' : ext) (P : nat -> plan) (E E' : env) : Prop :=
  forall id td fs f, struct_type E id td fs -> In f fs ->
    (forall d, ya_default (f_attrs f) = Some d -> moved_item x' P E E' (f_ty f) (x_default x d) (x_default x' d)) /\
    (forall g l l' v w, ya_skip_if (f_attrs f) = Some g -> moved x' P E E' id (VRec l) (VRec l') -> moved_item x' P E E' (f_ty f) v w ->
       x_skip_if x' g (VRec l') w = x_skip_if x g (VRec l) v).
