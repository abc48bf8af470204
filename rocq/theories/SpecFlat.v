(** * Vocabulary of C34: flattened fields. *)
From Verif Require Import Str Num Xml Reader Schema SpecTree SpecStruct.
Open Scope list_scope.

(** The child is an element of one of the struct's element fields. *)
Definition claimed (ra : yattr) (fs : list field) (k : node) : Prop :=
  exists n a m ks f, k = Elem n a m ks /\ In f fs /\ elem_field f /\ flabel ra f = elabel n.

(** [Unclaimed ra fs kids rest]: [rest] are the other children, in order. *)
Inductive Unclaimed (ra : yattr) (fs : list field) : list node -> list node -> Prop :=
| un_nil : Unclaimed ra fs [] []
| un_drop : forall k ks r, claimed ra fs k -> Unclaimed ra fs ks r -> Unclaimed ra fs (k :: ks) r
| un_keep : forall k ks r, ~ claimed ra fs k -> Unclaimed ra fs ks r -> Unclaimed ra fs (k :: ks) (k :: r).

(** A flattened field. *)
Definition flattened (f : field) : Prop :=
  ya_attribute (f_attrs f) = false /\ ya_flatten (f_attrs f) = true.
