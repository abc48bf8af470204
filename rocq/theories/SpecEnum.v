(** * Vocabulary of C30: enum elements in which no variant is mentioned. *)
From Verif Require Import Str Num Xml Reader Schema SpecTree.
Open Scope list_scope.

(** No variant that can be read (unit or one payload) has the name [s]. *)
Definition no_variant (vs : list variant) (s : string) : Prop :=
  forall v, In v vs -> variant_name v = s -> exists fs, v_body v = VbNamed fs.

(** The text by which an element may name a variant: its local name, or the
    first attribute with the name of the enum's tag. *)
Definition mention (tag : option string) (n : name) (attrs : list attr) : option string :=
  match tag with
  | None => Some (n_local n)
  | Some t =>
      match find (fun a => String.eqb (n_local (at_name a)) t) attrs with
      | Some a => Some (at_value a)
      | None => None
      end
  end.

(** Neither the node itself nor anything inside of it names a variant. *)
Inductive Unknown (tag : option string) (vs : list variant) : node -> Prop :=
| unknown_txt : forall s, no_variant vs s -> Unknown tag vs (Txt s)
| unknown_elem : forall n attrs m kids s,
    mention tag n attrs = Some s -> no_variant vs s ->
    (forall k, In k kids -> Unknown tag vs k) ->
    Unknown tag vs (Elem n attrs m kids).
