(** * Vocabulary: trees that can be written and read again without loss, as the
      deserializers of flattened fields do. *)
From Verif Require Import Str Xml XmlText Schema SpecTree SpecText SpecRound.
Open Scope list_scope.

(** At most one text among the children of an element. *)
Definition is_txt (k : node) : bool := match k with Txt _ => true | _ => false end.
Definition few (ks : list node) : Prop := List.length (filter is_txt ks) <= 1.

(** [o]: the bindings around the tree.  Texts have no surrounding white space
    and no control characters; no prefix in scope gets another meaning; names,
    declarations and attributes are well-formed and their prefixes bound. *)
Inductive Rewritable : nsmap -> node -> Prop :=
| rw_txt : forall o s, clean s -> Rewritable o (Txt s)
| rw_elem : forall o n a m ks,
    ns_sorted m -> (forall p u, ns_get o p = Some u -> ns_get m p = Some u) ->
    (forall pu, In pu m -> good_decl pu) ->
    good_name n -> bound [m] n -> n_ns n = n_ns (rname [m] n) ->
    (forall b, In b a -> good_attr [m] b /\ legal_attr (at_value b) = true) ->
    NoDup (map (fun b => name_repr (at_name b)) a) ->
    few ks -> (forall k, In k ks -> Rewritable m k) ->
    Rewritable o (Elem n a m ks).
