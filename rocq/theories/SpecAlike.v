(** * Vocabulary for C42: documents that differ in prefixes, namespace
      declarations and the order of attributes. *)
From Verif Require Import Str Xml XmlText Schema SpecTree SpecText SpecStruct SpecComplete.
From Coq Require Export Permutation.
Open Scope list_scope.

(** Same local name and namespace; the prefix may differ. *)
Definition same_expanded (n n' : name) : Prop := n_local n = n_local n' /\ n_ns n = n_ns n'.

(** An attribute without its prefix. *)
Definition attr_key (b : attr) : string * option string * string :=
  (n_local (at_name b), n_ns (at_name b), at_value b).

(** The same event but for prefixes, declarations and the order of the
    attributes. *)
Definition same_event (e e' : event) : Prop :=
  match e, e' with
  | EStart n a _, EStart n' a' _ => same_expanded n n' /\ Permutation (map attr_key a) (map attr_key a')
  | EEnd n, EEnd n' => same_expanded n n'
  | _, _ => e = e'
  end.
Definition same_document (s s' : stream) : Prop :=
  Forall2 same_event (markup s) (markup s') /\ s_fin s = s_fin s'.

(** No two attributes of an element share their local name. *)
Definition distinct_locals (e : event) : Prop :=
  match e with EStart _ a _ => NoDup (map (fun b => n_local (at_name b)) a) | _ => True end.

(** ** A weaker condition *)
(** The values of the attributes with a given local name. *)
Definition values_of (l : string) (a : list attr) : list string :=
  map at_value (filter (fun b => String.eqb (n_local (at_name b)) l) a).

Definition alike_event (e e' : event) : Prop :=
  match e, e' with
  | EStart n a _, EStart n' a' _ => same_expanded n n' /\ (forall l, values_of l a = values_of l a')
  | EEnd n, EEnd n' => same_expanded n n'
  | _, _ => e = e'
  end.

(** Comments, processing instructions and XML declarations do not count. *)
Definition alike_source (s s' : stream) : Prop :=
  Forall2 alike_event (markup s) (markup s') /\ s_fin s = s_fin s'.

(** No struct has a flattened field. *)
Definition unflattened (E : env) : Prop :=
  forall td fs, In td E -> t_body td = DStruct fs -> flattens fs = false.

(** ** For types with flattened fields *)
(** No element gives another meaning to a prefix in scope (the default
    namespace included); [o]: the bindings around the tree. *)
Inductive Steady : nsmap -> node -> Prop :=
| steady_txt : forall o s, Steady o (Txt s)
| steady_elem : forall o n a m ks,
    (forall p u, ns_get o p = Some u -> ns_get m p = Some u) ->
    (forall k, In k ks -> Steady m k) ->
    Steady o (Elem n a m ks).
