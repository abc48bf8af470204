(** * Vocabulary: the events of one field among the others, for a serializer in
      any state (C22, C25). *)
From Verif Require Import Str Num Xml XmlText Reader Schema Ser SpecTree SpecSer.
Open Scope list_scope.

(** The element of a derived type is written unless the type is flattened or the
    serializer was asked to leave it out. *)
Definition opens (td : typedef) (w : wstate) : bool :=
  (negb (ya_flatten (t_attrs td)) && negb (w_skip w))%bool.

(** [body], inside of an element or not. *)
Definition Frame (open : bool) (body l : list wevent) : Prop :=
  if open then exists n a m, l = WStart n a m :: body ++ [WEnd None] else l = body.

(** Between the states [w] and [u] a struct was written: the contributions of
    the fields [fs1], then [mid], then the contributions of the fields [fs2]. *)
Definition Among (x : ext) (E : env) (td : typedef) (self : value)
    (fs1 : list field) (vs1 : list value) (mid : list wevent) (fs2 : list field) (vs2 : list value)
    (w u : wstate) : Prop :=
  exists p1 p2 l,
    Forall3 (FieldOut x E (t_attrs td) self) fs1 vs1 p1 /\
    Forall3 (FieldOut x E (t_attrs td) self) fs2 vs2 p2 /\
    Frame (opens td w) (concat p1 ++ mid ++ concat p2) l /\ w_evs u = w_evs w ++ l.

(** A field of a struct-like enum variant. *)
Inductive NamedOut (x : ext) (E : env) (ra : yattr) (f : field) : value -> list wevent -> Prop :=
| no_simple : forall s v t, f_ty f = TBase (BSimple s) -> show_simple x s v = Some t ->
    NamedOut x E ra f v [WStart (qname (field_qname ra f)) [] []; WChars t; WEnd None]
| no_user : forall id v l, f_ty f = TBase (BUser id) -> Written x E id (Some (field_qname ra f)) v l ->
    NamedOut x E ra f v l
| no_users : forall id items parts, f_ty f = TVec (BUser id) ->
    Forall2 (Written x E id (Some (field_qname ra f))) items parts ->
    NamedOut x E ra f (VVec items) (concat parts)
| no_simples : forall s items texts, f_ty f = TVec (BSimple s) ->
    Forall2 (fun v t => show_simple x s v = Some t) items texts ->
    NamedOut x E ra f (VVec items) (map WChars texts)
| no_option : forall b o, f_ty f = TOpt b \/ f_ty f = TOptVec b -> NamedOut x E ra f (VOpt o) [].

Definition AmongNamed (x : ext) (E : env) (td : typedef)
    (fs1 : list field) (vs1 : list value) (mid : list wevent) (fs2 : list field) (vs2 : list value)
    (w u : wstate) : Prop :=
  exists p1 p2 l,
    Forall3 (NamedOut x E (t_attrs td)) fs1 vs1 p1 /\ Forall3 (NamedOut x E (t_attrs td)) fs2 vs2 p2 /\
    Frame (opens td w) (concat p1 ++ mid ++ concat p2) l /\ w_evs u = w_evs w ++ l.

(** Variant number [i] of enum type [id]. *)
Definition variant_of (E : env) (id : nat) (td : typedef) (i : nat) (vr : variant) : Prop :=
  nth_error E id = Some td /\ exists vars d, t_body td = DEnum vars d /\ nth_error vars i = Some vr.

(** The start tag of a written struct: the attributes of the fields [fs1], then
    [mid], then those of the fields [fs2]. *)
Definition AmongAttrs (x : ext) (E : env) (td : typedef) (self : value)
    (fs1 : list field) (vs1 : list value) (mid : list attr) (fs2 : list field) (vs2 : list value)
    (l : list wevent) : Prop :=
  exists n m body a1 a2 child,
    l = WStart n (concat a1 ++ mid ++ concat a2 ++ child) m :: body /\
    Forall3 (AttrOut x E (t_attrs td) self) fs1 vs1 a1 /\
    Forall3 (AttrOut x E (t_attrs td) self) fs2 vs2 a2 /\
    (flattens (fs1 ++ fs2) = false -> child = []).
