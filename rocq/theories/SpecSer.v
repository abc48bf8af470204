(** * Vocabulary for the serializer properties (C21-C25). *)
From Verif Require Import Str Num Xml XmlText Reader Schema Ser.
Open Scope list_scope.

(** ** Nesting *)
Inductive Nested : list wevent -> Prop :=
| ne_nil : Nested []
| ne_text : forall s l, Nested l -> Nested (WChars s :: l)
| ne_cdata : forall s l, Nested l -> Nested (WCData s :: l)
| ne_elem : forall n a m body l, Nested body -> Nested l ->
    Nested (WStart n a m :: body ++ WEnd None :: l).

(** One element with properly nested content. *)
Definition one_element (n : name) (l : list wevent) : Prop :=
  exists a m body, l = WStart n a m :: body ++ [WEnd None] /\ Nested body.

(** Types written as an element of their own. *)
Definition has_element (td : typedef) : Prop :=
  (exists k, t_body td = DPrim k) \/ ya_flatten (t_attrs td) = false.

(** ** Types the macros accept (YaSerialize)

    Text and CDATA fields are Strings (or Option<String> for text);
    [Option<Vec<_>>] only of simple types and not as an attribute; payloads
    are no [Option<Vec<_>>]; a Vec in a struct-like variant has no Strings. *)
Definition field_serializable (f : field) : Prop :=
  if ya_attribute (f_attrs f) then forall b, f_ty f <> TOptVec b
  else if ya_text (f_attrs f) then f_ty f = TBase (BSimple SString) \/ f_ty f = TOpt (BSimple SString)
  else if ya_cdata (f_attrs f) then f_ty f = TBase (BSimple SString)
  else forall id, f_ty f <> TOptVec (BUser id).
Definition variant_serializable (vr : variant) : Prop :=
  match v_body vr with
  | VbUnit => True
  | VbNew _ t => forall b, t <> TOptVec b
  | VbNamed fs => forall f, In f fs -> f_ty f <> TVec (BSimple SString)
  end.
Definition serializable (E : env) : Prop :=
  forall id td, nth_error E id = Some td ->
  match t_body td with
  | DStruct fs => forall f, In f fs -> field_serializable f
  | DEnum vs _ => forall vr, In vr vs -> variant_serializable vr
  | DPrim _ => True
  end.

(** ** What is written

    [Written x E id o v l]: serializing [v] with a writer that accepts
    everything, asked to use the element name [o] ([None]: the name of the
    type), succeeds and writes the events [l], whatever the serializer has done
    before. *)
Definition Written (x : ext) (E : env) (id : nat) (o : option string) (v : value) (l : list wevent) : Prop :=
  forall w, w_skip w = false -> w_name w = o ->
  exists w', ser x E id v (fun _ => false) w = (SOk tt, w') /\
             w_evs w' = w_evs w ++ l /\ w_stack w' = w_stack w.

(** The same when asked to leave out the element itself. *)
Definition Content (x : ext) (E : env) (id : nat) (v : value) (l : list wevent) : Prop :=
  forall w, w_skip w = true ->
  exists w', ser x E id v (fun _ => false) w = (SOk tt, w') /\
             w_evs w' = w_evs w ++ l /\ w_stack w' = w_stack w.

(** Equal values, as derived [PartialEq] says: floats by their own notion
    ([x_feq]), everything else part by part. *)
Inductive Equal (x : ext) : value -> value -> Prop :=
| eq_str : forall s, Equal x (VStr s) (VStr s)
| eq_bool : forall b, Equal x (VBool b) (VBool b)
| eq_int : forall z, Equal x (VInt z) (VInt z)
| eq_float : forall f g, x_feq x f g = true -> Equal x (VFloat f) (VFloat g)
| eq_user : forall z, Equal x (VUser z) (VUser z)
| eq_none : Equal x (VOpt None) (VOpt None)
| eq_some : forall v w, Equal x v w -> Equal x (VOpt (Some v)) (VOpt (Some w))
| eq_vec : forall l m, Forall2 (Equal x) l m -> Equal x (VVec l) (VVec m)
| eq_rec : forall l m, Forall2 (Equal x) l m -> Equal x (VRec l) (VRec m)
| eq_var : forall i l m, Forall2 (Equal x) l m -> Equal x (VVar i l) (VVar i m).

(** The field is to be left out.  [unneeded]: by [skip_serializing_if] or
    [default]. *)
Definition unneeded (x : ext) (self : value) (f : field) (v : value) : Prop :=
  (exists g, ya_skip_if (f_attrs f) = Some g /\ x_skip_if x g self v = true) \/
  (exists d, ya_default (f_attrs f) = Some d /\ Equal x v (x_default x d)).
Definition suppressed (x : ext) (self : value) (f : field) (v : value) : Prop :=
  ya_skip (f_attrs f) = true \/ unneeded x self f v.

Inductive Forall3 {A B C} (P : A -> B -> C -> Prop) : list A -> list B -> list C -> Prop :=
| all_nil : Forall3 P [] [] []
| all_cons : forall a la b lb c lc, P a b c -> Forall3 P la lb lc -> Forall3 P (a :: la) (b :: lb) (c :: lc).

(** The values a field holds: one for a plain field, none or one for an Option,
    the items of a Vec. *)
Definition items_of (t : fty) (v : value) : option (list value) :=
  match t, v with
  | TBase _, _ => Some [v]
  | TOpt _, VOpt None | TOptVec _, VOpt None => Some []
  | TOpt _, VOpt (Some w) => Some [w]
  | TVec _, VVec l | TOptVec _, VOpt (Some (VVec l)) => Some l
  | _, _ => None
  end.

(** One such value of a field named [q], flattened or not. *)
Inductive ItemOut (x : ext) (E : env) (fl : bool) (q : string) : base -> value -> list wevent -> Prop :=
| io_simple : forall s v t, show_simple x s v = Some t ->
    ItemOut x E fl q (BSimple s) v [WStart (qname q) [] []; WChars t; WEnd None]
| io_user : forall id v l, fl = false -> Written x E id (Some q) v l -> ItemOut x E fl q (BUser id) v l
| io_flat : forall id v l, fl = true -> Content x E id v l -> ItemOut x E fl q (BUser id) v l.

Definition base_type (t : fty) : base := match t with TBase b | TOpt b | TVec b | TOptVec b => b end.

(** The events a field of a struct contributes to the content of its element. *)
Inductive FieldOut (x : ext) (E : env) (ra : yattr) (self : value) (f : field) : value -> list wevent -> Prop :=
| fo_attribute : forall v, ya_attribute (f_attrs f) = true -> FieldOut x E ra self f v []
| fo_text : forall t, ya_attribute (f_attrs f) = false -> ya_text (f_attrs f) = true ->
    f_ty f = TBase (BSimple SString) -> FieldOut x E ra self f (VStr t) [WChars t]
| fo_text_some : forall t, ya_attribute (f_attrs f) = false -> ya_text (f_attrs f) = true ->
    f_ty f = TOpt (BSimple SString) -> FieldOut x E ra self f (VOpt (Some (VStr t))) [WChars t]
| fo_text_none : ya_attribute (f_attrs f) = false -> ya_text (f_attrs f) = true ->
    f_ty f = TOpt (BSimple SString) -> FieldOut x E ra self f (VOpt None) [WChars ""]
| fo_suppressed : forall v, ya_attribute (f_attrs f) = false -> ya_text (f_attrs f) = false ->
    suppressed x self f v -> FieldOut x E ra self f v []
| fo_cdata : forall t, ya_attribute (f_attrs f) = false -> ya_text (f_attrs f) = false ->
    ~ suppressed x self f (VStr t) -> ya_cdata (f_attrs f) = true -> f_ty f = TBase (BSimple SString) ->
    FieldOut x E ra self f (VStr t) [WStart (qname (field_qname ra f)) [] []; WCData t; WEnd None]
| fo_items : forall v items parts, ya_attribute (f_attrs f) = false -> ya_text (f_attrs f) = false ->
    ~ suppressed x self f v -> ya_cdata (f_attrs f) = false ->
    items_of (f_ty f) v = Some items ->
    Forall2 (ItemOut x E (ya_flatten (f_attrs f)) (field_qname ra f) (base_type (f_ty f))) items parts ->
    FieldOut x E ra self f v (concat parts).

(** The attributes a field contributes to the start tag of its struct. *)
Inductive AttrText (x : ext) (E : env) : base -> value -> string -> Prop :=
| atx_simple : forall s v t, show_simple x s v = Some t -> AttrText x E (BSimple s) v t
| atx_user : forall id v l, Content x E id v l ->
    AttrText x E (BUser id) v (emit_text (EConf false None) l).
Inductive AttrOut (x : ext) (E : env) (ra : yattr) (self : value) (f : field) : value -> list attr -> Prop :=
| ao_element : forall v, ya_attribute (f_attrs f) = false -> AttrOut x E ra self f v []
| ao_none : forall b, ya_attribute (f_attrs f) = true -> f_ty f = TOpt b -> AttrOut x E ra self f (VOpt None) []
| ao_vec : forall b l, ya_attribute (f_attrs f) = true -> f_ty f = TVec b -> AttrOut x E ra self f (VVec l) []
| ao_unneeded : forall v, ya_attribute (f_attrs f) = true -> unneeded x self f v -> AttrOut x E ra self f v []
| ao_one : forall b v w t, ya_attribute (f_attrs f) = true -> ~ unneeded x self f v ->
    (f_ty f = TBase b /\ v = w \/ f_ty f = TOpt b /\ v = VOpt (Some w)) -> AttrText x E b w t ->
    AttrOut x E ra self f v [Attr (qname (field_qname ra f)) t].

(** ** Write errors

    Types whose serializers report every write error: no enum variant has a
    payload [Option<T>] or [Vec<T>], or a named field [Vec<T>], with [T] a
    number or bool (their serializers drop the result of the write,
    yaserde/src/lib.rs:174-217). *)
Definition variant_reports (vr : variant) : Prop :=
  match v_body vr with
  | VbUnit => True
  | VbNew _ t => forall s, t = TOpt (BSimple s) \/ t = TVec (BSimple s) -> s = SString
  | VbNamed fs => forall f s, In f fs -> f_ty f <> TVec (BSimple s)
  end.
Definition reports_errors (E : env) : Prop :=
  forall id td vars d, nth_error E id = Some td -> t_body td = DEnum vars d ->
  forall vr, In vr vars -> variant_reports vr.

(** The element of a struct: the contributions of the fields [fs1], then [mid],
    then the contributions of the fields [fs2]. *)
Definition Surrounded (x : ext) (E : env) (ra : yattr) (self : value)
    (fs1 : list field) (vs1 : list value) (mid : list wevent) (fs2 : list field) (vs2 : list value)
    (l : list wevent) : Prop :=
  exists n a m p1 p2,
    l = WStart n a m :: concat p1 ++ mid ++ concat p2 ++ [WEnd None] /\
    Forall3 (FieldOut x E ra self) fs1 vs1 p1 /\ Forall3 (FieldOut x E ra self) fs2 vs2 p2.

(** A field written as elements of its own name. *)
Definition plain_element (f : field) : Prop :=
  ya_attribute (f_attrs f) = false /\ ya_text (f_attrs f) = false /\
  ya_cdata (f_attrs f) = false /\ ya_flatten (f_attrs f) = false.

(** Items of this type are written as elements. *)
Definition base_has_element (E : env) (b : base) : Prop :=
  match b with
  | BSimple _ => True
  | BUser id => forall td, nth_error E id = Some td -> has_element td
  end.
