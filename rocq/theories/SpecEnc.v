(** * Specification of serialization as document trees.

    Which trees a derived serializer writes for a value, said without writer,
    event sequence or serializer state.  Used by C21-C29, C31-C37. *)
From Verif Require Import Str Num Xml XmlText Reader Schema SpecTree SpecText.
Open Scope list_scope.

(** How a value is asked to be written: only its content, or inside of an
    element with the given name (or with the type's own name). *)
Inductive how := Inside | Under (nm : option string).

Definition oapp {A} (a b : option (list A)) : option (list A) :=
  match a, b with Some l, Some m => Some (l ++ m) | _, _ => None end.
Fixpoint oconcat {A B} (f : A -> option (list B)) (l : list A) : option (list B) :=
  match l with [] => Some [] | a :: r => oapp (f a) (oconcat f r) end.
Definition omap {A B} (f : A -> B) (o : option A) : option B :=
  match o with Some a => Some (f a) | None => None end.

(** The written field is left out: [skip_serializing] (only where it is looked
    at), [skip_serializing_if], [default]. *)
Definition left_out (x : ext) (self v : value) (f : field) (skip_counts : bool) : bool :=
  ((skip_counts && ya_skip (f_attrs f))
   || (match ya_skip_if (f_attrs f) with Some g => x_skip_if x g self v | None => false end)
   || (match ya_default (f_attrs f) with Some d => value_eqb x v (x_default x d) | None => false end))%bool.

(** An element holding one text. *)
Definition text_elem (q t : string) : wnode := WElem (qname q) [] [] [WTxt t].

Section Encode.
  Variable x : ext.
  Variable E : env.
  (** The trees and the start-tag data of values of other types. *)
  Variable enc : nat -> value -> how -> option (list wnode).
  Variable enc_attrs : nat -> value -> option (list attr * nsmap).

  (** ** Start tag *)

  (** Text of an attribute value; a value of user type is written as XML
      content of its own. *)
  Definition attr_show (b : base) (v : value) : option string :=
    match b with
    | BSimple s => show_simple x s v
    | BUser id => omap (fun ts => emit_text (EConf false None) (flat_map wtree ts)) (enc id v Inside)
    end.

  Definition enc_attr (ra : yattr) (self : value) (f : field) (v : value) : option (list attr) :=
    let one w b := omap (fun t => if left_out x self v f false then []
                                  else [Attr (qname (field_qname ra f)) t]) (attr_show b w) in
    match f_ty f, v with
    | TBase b, _ => one v b
    | TOpt b, VOpt (Some w) => one w b
    | TOpt _, VOpt None => Some []
    | TVec _, VVec _ => Some []
    | _, _ => None
    end.

  (** Own attributes, attributes and namespaces of flattened fields. *)
  Fixpoint enc_tag (ra : yattr) (self : value) (fs : list field) (vs : list value)
    : option (list attr * list attr * nsmap) :=
    match fs, vs with
    | [], [] => Some ([], [], [])
    | f :: fr, v :: vr =>
        match enc_tag ra self fr vr with
        | None => None
        | Some (own, child, ns) =>
            if ya_attribute (f_attrs f) then
              omap (fun l => (l ++ own, child, ns)) (enc_attr ra self f v)
            else
              match ya_flatten (f_attrs f), f_ty f with
              | true, TBase (BUser id) =>
                  omap (fun '(ca, cn) => (own, ca ++ child, ns_extend cn ns)) (enc_attrs id v)
              | _, _ => Some (own, child, ns)
              end
        end
    | _, _ => None
    end.

  (** ** Content *)
  Definition enc_simple (q : string) (s : simple) (v : value) : option (list wnode) :=
    omap (fun t => [text_elem q t]) (show_simple x s v).

  Definition enc_field (ra : yattr) (self : value) (f : field) (v : value) : option (list wnode) :=
    let q := field_qname ra f in
    let fa := f_attrs f in
    let user id w := enc id w (if ya_flatten fa then Inside else Under (Some q)) in
    if ya_attribute fa then Some []
    else if ya_text fa then
      match f_ty f, v with
      | TBase (BSimple SString), VStr t | TOpt (BSimple SString), VOpt (Some (VStr t)) => Some [WTxt t]
      | TOpt (BSimple SString), VOpt None => Some [WTxt ""]
      | _, _ => None
      end
    else if left_out x self v f true then Some []
    else if ya_cdata fa then
      match f_ty f, v with
      | TBase (BSimple SString), VStr t => Some [WElem (qname q) [] [] [WCd t]]
      | _, _ => None
      end
    else
      match f_ty f, v with
      | TBase (BSimple s), _ => enc_simple q s v
      | TBase (BUser id), _ => user id v
      | TOpt _, VOpt None => Some []
      | TOpt (BSimple s), VOpt (Some w) => enc_simple q s w
      | TOpt (BUser id), VOpt (Some w) => user id w
      | TVec (BSimple s), VVec l => oconcat (enc_simple q s) l
      | TVec (BUser id), VVec l => oconcat (user id) l
      | TOptVec (BSimple _), VOpt None => Some []
      | TOptVec (BSimple s), VOpt (Some (VVec l)) => oconcat (enc_simple q s) l
      | _, _ => None
      end.

  Fixpoint enc_fields (ra : yattr) (self : value) (fs : list field) (vs : list value)
    : option (list wnode) :=
    match fs, vs with
    | [], [] => Some []
    | f :: fr, v :: vr => oapp (enc_field ra self f v) (enc_fields ra self fr vr)
    | _, _ => None
    end.

  (** Simple items of a Vec in a struct-like variant, and of Vec or Option
      payloads, are bare texts (Strings only in payloads). *)
  Definition enc_item (b : base) (v : value) (h : how) : option (list wnode) :=
    match b with
    | BUser id => enc id v h
    | BSimple SString => None
    | BSimple s => omap (fun t => [WTxt t]) (show_simple x s v)
    end.

  (** Struct-like variants. *)
  Definition enc_named_field (ra : yattr) (f : field) (v : value) : option (list wnode) :=
    let q := field_qname ra f in
    match f_ty f, v with
    | TBase (BSimple s), _ => enc_simple q s v
    | TBase (BUser id), _ => enc id v (Under (Some q))
    | TVec b, VVec l => oconcat (fun w => enc_item b w (Under (Some q))) l
    | TOpt _, VOpt _ | TOptVec _, VOpt _ => Some []
    | _, _ => None
    end.
  Fixpoint enc_named_fields (ra : yattr) (fs : list field) (vs : list value) : option (list wnode) :=
    match fs, vs with
    | [], [] => Some []
    | f :: fr, v :: vr => oapp (enc_named_field ra f v) (enc_named_fields ra fr vr)
    | _, _ => None
    end.

  (** Payloads: an element named after the variant around the content. *)
  Definition enc_payload_item (q : string) (b : base) (v : value) : option (list wnode) :=
    omap (fun ks => [WElem (qname q) [] [] ks])
         (match b, v with
          | BSimple SString, VStr t => Some [WTxt t]
          | _, _ => enc_item b v Inside
          end).

  (** A flattened payload is written the way the enum itself was asked to be. *)
  Definition enc_payload (h : how) (q : string) (flat : bool) (t : fty) (v : value) : option (list wnode) :=
    match t, v with
    | TBase (BSimple s), _ => enc_simple q s v
    | TBase (BUser id), _ => if flat then enc id v h else enc_payload_item q (BUser id) v
    | TOpt _, VOpt None => Some []
    | TOpt b, VOpt (Some w) => enc_payload_item q b w
    | TVec b, VVec l => oconcat (enc_payload_item q b) l
    | _, _ => None
    end.

  Definition enc_variant (h : how) (ra : yattr) (vr : variant) (l : list value) : option (list wnode) :=
    let q := variant_qname ra vr in
    match v_body vr, l with
    | VbUnit, [] => Some (match ya_tag ra with Some _ => [] | None => [WTxt q] end)
    | VbNew fl t, [v] => enc_payload h q (ya_flatten (v_attrs vr) || fl) t v
    | VbNamed fs, vs => enc_named_fields ra fs vs
    | _, _ => None
    end.

  Definition enc_content (h : how) (td : typedef) (v : value) : option (list wnode) :=
    match t_body td, v with
    | DStruct fs, VRec vs => enc_fields (t_attrs td) v fs vs
    | DEnum vars _, VVar i l =>
        match nth_error vars i with
        | Some vr => enc_variant h (t_attrs td) vr l
        | None => None
        end
    | _, _ => None
    end.

  Definition enc_start (td : typedef) (v : value) : option (list attr * list attr * nsmap) :=
    match t_body td, v with
    | DStruct fs, VRec vs => enc_tag (t_attrs td) v fs vs
    | DEnum vars _, VVar i _ =>
        omap (fun vr => ([], match ya_tag (t_attrs td) with
                             | Some t => [Attr (Name t None None) (variant_name vr)]
                             | None => []
                             end, [])) (nth_error vars i)
    | _, _ => None
    end.

  (** Namespaces declared by a type; the default namespace is bound to the
      empty prefix.  First binding of a prefix wins. *)
  Definition declared (ra : yattr) : nsmap :=
    ns_extend [] (map (fun pu => (if opt_eqb (ya_default_namespace ra) (Some (fst pu))
                                  then "" else fst pu, snd pu)) (ya_namespaces ra)).

  (** ** One type *)
  Definition enc_type (id : nat) (v : value) (h : how) : option (list wnode) :=
    match nth_error E id with
    | None => None
    | Some td =>
        match t_body td, h with
        | DPrim k, Inside => omap (fun t => [WTxt t]) (show_prim x (t_name td) k v)
        | DPrim k, Under o => omap (fun t => [text_elem (opt_default (t_name td) o) t]) (show_prim x (t_name td) k v)
        | _, Inside => enc_content h td v
        | _, Under o =>
            if ya_flatten (t_attrs td) then enc_content h td v
            else match enc_start td v, enc_content h td v with
                 | Some (own, child, ns), Some ks =>
                     Some [WElem (qname (opt_default (ser_root td) o)) (own ++ child)
                                 (ns_extend (declared (t_attrs td)) ns) ks]
                 | _, _ => None
                 end
        end
    end.

  Definition enc_type_attrs (id : nat) (v : value) : option (list attr * nsmap) :=
    match nth_error E id with
    | None => None
    | Some td =>
        match t_body td with
        | DPrim _ => Some ([], [])
        | _ => omap (fun '(own, child, ns) => (own ++ child, ns_extend (declared (t_attrs td)) ns)) (enc_start td v)
        end
    end.
End Encode.

(** All types together; [n] bounds the nesting depth of the value. *)
Fixpoint enc_all (x : ext) (E : env) (n : nat)
  : (nat -> value -> how -> option (list wnode)) * (nat -> value -> option (list attr * nsmap)) :=
  match n with
  | O => (fun _ _ _ => None, fun _ _ => None)
  | S k => let r := enc_all x E k in
           (enc_type x E (fst r) (snd r), enc_type_attrs x E (fst r) (snd r))
  end.

(** Nesting depth of a value. *)
Fixpoint height (v : value) : nat :=
  match v with
  | VOpt (Some w) => S (height w)
  | VVec l | VRec l | VVar _ l => S (list_max (map height l))
  | _ => 1
  end.

(** The trees written for a value of type [id]. *)
Definition encode (x : ext) (E : env) (id : nat) (v : value) (h : how) : option (list wnode) :=
  fst (enc_all x E (S (height v))) id v h.
(** The attributes and namespaces written for it. *)
Definition encode_attrs (x : ext) (E : env) (id : nat) (v : value) : option (list attr * nsmap) :=
  snd (enc_all x E (S (height v))) id v.
