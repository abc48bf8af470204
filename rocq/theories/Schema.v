(** * Type definitions as data: what the derive macros read.

    [YaSerdeAttribute] (yaserde_derive/src/common/attribute.rs:9-45),
    [YaSerdeField]/[Field] (yaserde_derive/src/common/field.rs). *)
From Verif Require Import Str Num Xml XmlText Reader.

(** Simple types (field.rs:211-227 without Option, Vec, Struct). *)
Inductive simple :=
| SString
| SBool
| SInt (t : ity)
| SFloat (is64 : bool).

(** A field type: simple type or user type (an index into the environment),
    possibly inside Option, Vec or Option<Vec>.  Other nestings make the
    macro panic at compile time ([unimplemented!]) or are only accepted for
    unusual user types; they are not modelled. *)
Inductive base := BSimple (s : simple) | BUser (id : nat).
Inductive fty := TBase (b : base) | TOpt (b : base) | TVec (b : base) | TOptVec (b : base).

(** [YaSerdeAttribute] (attribute.rs:9-45).  [ya_namespaces] is the BTreeMap
    prefix -> uri (kept sorted). *)
Record yattr := YAttr {
  ya_attribute : bool;
  ya_default : option string;
  ya_default_namespace : option string;
  ya_flatten : bool;
  ya_namespaces : nsmap;
  ya_prefix : option string;
  ya_rename : option string;
  ya_tag : option string;
  ya_skip : bool;
  ya_skip_if : option string;
  ya_text : bool;
  ya_cdata : bool }.

(** [YaSerdeAttribute::default()]. *)
Definition ya0 : yattr :=
  YAttr false None None false [] None None None false None false false.

Record field := Field { f_label : string; f_attrs : yattr; f_ty : fty }.

(** Enum variants: [Fields::Unit], [Fields::Unnamed] with one field (and its
    own flatten flag), [Fields::Named]. *)
Inductive vbody :=
| VbUnit
| VbNew (fl : bool) (t : fty)
| VbNamed (fs : list field).
Record variant := Variant { v_label : string; v_attrs : yattr; v_body : vbody }.

(** Values.  Floats are bit patterns; [VUser] is a value of a user type with
    hand-written [Display]/[FromStr], represented by an opaque code. *)
Inductive value :=
| VStr (s : string)
| VBool (b : bool)
| VInt (z : Z)
| VFloat (z : Z)
| VUser (z : Z)
| VOpt (o : option value)
| VVec (l : list value)
| VRec (l : list value)
| VVar (i : nat) (l : list value).

(** Newtypes handled by primitives.rs (yaserde_derive/src/lib.rs:36-68):
    PrimitiveYaSerde over a simple type, whose Display and FromStr it uses;
    HexBinaryYaSerde bitflags over an integer type with a mask of known bits;
    DefaultYaSerde with user-written Display and FromStr. *)
Inductive primkind :=
| PInner (s : simple)
| PHex (t : ity) (mask : Z)
| PUser.

Inductive tbody :=
| DStruct (fs : list field)
| DEnum (vs : list variant) (dflt : value)   (* [Default::default()] *)
| DPrim (k : primkind).
Record typedef := TypeDef { t_name : string; t_attrs : yattr; t_body : tbody }.

Definition env := list typedef.

(** User-supplied and std functions that stay abstract. *)
Record ext := Ext {
  x_fshow : bool -> Z -> string;           (* Display for f32/f64 *)
  x_fparse : bool -> string -> res Z;      (* FromStr for f32/f64 *)
  x_feq : Z -> Z -> bool;                  (* PartialEq for floats *)
  x_default : string -> value;             (* default = "f" functions *)
  x_skip_if : string -> value -> value -> bool;  (* skip_serializing_if: self, field *)
  x_ushow : string -> Z -> string;         (* Display of a user type *)
  x_uparse : string -> string -> res Z }.  (* FromStr of a user type *)

(** ** Names *)

(** [xml_element_name] (attribute.rs:90-92). *)
Definition xml_element_name (a : yattr) (ident : string) : string :=
  opt_default ident (ya_rename a).

(** The "prefix:" put before names, dropped for the default namespace:
    [YaSerdeAttribute::prefix_namespace] (attribute.rs:94-103),
    [renamed_label] (field.rs:67-81), [build_label_name] (ser/label.rs:4-24)
    all compute this from a prefix and a default namespace. *)
Definition prefix_part (dns pfx : option string) : string :=
  if opt_eqb dns pfx then ""
  else match pfx with Some p => p +++ ":" | None => "" end.

(** Root name used by the serializer (ser/mod.rs:20-24). *)
Definition ser_root (t : typedef) : string :=
  prefix_part (ya_default_namespace (t_attrs t)) (ya_prefix (t_attrs t))
  +++ xml_element_name (t_attrs t) (t_name t).

(** Root name and namespace used by the deserializer (de/mod.rs:17-29). *)
Definition de_root (t : typedef) : string := xml_element_name (t_attrs t) (t_name t).

Definition ns_of_prefix (nss : nsmap) (p : option string) : string :=
  match p with
  | Some p => opt_default "" (ns_get nss p)
  | None => ""
  end.
Definition de_root_ns (t : typedef) : string :=
  ns_of_prefix (ya_namespaces (t_attrs t)) (ya_prefix (t_attrs t)).

(** [renamed_label_without_namespace] (field.rs:58-65). *)
Definition field_local (f : field) : string := opt_default (f_label f) (ya_rename (f_attrs f)).

(** [renamed_label] (field.rs:67-81). *)
Definition field_qname (ra : yattr) (f : field) : string :=
  prefix_part (ya_default_namespace ra) (ya_prefix (f_attrs f)) +++ field_local f.

(** [YaSerdeField::prefix_namespace] (field.rs:145-157). *)
Definition field_ns (ra : yattr) (f : field) : string :=
  ns_of_prefix (ya_namespaces ra) (ya_prefix (f_attrs f)).

(** [build_label_name] (ser/label.rs:4-24) for an enum variant. *)
Definition variant_qname (ra : yattr) (v : variant) : string :=
  prefix_part (ya_default_namespace ra) (ya_prefix (v_attrs v))
  +++ opt_default (v_label v) (ya_rename (v_attrs v)).

(** [get_namespace_matching] (attribute.rs:105-142): a namespaced element is
    accepted only if its namespace is the one bound to [pfx].  Returns the
    error message otherwise. *)
Definition namespace_check (nss : nsmap) (pfx : option string)
    (ns : option string) (elem : string) : option string :=
  match ns with
  | None => None
  | Some u =>
      let ok := match pfx with
                | Some p => match ns_get nss p with Some v => String.eqb v u | None => false end
                | None => false
                end in
      if ok then None else Some ("bad namespace for " +++ elem +++ ", found " +++ u)
  end.

(** ** Text forms of simple types *)

(** [Display] of a simple value; [None] on ill-typed values. *)
Definition show_simple (x : ext) (s : simple) (v : value) : option string :=
  match s, v with
  | SString, VStr t => Some t
  | SBool, VBool b => Some (show_bool b)
  | SInt _, VInt z => Some (show_Z z)
  | SFloat d, VFloat z => Some (x_fshow x d z)
  | _, _ => None
  end.

Definition rmap {A B} (f : A -> B) (r : res A) : res B :=
  match r with Ok a => Ok (f a) | Er e => Er e end.

(** [<type>::from_str(v).map_err(|e| e.to_string())]. *)
Definition parse_simple (x : ext) (s : simple) (t : string) : res value :=
  match s with
  | SString => Ok (VStr t)
  | SBool => rmap VBool (parse_bool t)
  | SInt i => rmap VInt (parse_int i t)
  | SFloat d => rmap VFloat (x_fparse x d t)
  end.

(** The struct-field visitor (de/expand_struct.rs:95-124): as [parse_simple],
    with "1"/"0" accepted for bool. *)
Definition visit_simple (x : ext) (s : simple) (t : string) : res value :=
  parse_simple x s (match s with SBool => map_if_bool t | _ => t end).

(** [Display] / [FromStr] of primitive newtypes (primitives.rs:58-105). *)
Definition show_prim (x : ext) (tn : string) (k : primkind) (v : value) : option string :=
  match k, v with
  | PInner s, _ => show_simple x s v
  | PHex t _, VInt z => Some (show_hex (Z.to_N (Z.modulo z (2 ^ ibits t))))   (* two's complement *)
  | PUser, VUser z => Some (x_ushow x tn z)
  | _, _ => None
  end.

(** [from_bits]: all set bits must be known. *)
Definition parse_prim (x : ext) (tn : string) (k : primkind) (t : string) : res value :=
  match k with
  | PInner s => parse_simple x s t
  | PHex i mask =>
      match parse_int i t with
      | Er _ => Er "Failed to parse Bitflag integer"
      | Ok z => if Z.eqb (Z.land z mask) z then Ok (VInt z)
                else Er "Unknown bits were set in Bitflag"
      end
  | PUser => rmap VUser (x_uparse x tn t)
  end.

(** ** Equality used by the default check ([self.f != default()]): derived
    [PartialEq], floats compared with [x_feq]. *)
Fixpoint value_eqb (x : ext) (a b : value) {struct a} : bool :=
  let fix eql (l m : list value) {struct l} : bool :=
      match l, m with
      | [], [] => true
      | u :: l', w :: m' => (value_eqb x u w && eql l' m')%bool
      | _, _ => false
      end in
  match a, b with
  | VStr s, VStr t => String.eqb s t
  | VBool s, VBool t => Bool.eqb s t
  | VInt s, VInt t => Z.eqb s t
  | VFloat s, VFloat t => x_feq x s t
  | VUser s, VUser t => Z.eqb s t
  | VOpt None, VOpt None => true
  | VOpt (Some u), VOpt (Some w) => value_eqb x u w
  | VVec l, VVec m => eql l m
  | VRec l, VRec m => eql l m
  | VVar i l, VVar j m => (Nat.eqb i j && eql l m)%bool
  | _, _ => false
  end.
