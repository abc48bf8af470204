(** * Unicode texts: vocabulary (C72). *)
From Verif Require Import Str Num Xml XmlText Schema Ser.
Open Scope list_scope.

(** Unicode scalar values: all code points but the surrogates. *)
Definition scalar (n : N) : Prop := (n < 55296 \/ 57344 <= n < 1114112)%N.
(** Bytes that are the UTF-8 form of some characters, one after the other. *)
Inductive Unicode : string -> Prop :=
| uni_end : Unicode ""
| uni_char : forall n s, scalar n -> Unicode s -> Unicode (utf8 n +++ s).

(** The strings inside of a value. *)
Fixpoint strings (v : value) : list string :=
  match v with
  | VStr s => [s]
  | VOpt (Some w) => strings w
  | VVec l | VRec l | VVar _ l => flat_map strings l
  | _ => []
  end.
Definition unicode_value (v : value) : Prop := forall s, In s (strings v) -> Unicode s.

(** All strings of a type definition. *)
Definition opt_list (o : option string) : list string := match o with Some s => [s] | None => [] end.
Definition attrs_strings (a : yattr) : list string :=
  opt_list (ya_default_namespace a) ++ flat_map (fun pu => [fst pu; snd pu]) (ya_namespaces a) ++
  opt_list (ya_prefix a) ++ opt_list (ya_rename a) ++ opt_list (ya_tag a).
Definition field_strings (f : field) : list string := f_label f :: attrs_strings (f_attrs f).
Definition variant_strings (v : variant) : list string :=
  v_label v :: attrs_strings (v_attrs v) ++ match v_body v with VbNamed fs => flat_map field_strings fs | _ => [] end.
Definition type_strings (td : typedef) : list string :=
  t_name td :: attrs_strings (t_attrs td) ++
  match t_body td with
  | DStruct fs => flat_map field_strings fs
  | DEnum vs d => flat_map variant_strings vs ++ strings d
  | DPrim _ => []
  end.
Definition unicode_types (E : env) : Prop := forall td s, In td E -> In s (type_strings td) -> Unicode s.

(** What user code returns: [Display] of floats and of user types, and the
    functions given as [default = ".."]. *)
Definition unicode_code (x : ext) : Prop :=
  (forall d z, Unicode (x_fshow x d z)) /\ (forall n z, Unicode (x_ushow x n z)) /\ (forall d, unicode_value (x_default x d)).
Definition unicode_config (c : config) : Prop := match c_indent_string c with Some s => Unicode s | None => True end.
