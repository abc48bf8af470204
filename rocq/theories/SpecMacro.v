(** * Vocabulary of C44 to C46: Rust types, accepted definitions, visitors. *)
From Verif Require Import Str Num Xml XmlText Reader Schema Macro.
Open Scope list_scope.

(** ** What a type is (C44) *)

(** What a path may name in some module: a simple type, [Option], [Vec] or
    any other type. *)
Inductive meaning := IsSimple (s : simple) | IsOption | IsVec | IsOther.
(** Name resolution: from the identifiers of a path. *)
Definition scope := list string -> meaning.

Inductive rtype :=
| TySimple (s : simple)
| TyOption (t : rtype)
| TyVec (t : rtype)
| TyUser (p : rpath).

(** The type a piece of syntax stands for; [Option] and [Vec] take their
    first argument, groups are transparent. *)
Inductive Means (sc : scope) : rty -> rtype -> Prop :=
| M_simple segs s : sc (map fst segs) = IsSimple s -> Means sc (RPath segs) (TySimple s)
| M_option pre id a rest t :
    sc (map fst pre ++ [id]) = IsOption -> Means sc a t ->
    Means sc (RPath (pre ++ [(id, Some (Some a :: rest))])) (TyOption t)
| M_vec pre id a rest t :
    sc (map fst pre ++ [id]) = IsVec -> Means sc a t ->
    Means sc (RPath (pre ++ [(id, Some (Some a :: rest))])) (TyVec t)
| M_user segs : sc (map fst segs) = IsOther -> Means sc (RPath segs) (TyUser segs)
| M_group t ty : Means sc t ty -> Means sc (RGroup t) ty.

(** The type a field is handled as. *)
Fixpoint handled (k : kind) : rtype :=
  match k with
  | KSimple s => TySimple s
  | KOpt k' => TyOption (handled k')
  | KVec k' => TyVec (handled k')
  | KUser p => TyUser p
  end.

(** The names of the language and its prelude. *)
Definition prelude : list (string * meaning) :=
  [("String", IsSimple SString); ("bool", IsSimple SBool);
   ("i8", IsSimple (SInt I8)); ("u8", IsSimple (SInt U8));
   ("i16", IsSimple (SInt I16)); ("u16", IsSimple (SInt U16));
   ("i32", IsSimple (SInt I32)); ("u32", IsSimple (SInt U32));
   ("i64", IsSimple (SInt I64)); ("u64", IsSimple (SInt U64));
   ("f32", IsSimple (SFloat false)); ("f64", IsSimple (SFloat true));
   ("Option", IsOption); ("Vec", IsVec)].

(** Prelude names mean what they mean in the prelude, wherever they are
    imported from, and other names are no aliases of them. *)
Definition unshadowed (sc : scope) : Prop :=
  (forall p id m, In (id, m) prelude -> sc (p ++ [id]) = m) /\
  (forall p id, (forall m, ~ In (id, m) prelude) -> sc (p ++ [id]) = IsOther) /\
  sc [] = IsOther.

(** At most one group around a type argument. *)
Definition argument (a : rty) : Prop :=
  match a with RPath _ | RGroup (RPath _) => True | _ => False end.
Inductive ungrouped : rty -> Prop :=
| U_path segs :
    (forall pre id a rest, segs = pre ++ [(id, Some (Some a :: rest))] -> argument a /\ ungrouped a) ->
    ungrouped (RPath segs)
| U_group t : ungrouped t -> ungrouped (RGroup t).

(** ** Accepted definitions (C45) *)

(** The options of an item: those of its first `#[yaserde(..)]`. *)
Definition foreign (a : rattr) : Prop := ra_path a <> "yaserde".
Definition options (l : list rattr) (a : yattr) : Prop :=
  (Forall foreign l /\ a = ya0) \/
  exists pre post, l = pre ++ RAttr "yaserde" (MetaList (Ok a)) :: post /\ Forall foreign pre.

Definition scalar (k : kind) : Prop :=
  match k with KSimple _ | KUser _ => True | _ => False end.
(** Scalars, optional scalars and lists of scalars. *)
Definition storable (k : kind) : Prop :=
  match k with KOpt k' | KVec k' => scalar k' | _ => True end.

(** The types of all fields of a definition. *)
Definition all_fields (i : ritem) : list rfield :=
  match ri_data i with
  | RStruct fs => fields_of fs
  | REnum vs => concat (map (fun v => fields_of (rv_fields v)) vs)
  | RUnion => []
  end.

Definition labelled (f : rfield) (a : yattr) : Prop := rf_ident f <> None \/ ya_rename a <> None.
(** A Rust identifier: letters, underscores and digits, not a digit first.
    Bytes above 127 count as letters (see [ident_start]). *)
Definition letter (c : ascii) : Prop :=
  In c (list_ascii_of_string "ABCDEFGHIJKLMNOPQRSTUVWXYZabcdefghijklmnopqrstuvwxyz_") \/ 128 <= nat_of_ascii c.
Definition digit (c : ascii) : Prop := In c (list_ascii_of_string "0123456789").
Definition rust_name (s : string) : Prop :=
  match list_ascii_of_string s with
  | [] => False
  | c :: r => letter c /\ Forall (fun d => letter d \/ digit d) r
  end.
Definition named_function (o : option string) : Prop :=
  match o with Some s => rust_name s | None => True end.

(** Fields a struct may have when [YaDeserialize] is derived. *)
Definition readable_field (f : rfield) : Prop :=
  exists a k, options (rf_attrs f) a /\ get_type (rf_ty f) = MOk k /\ storable k /\
    (ya_attribute a = false -> ya_flatten a = true ->
       exists p, k = KUser p \/ k = KOpt (KUser p)) /\
    (ya_attribute a = true \/ ya_flatten a = false -> labelled f a) /\
    (scalar k -> named_function (ya_default a)).

(** Variants an enum may have when [YaDeserialize] is derived. *)
Definition readable_variant (v : rvariant) : Prop :=
  (exists a, options (rv_attrs v) a) /\
  match rv_fields v with
  | RUnnamed [] => True
  | RUnnamed [f] => exists a k, options (rf_attrs f) a /\ get_type (rf_ty f) = MOk k /\ storable k
  | RUnnamed _ => False
  | _ => True
  end.

Definition readable (i : ritem) : Prop :=
  (exists a, options (ri_attrs i) a) /\
  match ri_data i with
  | RStruct fs => Forall readable_field (fields_of fs)
  | REnum vs => Forall readable_variant vs
  | RUnion => False
  end.

(** Structs whose fields have names, enums without struct-like variants: the
    generated code of other definitions with fields does not compile, or
    ignores the variant (C29). *)
Definition named_fields (i : ritem) : Prop :=
  match ri_data i with
  | RStruct fs => Forall (fun f => rf_ident f <> None) (fields_of fs)
  | REnum vs => Forall (fun v => match rv_fields v with RNamed (_ :: _) => False | _ => True end) vs
  | RUnion => True
  end.

(** Every type field of a definition is one of the four forms of [fty] but
    [TOptVec]. *)
Definition simple_form (t : fty) : Prop := match t with TOptVec _ => False | _ => True end.
Definition forms (t : typedef) : Prop :=
  match t_body t with
  | DStruct fs => Forall (fun f => simple_form (f_ty f)) fs
  | DEnum vs _ => Forall (fun v => match v_body v with VbNew _ t => simple_form t | _ => True end) vs
  | DPrim _ => True
  end.

(** Fields a struct may have when [YaSerialize] is derived. *)
Definition not_doubled (k : kind) : Prop :=
  match k with KOpt (KOpt _) | KVec (KVec _) => False | _ => True end.
Definition writable_field (f : rfield) : Prop :=
  exists a, options (rf_attrs f) a /\
    let typed k := get_type (rf_ty f) = MOk k in
    if ya_attribute a then
      labelled f a /\
      exists k, typed k /\
        match k with
        | KVec _ => True
        | KOpt (KOpt _) => False
        | _ => named_function (ya_default a) /\ named_function (ya_skip_if a)
        end
    else
      (ya_flatten a = true \/ ya_text a = true -> exists k, typed k) /\
      (ya_text a = false ->
         labelled f a /\ named_function (ya_default a) /\ named_function (ya_skip_if a) /\
         (ya_cdata a = false -> exists k, typed k /\ not_doubled k)).

(** Fields a variant may have when [YaSerialize] is derived: an attribute, or
    a flattened user type, must have a simple type or a path of one segment
    without arguments. *)
Definition one_word (k : kind) : Prop :=
  match k with KSimple _ => True | KUser [(_, None)] => True | _ => False end.
Definition writable_vfield (named : bool) (f : rfield) : Prop :=
  exists a, options (rf_attrs f) a /\
    let typed k := get_type (rf_ty f) = MOk k in
    if ya_attribute a then exists k, typed k /\ one_word k
    else
      (ya_flatten a = true -> exists k, typed k /\ forall p, k = KUser p -> one_word k) /\
      (named = false \/ ya_text a = false -> exists k, typed k) /\
      (named = true -> ya_text a = false -> labelled f a).
Definition writable_variant (v : rvariant) : Prop :=
  (exists a, options (rv_attrs v) a) /\
  match rv_fields v with
  | RUnit => True
  | RUnnamed fs => Forall (writable_vfield false) fs
  | RNamed fs => Forall (writable_vfield true) fs
  end.
Definition writable (i : ritem) : Prop :=
  (exists a, options (ri_attrs i) a) /\
  match ri_data i with
  | RStruct fs => Forall writable_field (fields_of fs)
  | REnum vs => Forall writable_variant vs
  | RUnion => False
  end.

(** ** Definitions as data (C67) *)

(** The form of a field that has this type; [resolve] numbers the user types. *)
Inductive held (resolve : rpath -> option nat) : rtype -> base -> Prop :=
| H_simple s : held resolve (TySimple s) (BSimple s)
| H_user p i : resolve p = Some i -> held resolve (TyUser p) (BUser i).
Inductive shaped (resolve : rpath -> option nat) : rtype -> fty -> Prop :=
| S_base t b : held resolve t b -> shaped resolve t (TBase b)
| S_option t b : held resolve t b -> shaped resolve (TyOption t) (TOpt b)
| S_vec t b : held resolve t b -> shaped resolve (TyVec t) (TVec b)
| S_option_vec t b : held resolve t b -> shaped resolve (TyOption (TyVec t)) (TOptVec b).

(** Fields, variants and types stand for the Rust definitions, in their order,
    with their names, options and types. *)
Definition types_as (sc : scope) (resolve : rpath -> option nat) (r : rfield) (t : fty) : Prop :=
  forall ty, Means sc (rf_ty r) ty -> shaped resolve ty t.
Definition field_as (sc : scope) (resolve : rpath -> option nat) (r : rfield) (f : field) : Prop :=
  rf_ident r = Some (f_label f) /\ options (rf_attrs r) (f_attrs f) /\ types_as sc resolve r (f_ty f).
Definition variant_as (sc : scope) (resolve : rpath -> option nat) (r : rvariant) (v : variant) : Prop :=
  rv_ident r = v_label v /\ options (rv_attrs r) (v_attrs v) /\
  match v_body v with
  | VbUnit => rv_fields r = RUnit
  | VbNew flat t => exists f a, rv_fields r = RUnnamed [f] /\ options (rf_attrs f) a /\ flat = ya_flatten a /\ types_as sc resolve f t
  | VbNamed fs => exists l, (rv_fields r = RNamed l \/ rv_fields r = RUnnamed [] /\ l = []) /\ Forall2 (field_as sc resolve) l fs
  end.
Definition defined_as (sc : scope) (resolve : rpath -> option nat) (r : ritem) (t : typedef) : Prop :=
  ri_ident r = t_name t /\ options (ri_attrs r) (t_attrs t) /\
  match t_body t with
  | DStruct fs => exists l, ri_data r = RStruct l /\ Forall2 (field_as sc resolve) (fields_of l) fs
  | DEnum vs _ => exists l, ri_data r = REnum l /\ Forall2 (variant_as sc resolve) l vs
  | DPrim _ => False
  end.

(** Definitions [#[derive(PrimitiveYaSerde)]] accepts: tuple structs whose
    first field is named by a path. *)
Definition wrapper (i : ritem) : Prop :=
  exists f fs p, ri_data i = RStruct (RUnnamed (f :: fs)) /\ rf_ty f = RPath p.

(** ** Visitors (C46) *)

(** How a field appears in XML: as attribute or element, with a prefix and a
    name. *)
Definition appearance (a : yattr) (label : string) : bool * option string * string :=
  (ya_attribute a, ya_prefix a, label).

Fixpoint no_underscore (s : string) : Prop :=
  match s with EmptyString => True | String c s' => c <> "_"%char /\ no_underscore s' end.
Definition distinct_by (f : string -> string) (a b : string) : Prop := f a = f b -> a = b.

(** The path in a visitor's name. *)
Definition visited_path (k : kind) : string :=
  match k with
  | KUser p | KOpt (KUser p) | KVec (KUser p) => path_text p
  | _ => ""
  end.
(** Camel case without underscores that no prefix turns into "Attribute". *)
Definition calm_camel (camel : string -> string) (a : yattr) (label : string) (k : kind) : Prop :=
  no_underscore (camel (dots label)) /\
  (forall p, ya_prefix a = Some p -> no_underscore (camel p) /\ camel p <> "Attribute") /\
  no_underscore (visited_path k).
