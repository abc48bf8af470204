(** * The front of the derive macros: from Rust source to type definitions.

    Schema.v starts from what the macros have read of a definition.  This file
    models the reading: how a field's type is classified, which `#[yaserde]`
    attribute counts, for which definitions the macros panic (a compile-time
    error: no code is generated), how the generated visitors are named, and
    the [typedef] of Schema.v a definition becomes.

    Simplified: the tokens inside `#[yaserde(..)]` are not modelled, only what
    the crate serde_tokenstream makes of them; generics and visibility are
    dropped; upper camel case (crate heck) is a parameter. *)
From Verif Require Import Str Num Xml XmlText Reader Schema.
Open Scope list_scope.

(** A panic of a macro. *)
Inductive mres A := MOk (a : A) | MPanic (why : string).
Arguments MOk {A} _. Arguments MPanic {A} _.
Definition mbind {A B} (m : mres A) (f : A -> mres B) : mres B :=
  match m with MOk a => f a | MPanic w => MPanic w end.
Definition mok : mres unit := MOk tt.
Notation "'do' x <- m ; n" := (mbind m (fun x => n)) (at level 200, x name, m at level 100, n at level 200).
Notation "m ;! n" := (mbind m (fun _ => n)) (at level 99, right associativity).
Fixpoint mall {A} (f : A -> mres unit) (l : list A) : mres unit :=
  match l with [] => mok | a :: l' => f a ;! mall f l' end.

(** ** Source syntax *)

(** [syn::Type]: a path (segments with their angle-bracketed arguments, if
    any; an argument is a type or something else), a group (types substituted
    by a `macro_rules!` macro) or any other type. *)
Inductive rty :=
| RPath (segs : list (string * option (list (option rty))))
| RGroup (t : rty)
| ROther.
Definition rpath := list (string * option (list (option rty))).

(** [syn::Meta] of an attribute: `#[path]`, `#[path(tokens)]`, `#[path = e]`;
    the tokens are represented by what [from_tokenstream] returns for them. *)
Inductive rmeta := MetaPath | MetaList (parsed : res yattr) | MetaNameValue.
Record rattr := RAttr { ra_path : string; ra_meta : rmeta }.
Record rfield := RField { rf_ident : option string; rf_attrs : list rattr; rf_ty : rty }.
(** [syn::Fields]. *)
Inductive rfields := RUnit | RUnnamed (fs : list rfield) | RNamed (fs : list rfield).
Record rvariant := RVariant { rv_ident : string; rv_attrs : list rattr; rv_fields : rfields }.
(** [syn::Data], [syn::DeriveInput]. *)
Inductive rdata := RStruct (fs : rfields) | REnum (vs : list rvariant) | RUnion.
Record ritem := RItem { ri_ident : string; ri_attrs : list rattr; ri_data : rdata }.

Definition fields_of (fs : rfields) : list rfield :=
  match fs with RUnit => [] | RUnnamed l => l | RNamed l => l end.

(** ** Attributes *)

(** [TryFrom<&Attribute>] (attribute.rs:48-78); [None]: some other attribute. *)
Definition yattr_try (a : rattr) : mres (option yattr) :=
  if String.eqb (ra_path a) "yaserde" then
    match ra_meta a with
    | MetaList (Ok y) => MOk (Some y)
    | MetaList (Er e) => MPanic ("YaSerDe derive error: " +++ e)
    | _ => MPanic "unreachable"
    end
  else MOk None.

(** [From<&Vec<Attribute>>] (attribute.rs:80-87): the first one counts. *)
Fixpoint yattr_from (l : list rattr) : mres yattr :=
  match l with
  | [] => MOk ya0
  | a :: l' => do o <- yattr_try a; match o with Some y => MOk y | None => yattr_from l' end
  end.

(** ** Types *)

(** [Field] (field.rs:209-227). *)
Inductive kind :=
| KSimple (s : simple)
| KOpt (k : kind)
| KVec (k : kind)
| KUser (p : rpath).

(** The names of simple types (field.rs:238-250). *)
Definition simple_named (id : string) : option simple :=
  match id with
  | "String" => Some SString
  | "bool" => Some SBool
  | "i8" => Some (SInt I8)
  | "u8" => Some (SInt U8)
  | "i16" => Some (SInt I16)
  | "u16" => Some (SInt U16)
  | "i32" => Some (SInt I32)
  | "u32" => Some (SInt U32)
  | "i64" => Some (SInt I64)
  | "u64" => Some (SInt U64)
  | "f32" => Some (SFloat false)
  | "f64" => Some (SFloat true)
  | _ => None
  end%string.

(** [From<&syn::Path>] (field.rs:235-267), by the last segment; its argument
    is looked at by [From<&syn::PathSegment>] (field.rs:282-300). *)
Fixpoint from_path (t : rty) : mres kind :=
  match t with
  | RPath segs =>
      (fix last_segment (l : rpath) : mres kind :=
         match l with
         | [] => MOk (KUser segs)
         | (id, args) :: l' =>
             match l' with
             | _ :: _ => last_segment l'
             | [] =>
                 let inner :=
                   match args with
                   | Some (Some t' :: _) =>
                       match t' with
                       | RPath _ => from_path t'
                       | RGroup t'' =>
                           match t'' with
                           | RPath _ => from_path t''
                           | _ => MPanic "unable to match"
                           end
                       | ROther => MPanic "unable to match"
                       end
                   | _ => MPanic "unable to match"
                   end in
                 match simple_named id with
                 | Some s => MOk (KSimple s)
                 | None =>
                     if String.eqb id "Option" then do k <- inner; MOk (KOpt k)
                     else if String.eqb id "Vec" then do k <- inner; MOk (KVec k)
                     else MOk (KUser segs)
                 end
             end
         end) segs
  | _ => MPanic "unable to match"
  end.

(** [From<&syn::Field>] (field.rs:269-280). *)
Fixpoint get_type (t : rty) : mres kind :=
  match t with
  | RGroup t' => get_type t'
  | RPath _ => from_path t
  | ROther => MPanic "unable to match"
  end.

Definition nested (k : kind) : bool :=
  match k with KOpt _ | KVec _ => true | _ => false end.
Definition user_kind (k : kind) : bool := match k with KUser _ => true | _ => false end.

(** ** Fields *)

(** [YaSerdeField] (field.rs:11-25). *)
Record yfield := YField { y_ident : option string; y_attrs : yattr; y_ty : rty }.
Definition ya_field (f : rfield) : mres yfield :=
  do a <- yattr_from (rf_attrs f); MOk (YField (rf_ident f) a (rf_ty f)).

(** [renamed_label_without_namespace] (field.rs:59-65): [unwrap] on the name
    of a field of a tuple struct. *)
Definition label_of (y : yfield) : mres string :=
  match ya_rename (y_attrs y), y_ident y with
  | Some r, _ => MOk r
  | None, Some i => MOk i
  | None, None => MPanic "called `Option::unwrap()` on a `None` value"
  end.

(** [Ident::new] (proc-macro2) panics on texts that are no identifiers.
    Simplified: bytes above 127 are all let through. *)
Definition ident_start (c : ascii) : bool :=
  let n := nat_of_ascii c in
  (Nat.leb 65 n && Nat.leb n 90 || Nat.leb 97 n && Nat.leb n 122 || Nat.eqb n 95 || Nat.leb 128 n)%bool.
Definition ident_continue (c : ascii) : bool :=
  let n := nat_of_ascii c in (ident_start c || Nat.leb 48 n && Nat.leb n 57)%bool.
Fixpoint all_chars (p : ascii -> bool) (s : string) : bool :=
  match s with EmptyString => true | String c s' => (p c && all_chars p s')%bool end.
Definition is_ident (s : string) : bool :=
  match s with EmptyString => false | String c s' => (ident_start c && all_chars ident_continue s')%bool end.
(** [get_default_function], [get_skip_serializing_if_function] (field.rs:129-143). *)
Definition function_ok (o : option string) : mres unit :=
  match o with
  | Some f => if is_ident f then mok else MPanic "not a valid Ident"
  | None => mok
  end.

(** ** Panics of the deserializer *)

(** One field of a struct (de/expand_struct.rs:22-378). *)
Definition de_field (f : rfield) : mres unit :=
  do y <- ya_field f;
  do k <- get_type (y_ty y);
  let a := y_attrs y in
  (* variables, 22-48 *)
  match k with
  | KVec k' => if nested k' then MPanic "Option or Vec nested in Vec<>" else mok
  | _ => mok
  end ;!
  (* visitors, 50-141: named after the label *)
  (if (ya_attribute a || match k with
                         | KVec k' | KOpt k' => negb (user_kind k')
                         | KUser _ => false
                         | KSimple _ => true
                         end)%bool
   then match k with
        | KVec k' | KOpt k' => if nested k' then mok else label_of y ;! mok
        | _ => label_of y ;! mok
        end
   else mok) ;!
  (* elements, 143-201 *)
  (if (negb (ya_attribute a) && negb (ya_flatten a))%bool
   then label_of y ;!
        match k with
        | KVec k' | KOpt k' => if nested k' then MPanic "not implemented" else mok
        | _ => mok
        end
   else mok) ;!
  (* flattened, 203-224 *)
  (if (negb (ya_attribute a) && ya_flatten a)%bool
   then match k with
        | KUser _ => mok
        | KOpt (KUser _) => mok
        | _ => MPanic """flatten"" is not implemented"
        end
   else mok) ;!
  (* attributes, 226-316 *)
  (if ya_attribute a
   then label_of y ;!
        match k with
        | KVec k' | KOpt k' => if nested k' then MPanic "not implemented" else mok
        | _ => mok
        end
   else mok) ;!
  (* construction, 348-378 *)
  match k with
  | KOpt _ | KVec _ => mok
  | _ => function_ok (ya_default a)
  end.

(** A field of a tuple variant (de/expand_enum.rs:157-317): visitors and
    their calls are named after the simple type. *)
Definition de_payload (f : rfield) : mres unit :=
  do y <- ya_field f;
  do k <- get_type (y_ty y);
  match k with
  | KOpt k' | KVec k' => if nested k' then MPanic "Not a simple type" else mok
  | _ => mok
  end.

(** [parse_variant] (de/expand_enum.rs:114-155). *)
Definition de_variant (v : rvariant) : mres unit :=
  yattr_from (rv_attrs v) ;!
  match rv_fields v with
  | RUnnamed fs =>
      mall de_payload fs ;!
      if Nat.ltb 1 (length fs) then MPanic "enum variant with multiple fields" else mok
  | _ => mok
  end.

(** [expand_derive_deserialize] (de/mod.rs:9-55). *)
Definition derive_de (i : ritem) : mres unit :=
  yattr_from (ri_attrs i) ;!
  match ri_data i with
  | RStruct fs => mall de_field (fields_of fs)
  | REnum vs => mall de_variant vs
  | RUnion => MPanic "not implemented"
  end.

(** ** Panics of the serializer *)

(** One field of a struct (ser/expand_struct.rs:16-356). *)
Definition ser_field (f : rfield) : mres unit :=
  do y <- ya_field f;
  let a := y_attrs y in
  if ya_attribute a then
    (* 24-122 *)
    label_of y ;!
    do k <- get_type (y_ty y);
    match k with
    | KVec _ => mok
    | KOpt (KOpt _) => MPanic "not implemented"
    | _ => function_ok (ya_skip_if a) ;! function_ok (ya_default a)
    end
  else
    (if ya_flatten a then get_type (y_ty y) ;! mok else mok) ;!   (* 124-136 *)
    if ya_text a then get_type (y_ty y) ;! mok                    (* 148-160 *)
    else
      label_of y ;! function_ok (ya_default a) ;! function_ok (ya_skip_if a) ;!
      if ya_cdata a then mok                                      (* 164-175 *)
      else
        do k <- get_type (y_ty y);                                (* 177-354 *)
        match k with
        | KOpt (KOpt _) => MPanic "not implemented"
        | KVec (KVec _) => MPanic "not implemented"
        | _ => mok
        end.

(** [get_id] (ser/expand_enum.rs:18-22) evaluates [get_simple_type_visitor],
    which panics on options and lists and builds an identifier from the path
    of a user type: "a :: B" and "B < T >" are none. *)
Definition get_id (k : kind) : mres unit :=
  match k with
  | KSimple _ => mok
  | KUser [(_, None)] => mok
  | KUser _ => MPanic "not a valid Ident"
  | _ => MPanic "Not a simple type"
  end.

(** A field of a variant (ser/expand_enum.rs:44-97, 142-319). *)
Definition ser_vfield (named : bool) (f : rfield) : mres unit :=
  do y <- ya_field f;
  let a := y_attrs y in
  (if ya_attribute a then do k <- get_type (y_ty y); get_id k
   else if ya_flatten a then do k <- get_type (y_ty y); if user_kind k then get_id k else mok
   else mok) ;!
  if ya_attribute a then mok
  else if named then
    if ya_text a then mok else label_of y ;! get_type (y_ty y) ;! mok
  else get_type (y_ty y) ;! mok.

Definition ser_variant (v : rvariant) : mres unit :=
  yattr_from (rv_attrs v) ;!
  match rv_fields v with
  | RUnit => mok
  | RUnnamed fs => mall (ser_vfield false) fs
  | RNamed fs => mall (ser_vfield true) fs
  end.

(** [expand_derive_serialize] (ser/mod.rs:12-44). *)
Definition derive_ser (i : ritem) : mres unit :=
  yattr_from (ri_attrs i) ;!
  match ri_data i with
  | RStruct fs => mall ser_field (fields_of fs)
  | REnum vs => mall ser_variant vs
  | RUnion => MPanic "not implemented"
  end.

(** [derive_primitive] (lib.rs:51-62): [extract_full_path(di).unwrap()]
    (primitives.rs:87, 107-119) wants a tuple struct whose first field has a
    path as its type. *)
Definition derive_primitive (i : ritem) : mres unit :=
  match ri_data i with
  | RStruct (RUnnamed (f :: _)) =>
      match rf_ty f with RPath _ => mok | _ => MPanic "Unable to extract full path" end
  | _ => MPanic "Unable to extract full path"
  end.

(** ** Names of visitors *)

(** [replace('.', "_")]. *)
Fixpoint dots (s : string) : string :=
  match s with
  | EmptyString => EmptyString
  | String c s' => String (if Ascii.eqb c "." then "_" else c) (dots s')
  end%char.

(** [segments.iter().map(|s| s.ident.to_string()).collect()]. *)
Definition path_text (p : rpath) : string := String.concat "" (map fst p).

(** [get_visitor_ident] (field.rs:83-119), without the leading "__Visitor_".
    [camel] is heck's [to_upper_camel_case]. *)
Definition visitor_ident (camel : string -> string) (a : yattr) (label : string) (p : option rpath) : string :=
  (if ya_attribute a then "Attribute_" else "")
  +++ (match ya_prefix a with Some q => camel q +++ "_" | None => "" end)
  +++ camel (dots label) +++ "_"
  +++ (match p with Some p => path_text p | None => "" end).

(** The visitor generated for a field, if any (de/expand_struct.rs:50-141). *)
Definition visitor_for (camel : string -> string) (a : yattr) (label : string) (k : kind) : option string :=
  let base k :=
    match k with
    | KSimple _ => Some (visitor_ident camel a label None)
    | KUser p => if ya_attribute a then Some (visitor_ident camel a label (Some p)) else None
    | _ => None
    end in
  match k with
  | KOpt k' | KVec k' => base k'
  | _ => base k
  end.

(** ** Type definitions

    [resolve] finds the user type a path names; [dflt] is the value of
    [Default::default()] (only used for enums). *)
Definition lower_base (resolve : rpath -> option nat) (k : kind) : option base :=
  match k with
  | KSimple s => Some (BSimple s)
  | KUser p => match resolve p with Some i => Some (BUser i) | None => None end
  | _ => None
  end.
Definition omap {A B} (f : A -> B) (o : option A) : option B :=
  match o with Some a => Some (f a) | None => None end.
Definition lower_kind (resolve : rpath -> option nat) (k : kind) : option fty :=
  match k with
  | KOpt (KVec k') => omap TOptVec (lower_base resolve k')
  | KOpt k' => omap TOpt (lower_base resolve k')
  | KVec k' => omap TVec (lower_base resolve k')
  | _ => omap TBase (lower_base resolve k)
  end.
Definition lower_type (resolve : rpath -> option nat) (t : rty) : option fty :=
  match get_type t with MOk k => lower_kind resolve k | MPanic _ => None end.
Definition lower_attrs (l : list rattr) : option yattr :=
  match yattr_from l with MOk a => Some a | MPanic _ => None end.
Definition lower_field (resolve : rpath -> option nat) (f : rfield) : option field :=
  match rf_ident f, lower_attrs (rf_attrs f), lower_type resolve (rf_ty f) with
  | Some i, Some a, Some t => Some (Field i a t)
  | _, _, _ => None
  end.
Fixpoint oall {A B} (f : A -> option B) (l : list A) : option (list B) :=
  match l with
  | [] => Some []
  | a :: l' => match f a, oall f l' with Some b, Some m => Some (b :: m) | _, _ => None end
  end.
(** A tuple variant without fields is never matched (de/expand_enum.rs:137-151
    takes its first field) and writes nothing: like a variant `V {}`. *)
Definition lower_vbody (resolve : rpath -> option nat) (fs : rfields) : option vbody :=
  match fs with
  | RUnit => Some VbUnit
  | RUnnamed [] => Some (VbNamed [])
  | RUnnamed [f] =>
      match lower_attrs (rf_attrs f), lower_type resolve (rf_ty f) with
      | Some a, Some t => Some (VbNew (ya_flatten a) t)
      | _, _ => None
      end
  | RUnnamed _ => None
  | RNamed l => omap VbNamed (oall (lower_field resolve) l)
  end.
Definition lower_variant (resolve : rpath -> option nat) (v : rvariant) : option variant :=
  match lower_attrs (rv_attrs v), lower_vbody resolve (rv_fields v) with
  | Some a, Some b => Some (Variant (rv_ident v) a b)
  | _, _ => None
  end.
Definition lower_item (resolve : rpath -> option nat) (dflt : value) (i : ritem) : option typedef :=
  match lower_attrs (ri_attrs i) with
  | None => None
  | Some a =>
      match ri_data i with
      | RStruct fs => omap (fun l => TypeDef (ri_ident i) a (DStruct l)) (oall (lower_field resolve) (fields_of fs))
      | REnum vs => omap (fun l => TypeDef (ri_ident i) a (DEnum l dflt)) (oall (lower_variant resolve) vs)
      | RUnion => None
      end
  end.
