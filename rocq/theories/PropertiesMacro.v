(** * C44 to C46, C67: what the derive macros make of a definition.

    Vocabulary: SpecMacro.v. *)
From Verif Require Import Str Num Xml XmlText Reader Schema Conform Macro SpecMacro MacroProofs.
Open Scope list_scope.

(** ** C44: a field is handled as the type it has *)

Definition C44_full : Prop :=
  forall sc t ty k, Means sc t ty -> get_type t = MOk k -> handled k = ty.

(** Only the last segment of a path is looked at: a user type `my::String` is
    taken for the standard one. *)
Definition my_scope : scope := fun p =>
  match p with ["my"; "String"] => IsOther | ["String"] => IsSimple SString | _ => IsOther end%string.
Theorem C44_refuted : ~ C44_full.
Proof.
  intros H.
  specialize (H my_scope (RPath [("my", None); ("String", None)]) (TyUser [("my", None); ("String", None)]) (KSimple SString)).
  discriminate H; [apply M_user; reflexivity|reflexivity].
Qed.
Print Assumptions C44_refuted.

(** A type alias is taken for a user type: `type Text = String`. *)
Definition alias_scope : scope := fun p => match p with ["Text"] => IsSimple SString | _ => IsOther end%string.
Theorem C44_alias_refuted : ~ C44_full.
Proof.
  intros H.
  specialize (H alias_scope (RPath [("Text", None)]) (TySimple SString) (KUser [("Text", None)])).
  discriminate H; [apply M_simple; reflexivity|reflexivity].
Qed.
Print Assumptions C44_alias_refuted.

(** Missing for the full claim: modules that redefine or alias the names of
    the prelude. *)
Theorem C44_prelude_partial :
  forall sc t ty k, unshadowed sc -> Means sc t ty -> get_type t = MOk k -> handled k = ty.
Proof. exact classified. Qed.
Print Assumptions C44_prelude_partial.

(** And no type is refused whose arguments are in at most one group. *)
Theorem C44_total_partial :
  forall sc t ty, unshadowed sc -> Means sc t ty -> ungrouped t -> exists k, get_type t = MOk k /\ handled k = ty.
Proof. exact classifiable. Qed.
Print Assumptions C44_total_partial.

Definition std : scope := fun p =>
  match find (fun e => String.eqb (fst e) (last p "")) prelude with Some (_, m) => m | None => IsOther end.

Lemma last_snoc {A} (p : list A) a d : last (p ++ [a]) d = a.
Proof. induction p as [|b p IH]; [reflexivity|]. cbn [app last]. destruct (p ++ [a]) eqn:E; [destruct p; discriminate E|exact IH]. Qed.

(** `std::option::Option<Vec<u8>>`, with `u8` substituted by a macro. *)
Definition bytes : rty :=
  RPath [("std", None); ("option", None); ("Option", Some [Some (RPath [("Vec", Some [Some (RGroup (RPath [("u8", None)]))])])])].
Example C44_case :
  unshadowed std /\ Means std bytes (TyOption (TyVec (TySimple (SInt U8)))) /\ ungrouped bytes /\
  get_type bytes = MOk (KOpt (KVec (KSimple (SInt U8)))).
Proof.
  split.
  { split; [|split; [|reflexivity]].
    - intros p id m Hin. unfold std. rewrite last_snoc. cbn [prelude In] in Hin.
      repeat match type of Hin with
      | _ \/ _ => destruct Hin as [Hin|Hin]; [injection Hin as <- <-; reflexivity|]
      end. destruct Hin.
    - intros p id Hin. unfold std. rewrite last_snoc.
      destruct (find _ _) as [[i m]|] eqn:E; [|reflexivity].
      apply find_some in E. destruct E as [E1 E2]. cbn [fst] in E2. apply String.eqb_eq in E2. subst i.
      exfalso. exact (Hin m E1). }
  split.
  { apply (M_option std [("std", None); ("option", None)]); [reflexivity|].
    apply (M_vec std []); [reflexivity|]. apply M_group, M_simple. reflexivity. }
  split; [|vm_compute; reflexivity].
  constructor. intros pre id a rest E.
  destruct pre as [|? [|? [|? [|? pre]]]]; try discriminate E. injection E as _ _ _ Ea _. subst a. split; [exact I|].
  constructor. intros pre' id' a' rest' E'.
  destruct pre' as [|? [|? pre']]; try discriminate E'. injection E' as _ Ea' _. subst a'. split; [exact I|].
  apply U_group. constructor. intros pre'' id'' a'' rest'' E''.
  destruct pre'' as [|? [|? pre'']]; discriminate E''.
Qed.

(** ** C45: unsupported definitions are compile-time errors *)

Definition C45_full : Prop :=
  forall i f, derive_de i = MOk tt -> derive_ser i = MOk tt -> In f (all_fields i) ->
    exists k, get_type (rf_ty f) = MOk k /\ storable k.

Definition ty (s : string) : rty := RPath [(s, None)].
Definition tyA (s : string) (a : rty) : rty := RPath [(s, Some [Some a])].
Definition opts (a : yattr) : list rattr := [RAttr "yaserde" (MetaList (Ok a))].

(** Struct-like variants are not looked at by the deserializer (they are
    never read, C29), and the serializer drops options in them. *)
Definition named_variant : ritem :=
  RItem "E" [] (REnum [RVariant "A" [] (RNamed [RField (Some "x") [] (tyA "Option" (tyA "Option" (ty "u8")))])]).
Theorem C45_refuted : ~ C45_full.
Proof.
  intros H.
  destruct (H named_variant (RField (Some "x") [] (tyA "Option" (tyA "Option" (ty "u8"))))) as [k [Hk Hs]];
    [vm_compute; reflexivity|vm_compute; reflexivity|left; reflexivity|].
  vm_compute in Hk. injection Hk as <-. exact Hs.
Qed.
Print Assumptions C45_refuted.

(** Exactly the definitions for which [YaDeserialize] can be derived.
    Missing for the full claim: struct-like variants. *)
Theorem C45_deserialize_partial : forall i, derive_de i = MOk tt <-> readable i.
Proof. exact derive_de_readable. Qed.
Print Assumptions C45_deserialize_partial.

(** Exactly the definitions for which [YaSerialize] can be derived. *)
Theorem C45_serialize_partial : forall i, derive_ser i = MOk tt <-> writable i.
Proof. exact derive_ser_writable. Qed.
Print Assumptions C45_serialize_partial.

(** Every definition [YaDeserialize] can be derived for is a type definition
    of the model, with fields that are scalars, options or lists of scalars.
    Missing: definitions with unnamed struct fields or struct-like variants. *)
Theorem C45_modelled_partial : forall resolve d i,
  derive_de i = MOk tt -> named_fields i -> (forall p, resolve p <> None) ->
  exists t, lower_item resolve d i = Some t /\ forms t.
Proof. exact derived_modelled. Qed.
Print Assumptions C45_modelled_partial.

(** A struct with an attribute, an optional user type and a list. *)
Definition person_item : ritem :=
  RItem "Person" (RAttr "derive" (MetaList (Er "")) :: opts (YAttr false None None false [("p", "urn:p")] (Some "p") None None false None false false))
    (RStruct (RNamed
      [RField (Some "id") (opts (a_attr ya0)) (ty "u32");
       RField (Some "home") [] (tyA "Option" (ty "Address"));
       RField (Some "names") (opts (YAttr false (Some "no_names") None false [] None (Some "name") None false None false false)) (tyA "Vec" (ty "String"))])).
Example C45_case :
  derive_de person_item = MOk tt /\ derive_ser person_item = MOk tt /\ named_fields person_item /\
  lower_item (fun _ => Some 1) (VRec []) person_item =
    Some (struct_ "Person" (YAttr false None None false [("p", "urn:p")] (Some "p") None None false None false false)
      [fldA "id" (a_attr ya0) (tint U32); fld "home" (TOpt (BUser 1));
       fldA "names" (YAttr false (Some "no_names") None false [] None (Some "name") None false None false false) (TVec (BSimple SString))]).
Proof.
  split; [vm_compute; reflexivity|]. split; [vm_compute; reflexivity|].
  split; [cbn; repeat constructor; discriminate|vm_compute; reflexivity].
Qed.

(** A flattened field of a tuple variant with a path of two segments makes
    the serializer panic, though it is not used as a name. *)
Example C45_case_path :
  let i t := RItem "E" [] (REnum [RVariant "A" [] (RUnnamed [RField None (opts (a_flatten ya0)) t])]) in
  derive_de (i (RPath [("m", None); ("T", None)])) = MOk tt /\
  derive_ser (i (RPath [("m", None); ("T", None)])) <> MOk tt /\
  derive_ser (i (ty "T")) = MOk tt.
Proof. repeat split; vm_compute; (discriminate || reflexivity). Qed.

(** Refused: flattened scalars, nested lists, default functions with a path,
    tuple variants with two fields, unions. *)
Definition one_field (a : yattr) (t : rty) : ritem := RItem "S" [] (RStruct (RNamed [RField (Some "x") (opts a) t])).
Example C45_case_refused :
  derive_de (one_field (a_flatten ya0) (ty "String")) <> MOk tt /\
  derive_de (one_field ya0 (tyA "Vec" (tyA "Vec" (ty "u8")))) <> MOk tt /\
  derive_de (one_field (YAttr false (Some "m::f") None false [] None None None false None false false) (ty "u8")) <> MOk tt /\
  derive_de (RItem "E" [] (REnum [RVariant "A" [] (RUnnamed [RField None [] (ty "u8"); RField None [] (ty "u8")])])) <> MOk tt /\
  derive_de (RItem "U" [] RUnion) <> MOk tt /\
  derive_ser (one_field ya0 (tyA "Vec" (tyA "Vec" (ty "u8")))) <> MOk tt /\
  derive_ser (one_field ya0 (tyA "Vec" (tyA "Option" (ty "A")))) = MOk tt.
Proof. repeat split; vm_compute; (discriminate || reflexivity). Qed.

(** The derives of newtypes accept tuple structs whose first field is named by
    a path, and nothing else. *)
Theorem C45_primitive_partial : forall i, derive_primitive i = MOk tt <-> wrapper i.
Proof. exact primitive_wrapper. Qed.
Print Assumptions C45_primitive_partial.
Example C45_case_primitive :
  wrapper (RItem "Flags" [] (RStruct (RUnnamed [RField None [] (ty "u32")]))) /\
  derive_primitive (RItem "Flags" [] (RStruct (RNamed [RField (Some "bits") [] (ty "u32")]))) <> MOk tt /\
  derive_primitive (RItem "Flags" [] (RStruct (RUnnamed [RField None [] ROther]))) <> MOk tt.
Proof. split; [do 3 eexists; split; reflexivity|]. split; vm_compute; discriminate. Qed.

(** ** C67: definitions are taken as they are written *)

(** The type definition that the code is generated for has the names, options
    and types of the Rust definition, in its order. *)
Theorem C67_definition : forall sc resolve d i t,
  unshadowed sc -> lower_item resolve d i = Some t -> defined_as sc resolve i t.
Proof. exact lowered_as. Qed.
Print Assumptions C67_definition.

(** For every definition the deserializer can be derived for. *)
Theorem C67_derived : forall sc resolve d i, unshadowed sc ->
  derive_de i = MOk tt -> named_fields i -> (forall p, resolve p <> None) ->
  exists t, lower_item resolve d i = Some t /\ defined_as sc resolve i t.
Proof. exact derived_as. Qed.
Print Assumptions C67_derived.

(** An enum with a flattened struct, a list and a struct-like variant, and a
    struct with `Option<Vec<u8>>`. *)
Definition reply_item : ritem :=
  RItem "Reply" [] (REnum
    [RVariant "Empty" [] RUnit; RVariant "Many" (opts (a_rename "many" ya0)) (RUnnamed [RField None [] (tyA "Vec" (ty "m"))]);
     RVariant "Flat" [] (RUnnamed [RField None (opts (a_flatten ya0)) (RGroup (ty "m"))]);
     RVariant "Both" [] (RNamed [RField (Some "code") [] (ty "u8"); RField (Some "raw") [] bytes])]).
Example C67_case :
  unshadowed std /\ derive_de person_item = MOk tt /\ named_fields person_item /\
  lower_item (fun _ => Some 1) (VVar 0 []) reply_item =
    Some (enum_ "Reply" ya0
      [vunit "Empty"; Variant "Many" (a_rename "many" ya0) (VbNew false (TVec (BUser 1))); Variant "Flat" ya0 (VbNew true (tuser 1));
       Variant "Both" ya0 (VbNamed [fld "code" (tint U8); fld "raw" (TOptVec (BSimple (SInt U8)))])] (VVar 0 [])).
Proof.
  split; [exact (proj1 C44_case)|]. split; [vm_compute; reflexivity|]. split; [cbn; repeat constructor; discriminate|vm_compute; reflexivity].
Qed.

(** ** C46: visitors have different names *)

(** Two fields of one struct that look different in XML get different
    visitors; otherwise the generated code does not compile. *)
Definition C46_full (camel : string -> string) : Prop :=
  forall a1 l1 k1 v1 a2 l2 k2 v2,
    visitor_for camel a1 l1 k1 = Some v1 -> visitor_for camel a2 l2 k2 = Some v2 ->
    appearance a1 l1 <> appearance a2 l2 -> v1 <> v2.

(** Whatever camel case does: elements `a.b` and `a_b`. *)
Theorem C46_refuted : forall camel, ~ C46_full camel.
Proof.
  intros camel H.
  apply (H ya0 "a.b"%string (KSimple SString) _ ya0 "a_b"%string (KSimple SString) _ eq_refl eq_refl); [|reflexivity].
  intros E. discriminate E.
Qed.
Print Assumptions C46_refuted.

(** An attribute `x` and an element `attribute:x`. *)
Theorem C46_attribute_refuted : forall camel, camel "attribute"%string = "Attribute"%string -> ~ C46_full camel.
Proof.
  intros camel Hc H.
  apply (H (a_attr ya0) "x"%string (KSimple SString) _
           (YAttr false None None false [] (Some "attribute"%string) None None false None false false) "x"%string (KSimple SString) _
           eq_refl eq_refl); [intros E; discriminate E|].
  unfold visitor_ident. cbn [ya_attribute ya_prefix a_attr ya0]. rewrite Hc. reflexivity.
Qed.
Print Assumptions C46_attribute_refuted.

(** Missing for the full claim: names that camel case makes equal, and the
    prefix "attribute". *)
Theorem C46_distinct_partial :
  forall camel a1 l1 k1 v1 a2 l2 k2 v2,
    visitor_for camel a1 l1 k1 = Some v1 -> visitor_for camel a2 l2 k2 = Some v2 ->
    calm_camel camel a1 l1 k1 -> calm_camel camel a2 l2 k2 ->
    distinct_by (fun l => camel (dots l)) l1 l2 ->
    (forall p q, ya_prefix a1 = Some p -> ya_prefix a2 = Some q -> distinct_by camel p q) ->
    appearance a1 l1 <> appearance a2 l2 -> v1 <> v2.
Proof. exact visitors_distinct. Qed.
Print Assumptions C46_distinct_partial.

(** Camel case of lower-case ASCII names. *)
Definition up (c : ascii) : ascii :=
  let n := nat_of_ascii c in if (Nat.leb 97 n && Nat.leb n 122)%bool then ascii_of_nat (n - 32) else c.
Fixpoint camel_ (start : bool) (s : string) : string :=
  match s with
  | EmptyString => EmptyString
  | String c s' => if Ascii.eqb c "_" then camel_ true s' else String (if start then up c else c) (camel_ false s')
  end%char.
Example C46_case :
  let a := a_attr ya0 in
  let p := YAttr false None None false [] (Some "x"%string) None None false None false false in
  visitor_for (camel_ true) a "first.name" (KOpt (KUser [("N", None)])) = Some "Attribute_FirstName_N"%string /\
  visitor_for (camel_ true) p "first_name" (KSimple SBool) = Some "X_FirstName_"%string /\
  calm_camel (camel_ true) a "first.name" (KOpt (KUser [("N", None)])) /\
  calm_camel (camel_ true) p "last_name" (KSimple SBool) /\
  distinct_by (fun l => camel_ true (dots l)) "first.name" "last_name".
Proof.
  split; [vm_compute; reflexivity|]. split; [vm_compute; reflexivity|].
  split. { split; [vm_compute; repeat split; discriminate|]. split; [intros q E; discriminate E|vm_compute; repeat split; discriminate]. }
  split. { split; [vm_compute; repeat split; discriminate|].
           split; [intros q E; injection E as <-; split; [vm_compute; repeat split; discriminate|vm_compute; discriminate]|exact I]. }
  intros E. vm_compute in E. discriminate E.
Qed.
